-Q theories Verif
theories/Base.v
theories/BaseLemmas.v
theories/RingBufferModel.v
theories/RingBufferSpec.v
theories/RingBufferProofs.v
theories/RingBufferProps.v
theories/UnionFindModel.v
theories/UnionFindSpec.v
theories/UnionFindProofs.v
theories/UnionFindProps.v
theories/CInt.v
theories/TimeModel.v
theories/TimeSpec.v
theories/TimeProofs.v
theories/TimeProps.v
theories/Text.v
theories/IsoModel.v
theories/IsoSpec.v
theories/IsoProofs.v
theories/IsoProps.v
theories/SequenceNumberModel.v
theories/SequenceNumberSpec.v
theories/SequenceNumberProofs.v
theories/SequenceNumberProps.v
theories/StringHelperModel.v
theories/StringHelperSpec.v
theories/StringHelperProofs.v
theories/StringHelperProps.v
theories/SMap.v
theories/KeyValueDirectoryModel.v
theories/KeyValueDirectorySpec.v
theories/KeyValueDirectoryProofs.v
theories/KeyValueDirectoryProps.v
theories/SetHelperModel.v
theories/SetHelperSpec.v
theories/SetHelperProofs.v
theories/SetHelperProps.v
theories/SmallModel.v
theories/SmallSpec.v
theories/SmallProofs.v
theories/SmallProps.v
theories/Sha2Model.v
theories/Sha2Spec.v
theories/Sha2Rounds.v
theories/Sha2Proofs.v
theories/Sha2Props.v
theories/Conc.v
theories/SingletonModel.v
theories/SingletonSpec.v
theories/SingletonProofs.v
theories/SingletonProps.v
theories/ActiveObjectModel.v
theories/ActiveObjectSpec.v
theories/ActiveObjectProofs.v
theories/ActiveObjectProps.v
theories/ActiveObjectFairSpec.v
theories/ActiveObjectFairProofs.v
theories/ActiveObjectFairProps.v
theories/RWLockModel.v
theories/RWLockSpec.v
theories/RWLockProofs.v
theories/RWLockProps.v
theories/RWLockFairSpec.v
theories/RWLockFairProofs.v
theories/RWLockFairProps.v
theories/SpinLockModel.v
theories/SpinLockSpec.v
theories/SpinLockProofs.v
theories/SpinLockProps.v
theories/SpinLockFairSpec.v
theories/SpinLockFairProofs.v
theories/SpinLockFairProps.v
theories/ThreadModel.v
theories/ThreadSpec.v
theories/ThreadProofs.v
theories/ThreadProps.v
theories/ThreadFairSpec.v
theories/ThreadFairProofs.v
theories/ThreadFairProps.v
theories/PeriodModel.v
theories/PeriodSpec.v
theories/PeriodProofs.v
theories/PeriodProps.v
theories/SchemeModel.v
theories/SchemeSpec.v
theories/SchemeProofs.v
theories/SchemeProps.v
theories/GetoptModel.v
theories/GetoptSpec.v
theories/GetoptProofs.v
theories/GetoptProps.v
theories/ConfigModel.v
theories/ConfigSpec.v
theories/ConfigProofs.v
theories/ConfigProps.v
theories/FilePathModel.v
theories/FilePathSpec.v
theories/FilePathProofs.v
theories/FilePathProps.v
theories/LogTextModel.v
theories/LogTextSpec.v
theories/LogTextProofs.v
theories/LogTextProps.v
theories/LogStreamModel.v
theories/LogStreamSpec.v
theories/LogStreamProofs.v
theories/LogStreamProps.v
theories/LogStreamFairSpec.v
theories/LogStreamFairProofs.v
theories/LogStreamFairProps.v
theories/LogOutputModel.v
theories/LogOutputSpec.v
theories/LogOutputProofs.v
theories/LogOutputProps.v
theories/Fair.v
theories/FairLemmas.v
theories/LogOutputFairSpec.v
theories/LogOutputFairProofs.v
theories/LogOutputFairProps.v
theories/LogManagerModel.v
theories/LogManagerSpec.v
theories/LogManagerProofs.v
theories/LogManagerProofs2.v
theories/LogManagerProofs3.v
theories/LogManagerProofs4.v
theories/LogManagerProofs5.v
theories/LogManagerProofs6.v
theories/LogManagerProofs7.v
theories/LogManagerProps.v
theories/LogPrintModel.v
theories/LogPrintSpec.v
theories/LogPrintProofs.v
theories/LogPrintProps.v
theories/ATreeModel.v
theories/ATreeSpec.v
theories/ATreeProofs.v
theories/ATreeProofs2.v
theories/ATreeProofs3.v
theories/ATreeProofs4.v
theories/ATreeProofs5.v
theories/ATreeProofs6.v
theories/ATreeProofs7.v
theories/ATreeProofs8.v
theories/ATreeProofs9.v
theories/ATreeProofs10.v
theories/ATreeProofs11.v
theories/ATreeExamples.v
theories/ATreeProps.v
theories/ATreeProps2.v
theories/ATreeTextModel.v
theories/ATreeTextSpec.v
theories/ATreeTextProofs.v
theories/ATreeTextProofs2.v
theories/ATreeTextProofs3.v
theories/ATreeTextProofs4.v
theories/ATreeTextProofs5.v
theories/ATreeTextProofs6.v
theories/ATreeTextProofs7.v
theories/ATreeTextProofs8.v
theories/ATreeTextProofs9.v
theories/ATreeTextProofs10.v
theories/ATreeTextExamples.v
theories/ATreeTextProofs11.v
theories/ATreeTextProps.v
theories/ConfigGetModel.v
theories/ConfigGetSpec.v
theories/ConfigGetProofs.v
theories/ConfigGetProps.v
theories/ConfigBatchModel.v
theories/ConfigBatchSpec.v
theories/ConfigBatchProofs.v
theories/ConfigBatchProps.v
theories/PluginModel.v
theories/PluginSpec.v
theories/PluginProofs.v
theories/PluginProps.v
theories/FileLogModel.v
theories/FileLogSpec.v
theories/FileLogProofs.v
theories/FileLogProofs2.v
theories/FileLogProps.v
theories/PerfModel.v
theories/PerfSpec.v
theories/PerfProofs.v
theories/PerfProofs2.v
theories/PerfProofs3.v
theories/PerfProps.v
theories/SqlLogModel.v
theories/SqlLogSpec.v
theories/SqlLogProofs.v
theories/SqlLogProps.v
theories/UdpLogModel.v
theories/UdpLogSpec.v
theories/UdpLogProofs.v
theories/UdpLogProps.v
theories/ScopedModel.v
theories/ScopedSpec.v
theories/ScopedProofs.v
theories/ScopedProps.v
theories/ScopedFairSpec.v
theories/ScopedFairProofs.v
theories/ScopedFairProps.v
theories/PTimerModel.v
theories/PTimerSpec.v
theories/PTimerProofs.v
theories/PTimerProps.v
theories/TimedModel.v
theories/TimedSpec.v
theories/TimedProofs.v
theories/TimedProps.v
theories/ClockModel.v
theories/ClockSpec.v
theories/ClockProofs.v
theories/ClockProps.v
theories/ScaleModel.v
theories/ScaleSpec.v
theories/ScaleProofs.v
theories/ScaleProps.v
theories/GuardModel.v
theories/GuardSpec.v
theories/GuardProofs.v
theories/GuardProps.v
theories/HelpModel.v
theories/HelpSpec.v
theories/HelpProofs.v
theories/HelpProps.v
theories/CalendarSpec.v
theories/CalendarProofs.v
theories/CalendarSortProofs.v
theories/CalendarProps.v
theories/WireModel.v
theories/WireSpec.v
theories/WireProofs.v
theories/WireProps.v
theories/StampedModel.v
theories/StampedSpec.v
theories/StampedProofs.v
theories/StampedProps.v
theories/LxrtModel.v
theories/LxrtSpec.v
theories/LxrtProofs.v
theories/LxrtProps.v
theories/DerivedModel.v
theories/DerivedSpec.v
theories/DerivedProofs.v
theories/DerivedProps.v
theories/LxrtThreadModel.v
theories/LxrtThreadSpec.v
theories/LxrtThreadProofs.v
theories/LxrtThreadProps.v
theories/DerivedFairSpec.v
theories/DerivedFairProofs.v
theories/DerivedFairProps.v
theories/FormatModel.v
theories/FormatSpec.v
theories/FormatProofs.v
theories/FormatProps.v
