# Formal model of fzi_icl_core in Coq 8.16.1

## Method

* Each source unit `X` becomes up to four flat files under `rocq/theories/`:
  `XModel.v` (executable Gallina transcription, each definition citing file:lines),
  `XSpec.v` (small independent specification, no model helper used),
  `XProofs.v` (lemmas) and `XProps.v` (only theorems with short proofs from those lemmas, `Print Assumptions`
  and non-vacuity `Example`s).
* C++ undefined behaviour, exceptions and non-termination are explicit outcomes
  of the model (`UB`, `Throw`, `OutOfFuel`, ...), never normal values.
* Fixed-width integers are modelled with explicit wrap (`mod 2^w`) or explicit overflow outcome
  wherever the property depends on them; otherwise unbounded `Z`/`N`/`nat`.
* A property that is false of the code is proved as `..._refuted` with a witness; the
  strongest true variant is proved next to it (`..._partial` if it lost strength).

## Trusted base

1. Coq 8.16.1 kernel (and its `vm_compute` machine where used).
2. The faithfulness of the hand-written models to the C++ text (the code is not run here).
3. Axioms: see "Axioms" at the end. No axioms of our own.
4. Semantics of the C++ standard library, Boost and OS calls used by the code, modelled as described
   in the comments of each model (std::vector/list/map/string = lists / finite maps;
   boost::regex = hand-written matchers for the fixed patterns, or an arbitrary match predicate for user patterns;
   mutex/semaphore/event = atomic transitions).

## Plan per property

Paths are relative to `src/icl_core/src`. Every model definition cites the lines it transcribes.

| Id | Model (what of the code) | Statement and proof |
|----|-------|-------|
| C01-C05 | `RingBufferModel.v`: vector of cap+1 cells, m_read/m_write, all member functions and iterators of `icl_core/RingBuffer.{h,hpp}` | refinement to a bounded list queue (`RingBufferSpec.v`); abstraction function reads the cells; induction over operation histories |
| C06-C07 | `UnionFindModel.v`: parent/rank vectors, recursive find with path compression (fuel = depth, shown sufficient) | invariant (forest, rank increasing, 2^rank descendants), refinement to the inductively generated equivalence closure |
| C08-C12, C15 | `TimeModel.v`: (secs,nsecs) pairs in Z with int64/int32/uint wrap written out | arithmetic (`lia` with div/mod), normal form uniqueness. C08 partial: `TimeStamp(uint64,uint32)` is wrong for nsec >= 2^31 (refuted there). C15 partial: the printed text is wrong for many spans (refuted; the exact set of spans that print correctly is proved) |
| C13-C14 | `IsoModel.v`: parser and formatter over character lists; gmtime/strftime modelled by the civil-calendar definition in the spec | calendar lemmas by induction over years; digit lemmas |
| C16-C17 | `SequenceNumberModel.v` | modular arithmetic |
| C18-C19 | `Sha2Model.v`: byte-level state machine (buffer, fill count, length, rolling 16-word schedule, rotated variable roles) generic in word size, memory initially arbitrary | spec = FIPS 180-3 with full 64/80-word schedule, constants characterised by square/cube roots of the primes; loop invariants; induction over chunks |
| C20-C22, C42 | `StringHelperModel.v` find/substr on lists | induction on strings. C21 partial: trim("") is undefined behaviour; C42 partial: tolower/toupper of a negative char is undefined behaviour |
| C23 | `StringHelperModel.v` (EnumHelper.cpp) | induction on the description list |
| C24-C25 | `KeyValueDirectoryModel.v`: sorted association list (std::map, `SMap.v`), regex = arbitrary predicate, for matchGroup an arbitrary partial function to the texts of groups | refinement to a function map |
| C26 | `SetHelperModel.v`: sorted lists, std::includes / loops | merge induction |
| C27-C30, C43 | `SmallModel.v`: ZBuffer, Array2D, BitfieldHelper, Finalizable, SearchableStack | invariants over histories, div/mod, `testbit` |
| C31 | `SingletonModel.v`: interleaving small-step system (`Conc.v`), one step per shared access | inductive invariant over all schedules; refuted for the lock-less policy and for concurrent destruction |
| C32-C33 | `SchemeModel.v`: the Spirit Classic combinators by their documented behaviour, the grammar and its semantic actions | decomposition spec, uniqueness; round trip iff (no anchor together with queries), refuted otherwise |
| C34-C35 | `GetoptModel.v`: the argument loop; matchers for the two fixed regexes, an arbitrary engine for user supplied ones | accounting relation between argv and the result, both directions; clean-up: exact condition, refuted in general |
| C36-C37 | `ConfigModel.v`: initialize/load/setValue/notify over a map and an abstract parsed tree | precedence by fold lemmas; notification trace |
| C38-C39 | `FilePathModel.v`: normalizePath, FilePath, environment substitution: the loops on character lists with fuel | denotational spec of paths; termination measures; refutations by witnesses |
| C40 | `ActiveObjectModel.v`: interleaving system of clients and worker | inductive invariants over all schedules; liveness as "a run to the goal exists from every reachable state" and in every fair execution (`ActiveObjectFair*.v`) by ranking |
| C41 | `RWLockModel.v`: RWLockImplWin32 as an interleaving system | inductive invariants; fair executions (`RWLockFair*.v`): ranking along the token of the event and the holder of the reader access lock, starvation of a writer by an infinite looping execution |
| C44 | `SpinLockModel.v` | inductive invariant; tryLock's inverted result is proved and refutes the expectation; fair executions (`SpinLockFair*.v`) under strong fairness, starvation under mere turn-taking by an infinite looping execution |
| C45 | `ThreadModel.v`: Thread on pthreads, one client and the workers it starts | inductive invariant; five expected behaviours refuted by explicit schedules; fair executions (`ThreadFair*.v`) by ranking |
| C46 | `PeriodModel.v`: time-out conversions, emulated waitPeriod, arbitrary clock readings | arithmetic, induction over executions |
| C47-C48 | `LogTextModel.v`: ThreadStream::write/printf/operator<</flush, LogMessage, level names, log format parser and printer; arrays are lists of possibly uninitialised bytes, out of bounds = UB | invariant "the stream holds the text p" kept by every piece; format grammar, both directions |
| C49 | `LogStreamModel.v`: the pool of thread streams of a LogStream and ThreadStream::write/flush as an interleaving system; pieces are texts, fixed set of outputs | inductive invariant (ownership, buffer contents of un-raced streams, delivery log); progress by a measure, and in every fair execution (`LogStreamFair*.v`) by ranking; refutations by schedules |
| C50 | `LogOutputModel.v`: push(), the worker thread, start() and shutdown() of a LogOutputStream as an interleaving system, one transition per access to shared data, interrupted waits and failing pthread_create as transitions; the queue of fixed size as sequential code | invariants (flags, mutex, order, tokens of the semaphore, wakeup at the end); progress by measures; FIFO by refinement; refutations by schedules |
| C51 | `LogManagerModel.v`: LoggingManager::initialize (reading of the configuration), configure, --log-level, --quick-debug, setLogLevel, shutdown, registerLogStream, REGISTER_LOG_STREAM's create, with streams and outputs as heap objects (a call on a deleted object is UB, a failed assertion Throw) | well-formedness invariant over all call sequences; loop invariants for the phases of configure; characterisation of the configuration reader by induction from the right; unused quick-debug name by pigeonhole. `LogPrintModel.v`: printConfiguration's text, with an arbitrary order of the outputs of a stream |
| C52 | `ATreeModel.v`: AttributeTree and SubTreeList as nodes in a heap (a dead or null pointer is UB; a flag says whether a member call on a null list is UB as in the standard or returns null as older compilers make it): setAttribute, getAttribute, getSpecialAttribute, getOrSetDefault, isAttribute, search, contains, changed, unmarkChanges. Not modelled: memory exhaustion, cells of the list, callers that pass strings living in the tree | trees as values (`repr`), effect lemma per function by induction on the tree, `forest` invariant |
| C53 | same model: constructors, destructor, unlink, unlinkSub, copies, revertOrder, newSubNodeDescription (sscanf %i, sprintf into base_len+6 bytes), addSubTree, addNextTree, firstSubTree/nextSubTree, root | `forest` preserved by every operation; induction over histories; pigeonhole for the unused number |
| C54 | ATreeTextModel: printSubTree, save, istream::getline on the static buffer, get (line by line, includes, comments), load; files are strings | relation `means` between a line and a command, `run` on contents; printed lines of a tree mean commands that build it (induction on contents); safety by a forest invariant; divergence by induction on fuel |
| C55 | ConfigGetModel: hexical_cast (std::num_get with base field 0), strict_bool_cast, get/getDefault for integers, bool, String, char, enumerations; paramOpt*, paramNonOpt* | relation `int_text` (positional notation by digit position) against the scanner: longest run of digits, totality and uniqueness; decimal printing from LogTextProofs for the round trip |
| C56 | ConfigBatchModel: entries, ConfigList with its element map, batch loops, cleanup; variables and lists are numbered, entries have addresses | relation `gives` between text and value; element map after the loop = writes per element (induction on the directory); batch = sequence of effects (`run`), split at an entry |
| C57 | PluginModel: search, handles, lazy and eager loading, queries, static plugins, destructor; the file system and the libraries are an environment | a lazy state is simulated by the state with everything loaded (`force`); invariant `settled` over the calls after the start; the spec (`behaves`) speaks about answers to calls only |
| C58 | FileLogModel.v: FileLogOutput.cpp:48-302 and os_fs.cpp zipFile over a model of the log directory; every operation may fail, any part of the stream's buffer may be written early, the process may be killed after any change of the directory (the model records all intermediate directories). The specification (FileLogSpec.v) says when a text is made of given lines. Proved by an invariant that is kept by every single change of the directory: days of archives < label of the log file <= day of its last write. Not modelled: other processes, links, full disks, the gz format, file names without a directory part except by a flag. |
| C59, C60 | PerfModel.v: the whole of PerformanceMonitor.cpp, one thread, doubles as Coq's SpecFloat (53, 1024), messages as texts in which numbers stay numbers, std::sort undefined where < is no strict weak order. The specification (PerfSpec.v) computes switches, timers and recorded values from the list of past calls only. Proved by an invariant between history and state, kept by every call; reports by induction over the sorted maps; labels split at the first "::". Not modelled: how operator<< writes a double, more than 2^31 values per label, threads. |
| C61 | SqlLogModel.v: SQLiteLogDb.cpp and the output that calls it, over a map from file names to the rows of log_entries; every SQLite statement and rename may fail and is atomic, the process may be killed between any two changes. Specification: rows with times, ascending archives. Proved by an invariant on the files of every intermediate state. Not modelled: other processes, power failure (PRAGMA synchronous=OFF), null C strings. |
| C62 | UdpLogModel.v: the datagram of UdpLogOutput.cpp, boost's Perl format syntax for the escaping, the server's statement, and SQL as far as INSERT ... VALUES with literals goes: a character automaton for SQLite's tokens, a parser for rows of literals, an answer Unknown wherever SQLite's grammar goes beyond that (comments, quoted names, variables, operators, conversions by column affinity). SQLite's grammar is trusted as transcribed. Proved by running the automaton over the datagram symbolically. Not modelled: sockets, loss and size of datagrams (the theorem is about those that arrive), encodings. |
| C63 | ScopedModel.v: constructors and destructors of the scoped locks over glibc's recursive mutexes and read-write locks (as documented: trusted); threads run arbitrary code, a history is any list of (thread, step). Proved by an invariant that counts each thread's locked scopes against the lock's own state; deadlock freedom by induction on the awaited lock; fair executions (`ScopedFair*.v`) by induction from the last lock down, strong fairness of the successful attempts. Not modelled: try and timeout variants, destruction of locks in use. |
| C64 | PTimerModel.v: makePeriodic, setPeriod and waitPeriod over the timer descriptors of Linux (as documented: trusted), PeriodicDispatchThread::run as a machine of atomic actions; events with times, interleaved with stop, setPeriod, addOperation and signals. Proved by invariants: the timer has counted the periods up to the last return; the observer's phase corresponds to the place in run(). No drift by induction over the waits. Not modelled: wakeups_missed, hard realtime. |
| C65 | TimedModel.v: the timed and non-blocking functions of Mutex, RWLock and Semaphore (POSIX, Darwin, Win32) as calls that wait with a limit computed as the code does, over primitives as documented (trusted). Proved by an invariant that ties the object to the list of holders computed from the returns, and the arithmetic of C46. |
| C66 | ClockModel.v: now, fromNow, futureMSec, the constructor from boost's ptime (as microseconds since 1970) and nanosleep, sleep, usleep of the three systems as what they ask the system for and what they answer. The system calls are trusted as documented. Proved by the arithmetic of TimeProofs.v; the retry loop by induction on the number of calls. Not modelled: the time that passes while sleeping. |
| C67 | ScaleModel.v: operator* and operator/ of TimeSpan with doubles as Coq's SpecFloat (binary64, round to nearest even), conversions to integers that truncate and are undefined out of range. Proved without real numbers: a shift lemma for SpecFloat's rounding shows that a rounded product or quotient below 2^52 stays between the neighbouring integers; the rest is rational arithmetic. |
| C68 | GuardModel.v: an interpreter for programs of nested scopes, loops, exceptions and handlers over AtScopeEnd and ScopedTimer objects, with C++'s rules for automatic objects (reverse order, unwinding, std::terminate) built in; GuardSpec.v folds a trace of calls into what is known about each object. Proved by an invariant of the interpreter relating the open objects to the trace so far, for every program. |
| C69 | HelpModel.v: the registrations with their help texts and printHelp as a string; HelpSpec.v: lines of a text, the first registration of a name, the title line of an option. Proved by splitting the text at newlines and by an invariant relating the std::map of options to the list of registration calls. |
| C70 | IsoModel.v (formatters in UTC and, with the zone as an arbitrary function, in local time); CalendarSpec.v: the Gregorian calendar on its own as a relation between successive dates, closed forwards and backwards from 1970-01-01, and numerals. Proved with a closed form of the day number that grows by one with every next day, injective on dates. CalendarSortProofs.v: texts sort as stamps for years of four digits. |
| C71 | WireModel.v: the OpenSplice and Mach conversions as pairs of fixed-width fields, on top of TimeModel.v. WireSpec.v: what another program reads in the fields, and their ranges. Proved by modular arithmetic and the normalisation lemmas of C08. |
| C72 | `StampedModel.v`: DataHeader and Stamped with uninitialised members as a distinct value, the text of print() over Boost's time format (taken from its documentation, not library code). `StampedSpec.v`: the line as a relation on numerals. Induction over writes; the texts are cut at separators that the fields cannot contain. |
| C73 | `LxrtModel.v`: checkKernelModule over istream::getline (from its documentation), the availability flag and the real-time task of the caller; RTAI's answers are inputs. `LxrtSpec.v`: lines of a text, listed modules. Induction over the lines and over the calls. |
| C74 | `DerivedModel.v`: ThreadModel with a derived destructor in phases, stopping and joining or not. `DerivedSpec.v`: destroyed data in use, a pure virtual call ahead. Invariant: after join() no worker is before or in run(); progress from C45's; counterexample schedules. `DerivedFair*.v`: termination of delete in fair executions from C45's, phase by phase. |
| C75 | `LxrtThreadModel.v`: ThreadModel over ThreadImplLxrt38 (barrier, semaphore names, RTAI tasks as environment choices), and the real-time mode around waitPeriod. Invariant of the barrier, each action a ThreadModel action or none, progress from C45's; deadlocks as states in which no action is possible. |
| C76 | `FormatModel.v`: changeLogFormat and pushImpl's loop as an interleaving system over m_format_mutex, m_log_format and m_new_log_format; a format is a list of entries, appended and printed one at a time. Inductive invariants; the mix-ups by explicit schedules. |

Liveness statements: fairness is not assumed by the models. Theorems named `..._fair_...` quantify over all infinite executions (`Fair.v`: a function from
time to state, every step taken by the model or nothing happening) and assume weak or strong fairness of named actions, in the form "again and again impossible
or taken" / "taken again and again, or impossible from some time on", which needs no classical axiom; each comes with an example of a fair execution. The others are stated as "from every reachable state some continuation reaches the goal, using only
the named threads' steps" or "a state in which nobody can move is a finished one"; each theorem says which.

## Not modelled

Real time, scheduling fairness beyond what is stated, memory allocation failure, weak memory effects (all interleaving models are sequentially
consistent; data races are reported as `..._data_race_refuted` where they were found, not excluded),
LXRT/RTAI specifics (other than the checks of C73), Windows handles (other than the RWLock protocol), XML parsing (TinyXML), SQLite, sockets, syslog,
the file system and dlopen themselves (their results are arguments of the models), output to std::cerr, the regex engine (argument of the models).

## Axioms

Every theorem listed in MANIFEST.json is followed by `Print Assumptions` in its Props file; all of them print "Closed under the global context".
The library axioms that vcheck reports (`Coq.ssr.ssrunder.*`) belong to the ssreflect module type `Under_rel` of the standard library, which is loaded
(by `Lia`/`ssreflect` dependencies) but not used by any theorem. There are no axioms, functors, module types, Admitted proofs or disabled checks here.
