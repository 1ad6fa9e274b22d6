{"id": "C01", "title": "RingBuffer behaves as a bounded FIFO queue", "statement": "For any sequence of RingBuffer operations (construct, write, overwriting write, read, skip, skip(n), clear, setCapacity, fakeWrite, and the observers size, reserve, capacity, empty, full, at, front), every returned value and every thrown std::out_of_range is the one an ideal bounded FIFO queue of the same capacity would give.", "quantifier": "every element type, every capacity, every finite operation sequence, every value written", "why_tests_cant": "the wrap-around positions reachable depend on the whole history; tests sample a handful of histories and capacities", "anchors": ["src/icl_core/src/icl_core/RingBuffer.h:RingBuffer::write/read/skip/at/size/full/empty/reserve/capacity/setCapacity", "src/icl_core/src/icl_core/RingBuffer.hpp:skip(count),fakeWrite", "src/icl_core/src/icl_core/tRingBuffer.h"]}
{"id": "C02", "title": "Overwriting writes drop exactly the oldest element", "statement": "write(v, overwrite=true) on a full buffer of capacity >= 1 removes only the oldest element and appends v, leaving all others in order and the size unchanged; on a non-full buffer it equals a plain write. write(v,false) on a full buffer throws and changes nothing. On a buffer of capacity 0, write always throws, even with overwrite=true.", "quantifier": "every buffer state reachable by any history, every value", "why_tests_cant": "requires every read/write pointer alignment, including wrap-around, and capacity 0", "anchors": ["src/icl_core/src/icl_core/RingBuffer.h:RingBuffer::write", "src/icl_core/src/icl_core/RingBuffer.h:RingBuffer::skip"]}
{"id": "C03", "title": "RingBuffer iterators enumerate the queue in FIFO order", "statement": "Iterating from begin() to end() visits each stored element exactly once, oldest first; *(begin()+i) is at(i); end()-begin() == size(); begin()+size() == end(); (begin()+i)-(begin()+j) == i-j; ++ and -- are inverse.", "quantifier": "every reachable buffer state and every pair of positions in it", "why_tests_cant": "iterator arithmetic branches on the relative order of four raw pointers; all alignments matter", "anchors": ["src/icl_core/src/icl_core/RingBuffer.h:RingBuffer::const_iterator", "src/icl_core/src/icl_core/RingBuffer.h:begin/end"]}
{"id": "C04", "title": "Raw array ranges partition the storage", "statement": "arrayOne followed by arrayTwo is exactly the queue contents in order; emptyArrayOne/Two are exactly the free cells: their lengths sum to reserve(), they do not overlap the filled cells, and filling them in order with k <= reserve() values followed by fakeWrite(k) appends exactly those k values.", "quantifier": "every reachable buffer state and every list of at most reserve() values", "why_tests_cant": "the block boundaries depend on both pointers and the zero corner cases; only a proof covers all alignments", "anchors": ["src/icl_core/src/icl_core/RingBuffer.hpp:arrayOne,arrayTwo,emptyArrayOne,emptyArrayTwo,fakeWrite"]}
{"id": "C05", "title": "setCapacity keeps the newest elements", "statement": "setCapacity(c) makes capacity() == c and keeps precisely the newest min(c, size()) elements in order.", "quantifier": "every reachable state and every new capacity, growing or shrinking", "why_tests_cant": "the copy loop reads through a wrapped old buffer; every alignment and every pair of capacities matters", "anchors": ["src/icl_core/src/icl_core/RingBuffer.h:RingBuffer::setCapacity"]}
{"id": "C06", "title": "UnionFind computes the equivalence closure of the merges", "statement": "After any sequence of construct, grow, merge and find calls, find(x) == find(y) exactly when x and y are related by the equivalence relation generated by the merged pairs; find(x) returns a member of x's class; an out-of-range index throws std::out_of_range and changes nothing observable.", "quantifier": "every number of elements, every finite sequence of merge/find/grow calls, every pair of indices", "why_tests_cant": "path compression and union by rank produce unboundedly many shapes of forest", "anchors": ["src/icl_core/src/icl_core/UnionFind.h:UnionFind::merge,find,grow"]}
{"id": "C07", "title": "UnionFind::find terminates with logarithmic recursion depth", "statement": "find never recurses more than log2(n)+1 deep on n elements, whatever calls came before, because a root of rank r has at least 2^r descendants.", "quantifier": "every reachable forest and every index", "why_tests_cant": "a worst-case depth bound is a statement about all histories; a test only measures some", "anchors": ["src/icl_core/src/icl_core/UnionFind.h:UnionFind::find", "src/icl_core/src/icl_core/UnionFind.h:m_rank"]}
{"id": "C08", "title": "Time normalisation preserves the instant and is canonical", "statement": "Constructing a TimeSpan/TimeStamp from (sec, nsec) yields |nsec part| < 10^9 with the same sign as the seconds, represents exactly sec*10^9+nsec nanoseconds, the representation is unique, normalising again changes nothing, and the loop terminates after at most 4 iterations without int32 overflow and without int64 overflow unless the seconds are at the very end of the int64 range.", "quantifier": "every int64 seconds and every int32 nanoseconds value", "why_tests_cant": "2^96 inputs, sign combinations and a while loop whose termination is not obvious", "anchors": ["src/icl_core/src/icl_core/TimeBase.cpp:normalizeTime", "src/icl_core/src/icl_core/TimeBase.cpp:TimeBase(int64_t,int32_t)"]}
{"id": "C09", "title": "TimeSpan and TimeStamp arithmetic is exact", "statement": "a+b, a-b, +=, -= and TimeStamp-TimeStamp equal the integer sum or difference of the total nanoseconds whenever the seconds do not overflow; in particular (t+d)-d == t, t2 + (t1-t2) == t1 and addition of spans is commutative and associative. The unsigned 32/64 bit arithmetic used for TimeStamp differences never changes the result.", "quantifier": "all canonical time values whose results fit", "why_tests_cant": "carry/borrow and sign cases over 2^190 operand pairs", "anchors": ["src/icl_core/src/icl_core/TimeSpan.h:operator+,operator-", "src/icl_core/src/icl_core/TimeStamp.h:operator-(TimeStamp,TimeStamp)", "src/icl_core/src/icl_core/TimeBase.cpp:operator+=,-="]}
{"id": "C10", "title": "Time comparison is the order of the total nanoseconds", "statement": "<, >, <=, >=, ==, != on time values agree with the comparison of the represented number of nanoseconds, hence form a total order compatible with addition.", "quantifier": "all pairs of constructed time values", "why_tests_cant": "quantifies over all pairs, including negative values", "anchors": ["src/icl_core/src/icl_core/TimeBase.cpp:operator<,>,<=,>=,==,!="]}
{"id": "C11", "title": "Unit conversions of time spans", "statement": "createFromSec/MSec/USec build exactly that many seconds/milliseconds/microseconds; toMSec(createFromMSec(m)) == m, toUSec(createFromUSec(u)) == u, toNSec is the exact total, and toMSec/toUSec truncate towards zero, as long as the result fits in 64 bits.", "quantifier": "every int64 argument", "why_tests_cant": "every sign and every residue matters", "anchors": ["src/icl_core/src/icl_core/TimeSpan.cpp:fromMSec,fromUSec,toMSec,toUSec,toNSec"]}
{"id": "C12", "title": "Calendar decomposition of a span is lossless", "statement": "days, hours, minutes, seconds recombine to the seconds of the time, with hours in (-24,24), minutes and seconds in (-60,60) and all of one sign; milliSeconds and microSeconds are the milli-/microseconds of the sub-second part, and microSeconds()*1000+nanoSeconds() is the sub-second part.", "quantifier": "every canonical time value", "why_tests_cant": "all seconds values including negative ones", "anchors": ["src/icl_core/src/icl_core/TimeBase.h:days,hours,minutes,seconds,milliSeconds,microSeconds,nanoSeconds"]}
{"id": "C13", "title": "ISO-8601 basic UTC parsing computes the correct instant", "statement": "fromIso8601BasicUTC of a well-formed YYYYMMDDTHHMMSS[,fraction] string with year >= 1970 and a valid date is the number of seconds since 1970-01-01 in the proleptic Gregorian calendar, with the fraction padded/truncated to nanoseconds; shorter strings default the missing fields.", "quantifier": "every valid date from 1970 to 9999, every time of day, every fraction", "why_tests_cant": "leap-year rules over 8000 years and every day", "anchors": ["src/icl_core/src/icl_core/TimeStamp.cpp:fromIso8601BasicUTC"]}
{"id": "C14", "title": "ISO-8601 basic UTC format/parse round trip", "statement": "fromIso8601BasicUTC(t.formatIso8601BasicUTC()) == t for every time stamp from 1970-01-01 to 9999-12-31T23:59:59,999999999.", "quantifier": "every nanosecond in 8030 years", "why_tests_cant": "2.5e20 instants", "anchors": ["src/icl_core/src/icl_core/TimeStamp.cpp:formatIso8601BasicUTC,fromIso8601BasicUTC"]}
{"id": "C15", "title": "Printed time spans denote the span", "statement": "operator<<(ostream, TimeSpan) prints a text whose sum of hour/minute/second/milli/micro/nanosecond components is the span.", "quantifier": "every time span", "why_tests_cant": "all magnitudes and signs", "anchors": ["src/icl_core/src/icl_core/TimeSpan.cpp:operator<<", "src/icl_core/src/icl_core_logging/Logging.cpp:operator << (ThreadStream&, const icl_core::TimeSpan&)"]}
{"id": "C16", "title": "Sequence numbers stay in range and cycle", "statement": "Starting from a value in [min,max), any number of increments stays in [min,max), k increments give min + (v-min+k) mod (max-min), and max-min increments return to the start.", "quantifier": "every base type width, every min<max, every start value, every number of increments", "why_tests_cant": "unbounded number of increments, all template parameters", "anchors": ["src/icl_core/src/icl_core/SequenceNumber.h:SequenceNumber::operator++"]}
{"id": "C17", "title": "Sequence number comparison is a serial-number order", "statement": "For min=0: a < b holds exactly when b is reached from a by at least 1 and fewer than max/2 increments (max even); so x < x+k for all 1<=k<max/2 also across the wrap; < is irreflexive and asymmetric; >, <=, >= are the stated combinations; trichotomy fails only for numbers exactly half the range apart, where both a>b and b>a are reported.", "quantifier": "every max and every pair of values", "why_tests_cant": "all pairs for all ranges, including wrap-around", "anchors": ["src/icl_core/src/icl_core/SequenceNumber.h:operator<,<=,>,>=,==,!="]}
{"id": "C18", "title": "SHA-224/256/384/512 conform to FIPS 180-3", "statement": "After process()ing a message of fewer than 2^61 bytes and finalize(), getHexDigest() is the lower-case hex SHA-224/256/384/512 digest defined by FIPS PUB 180-3, whose constants are the cube/square root fractions of the first primes.", "quantifier": "every message of every length below 2^61 bytes, all four algorithms", "why_tests_cant": "infinitely many messages; padding has several length-dependent cases", "anchors": ["src/icl_core/src/icl_core_crypt/Sha2.hpp:process,finalizeBuffer", "src/icl_core/src/icl_core_crypt/Sha2Impl.hpp:processBuffer,getHexDigest", "src/icl_core/src/icl_core_crypt/Sha2.h"]}
{"id": "C19", "title": "SHA-2 digests do not depend on how the message is chunked", "statement": "Any sequence of process calls, in any mix of the C-string overload and the pointer/size (or String) overload, gives the same digest as one call with the concatenated message; clear() makes the object equivalent to a fresh one.", "quantifier": "every message, every partition into chunks, every mix of overloads", "why_tests_cant": "the two overloads flush the block buffer at different times; all partitions are needed", "anchors": ["src/icl_core/src/icl_core_crypt/Sha2.hpp:process(const char*),process(const void*,size_t)", "src/icl_core/src/icl_core_crypt/Sha2Impl.hpp:clear"]}
{"id": "C20", "title": "split and join", "statement": "For a non-empty delimiter split cuts the string from the left at every delimiter (the decomposition is unique), no piece contains the delimiter, and join(split(s,d),d) is s, except that one trailing delimiter is lost exactly when the last delimiter found ends the string; split(join(xs,d),d) == xs for non-empty lists whose pieces cannot form the delimiter across a boundary and whose last piece is non-empty; split terminates (for an empty delimiter it does not).", "quantifier": "all strings and delimiters", "why_tests_cant": "all strings, overlapping delimiters", "anchors": ["src/icl_core/src/icl_core/StringHelper.cpp:split,join"]}
{"id": "C21", "title": "trim strips exactly the surrounding white space", "statement": "For a non-empty string, trim returns the substring without leading and trailing white space and nothing else; it is idempotent. For the empty string the function must not read outside the string.", "quantifier": "all strings, including empty and all-space", "why_tests_cant": "boundary arithmetic on unsigned indices for every string", "anchors": ["src/icl_core/src/icl_core/StringHelper.cpp:trim"]}
{"id": "C22", "title": "padLeft/padRight", "statement": "padLeft/padRight return a string of length max(len,width) that has the original as suffix/prefix and otherwise only pad characters.", "quantifier": "all strings, widths, pad characters", "why_tests_cant": "all lengths and widths", "anchors": ["src/icl_core/src/icl_core/StringHelper.h:padLeft,padRight"]}
{"id": "C23", "title": "string2Enum finds the description", "statement": "string2Enum returns true iff the string occurs in the description list; then value is an index i with descriptions[i]==str (the last such index), otherwise value is left unchanged.", "quantifier": "all strings and description lists", "why_tests_cant": "all lists including duplicates and empty lists", "anchors": ["src/icl_core/src/icl_core/EnumHelper.cpp:string2Enum"]}
{"id": "C24", "title": "KeyValueDirectory is a map", "statement": "After any sequence of inserts, get/hasKey report the last value inserted for the key (get leaves the output untouched on a miss); insert returns true exactly when the key was new; other keys are unaffected.", "quantifier": "all insert histories and keys", "why_tests_cant": "all histories", "anchors": ["src/icl_core/src/icl_core/KeyValueDirectory.hpp:get,hasKey,insert"]}
{"id": "C25", "title": "KeyValueDirectory queries enumerate exactly the matching keys", "statement": "Calling next() until it returns false visits exactly the entries whose whole key matches the query, each once, in ascending key order, with key()/value() of that entry; reset() restarts. After each successful step matchGroup(n) is what group n of the expression matched in the key just reached, or the empty text if there is no such group.", "quantifier": "all directories and all match predicates", "why_tests_cant": "all directory contents and all queries", "anchors": ["src/icl_core/src/icl_core/KeyValueDirectory.hpp:KeyValueDirectoryIterator::next,reset,key,value", "src/icl_core/src/icl_core/KeyValueDirectory.hpp:matchGroup"]}
{"id": "C26", "title": "setRelation classifies two sets correctly", "statement": "setRelation(s1,s2) is EQUAL iff s1=s2, else PROPER_SUPERSET iff s1 contains s2, else PROPER_SUBSET iff s2 contains s1, else INTERSECTION_NONEMPTY iff they share an element, else DISJUNCT.", "quantifier": "all pairs of finite sets over any strict total order", "why_tests_cant": "all set pairs; simultaneous merge over two sorted sequences", "anchors": ["src/icl_core/src/icl_core/SetHelper.h:setRelation"]}
{"id": "C27", "title": "ZBuffer keeps the least value per cell", "statement": "After any sequence of updates each cell holds a value that was written to it and that no value written to it is less than (for a strict weak order), the earliest among equivalents; cells never written stay empty; update returns true iff it stored.", "quantifier": "all update histories and comparison orders", "why_tests_cant": "all histories", "anchors": ["src/icl_core/src/icl_core/ZBuffer.h:ZBuffer::update"]}
{"id": "C28", "title": "Array2D indexing is a bijection", "statement": "For an array of width w>0 and height h with w*h representable, (column,row) -> index1D is a bijection from the w*h cells onto 0..size-1 with inverse indexTo2D; writing a cell changes only that cell; assign/set fill every cell.", "quantifier": "all widths, heights and cells", "why_tests_cant": "all sizes", "anchors": ["src/icl_core/src/icl_core/Array2D.h:index1D,indexTo2D,at,assign,resize"]}
{"id": "C29", "title": "Bit-field helpers", "statement": "setBits turns on exactly the given bits, clearBits turns off exactly the given bits, isBitSet reports whether any given bit is on; all other bits are unchanged.", "quantifier": "all fields of every integer type of at most 32 bits and all masks (for 64-bit types the claim is false)", "why_tests_cant": "2^64 combinations", "anchors": ["src/icl_core/src/icl_core/BitfieldHelper.h:setBits,clearBits,isBitSet"]}
{"id": "C30", "title": "Finalized values never change", "statement": "A Finalizable accepts assignments until finalize() is called; afterwards every assignment throws and the value stays what it was at finalization, for ever; the final flag is never taken over by assignment but is by copy construction.", "quantifier": "all operation histories", "why_tests_cant": "a safety property over unbounded histories", "anchors": ["src/icl_core/src/icl_core/Finalizable.h:Finalizable"]}
{"id": "C31", "title": "Singleton creates at most one live instance", "statement": "With the mutex threading model, under every interleaving (sequentially consistent memory) of any number of threads calling instance(), where the destruction at exit runs while no thread is inside instance(): at most one instance is alive at any time, every returned object is that live instance, no call dereferences null, calls do not deadlock, and with the default lifetime the constructor runs at most once and every call that starts after destruction throws.", "quantifier": "all numbers of threads, all schedules, both lifetime policies", "why_tests_cant": "double-checked locking must be right for every interleaving", "anchors": ["src/icl_core/src/icl_core/Singleton.hpp:instance,destroySingleton"]}
{"id": "C32", "title": "Scheme parsing", "statement": "parseScheme of a new parser succeeds exactly on the strings (up to their first NUL) of the form [scheme://]specifier[#anchor][?k=v(&k=v)*] of the rules' grammar, the decomposition is unique, and it reports the scheme (lower-cased, classified), specifier, anchor and queries of that decomposition. A parser object that is used again reports the queries and specifier of the new text, but scheme and anchor of an earlier one where the new text has none.", "quantifier": "all strings", "why_tests_cant": "all strings; greedy matching and optional parts", "anchors": ["src/icl_core/src/icl_core/SchemeParser.cpp:SchemeParser::parseScheme"]}
{"id": "C33", "title": "Scheme print/parse round trip", "statement": "Printing a parsed Scheme with operator<< and parsing the text again yields the same Scheme exactly if it does not have both an anchor and queries; if it has both, the text is still accepted but the anchor is read as the end of the last query's value.", "quantifier": "all parseable strings", "why_tests_cant": "all strings", "anchors": ["src/icl_core/src/icl_core/SchemeParser.cpp:operator<<,parseScheme"]}
{"id": "C34", "title": "Command line options are parsed to the right parameters", "statement": "Getopt::initialize of a new object returns true exactly if every argument can be accounted for: as a registered long or short option with its value, as a prefix option (the shortest registered prefix wins), as a positional parameter in order, as a non-option, as an unknown option in relaxed mode, or as an extra parameter after the delimiter, with all required parameters present and help not requested; the account is unique and paramOpt, paramPrefixOpt, paramNonOpt and the extra parameters report it (the last value of an option, the others in order). It returns false exactly if there is no account, and ends the process otherwise. A long option registered with a value is accepted without one (empty value), and a second call reads the arguments again.", "quantifier": "all registrations with plain prefix names and all argument vectors", "why_tests_cant": "all argument vectors", "anchors": ["src/icl_core/src/icl_core_config/GetoptParser.cpp:Getopt::initialize"]}
{"id": "C35", "title": "Command line cleanup removes exactly the consumed arguments", "statement": "With eCLC_Cleanup and a result of true, argv/argc afterwards contain the program name and the arguments whose text is that of a non-option argument, in their original order; these are exactly the non-option arguments iff no consumed argument has the same text as one of them. argv[argc] is a null pointer afterwards only if nothing was removed. Otherwise argc and argv are unchanged.", "quantifier": "all argument vectors", "why_tests_cant": "all argument vectors, including repeated texts", "anchors": ["src/icl_core/src/icl_core_config/GetoptParser.cpp:Getopt::initialize (cleanup loop)"]}
{"id": "C36", "title": "Configuration files and precedence of sources", "statement": "ConfigManager::load sets the keys of a configuration file in document order, reading included files where they are included, and reports whether the file could be read; it returns exactly if no infinite chain of includes starts at the file (an include cycle makes it recurse forever). After a successful ConfigManager::initialize each key has the value of the first source that has one: --config-option, the registered parameters on the command line, the configuration file, the value it had before, the default value; a key no source defines is absent. initialize fails exactly if the configuration file cannot be read, changing nothing; a second initialize returns true and changes nothing.", "quantifier": "all configuration files and include graphs, parameter registrations, command lines and histories of calls", "why_tests_cant": "all combinations of sources", "anchors": ["src/icl_core/src/icl_core_config/ConfigManager.cpp:ConfigManager::initialize"]}
{"id": "C37", "title": "Configuration observers are notified of every change", "statement": "Everything initialize or setValue sets is announced, when it is set, once to each registration for that key and then once to each registration for all keys, and to no one else (for the empty key, the all-keys observers are told twice). An observer registering for all keys is told about every key that has a value; one registering for a key is told if the key, read as a regular expression, matches a key that has a value. After unregisterObserver an observer is not told anything, whatever is called, until it registers again.", "quantifier": "all observer registrations and all configuration histories", "why_tests_cant": "all histories", "anchors": ["src/icl_core/src/icl_core_config/ConfigManager.cpp:notify,registerObserver,unregisterObserver,initialize,load,readXml,readAttributeTree", "src/icl_core/src/icl_core_config/ConfigManager.h:setValue"]}
{"id": "C38", "title": "Path normalisation keeps the denoted file for contained paths; FilePath parts", "statement": "FilePath::normalizePath terminates for every string, leaves no backslash, and keeps absolute paths absolute. For paths that never climb out of the directory they start in (and have no empty inner component) the result denotes the same file as the input read with '/' for '\\'; if there is also no ':' the result has no leading ./, no inner /./ or /../, and normalising again changes nothing. Outside that domain the claim is refuted: ../../a becomes a, /../a/b becomes /../a/a/b, a//../b becomes a/b, .//x becomes /x, and the function is not idempotent. A FilePath is absolute, path()+name() is its file, name() has no separator; extension() is the text from the last dot of the whole path (also of a directory) and throws std::out_of_range if there is no dot.", "quantifier": "all path strings and working directories", "why_tests_cant": "all strings; several rewriting loops, one of which can lengthen the string", "anchors": ["src/icl_core/src/icl_core_config/AttributeTree.cpp:FilePath::normalizePath", "src/icl_core/src/icl_core_config/AttributeTree.cpp:FilePath::absolutePath", "src/icl_core/src/icl_core_config/AttributeTree.cpp:FilePath::init", "src/icl_core/src/icl_core_config/AttributeTree.h:FilePath::extension"]}
{"id": "C39", "title": "Environment substitution terminates for non-recursive environments and replaces every variable", "statement": "FilePath::replaceEnvironment terminates if no value of the environment contains '$' (or none contains '{', or none '}'); a self-referential value makes it loop forever. The result contains no ${ unless the text is returned unchanged (a ${ without closing bracket). In a text where every $ begins a variable and values have no $, each ${VAR} is replaced by its value, or by VAR if unset, and nothing else changes; this fails for texts with other $ signs.", "quantifier": "all strings and environments", "why_tests_cant": "all environments, including self-referential values", "anchors": ["src/icl_core/src/icl_core_config/AttributeTree.cpp:FilePath::replaceEnvironment", "src/icl_core/src/icl_core_config/AttributeTree.cpp:FilePath::getEnvironment"]}
{"id": "C40", "title": "ActiveObject runs queued operations once and in order", "statement": "Under every interleaving (sequentially consistent, atomic list operations) of any number of threads calling queue() and stop(), of start() and of the worker including spurious semaphore wakeups: each operation is invoked at most once, in queue order, never after its deletion, and deleted at most once; without stop() every queued operation is invoked within a bounded number of worker steps and no wakeup is lost; after stop() the worker terminates and everything queued before is deleted. In every fair execution queue() and stop() return, a queued operation is invoked if stop() is not called, and after stop(), without another start(), the worker ends and deletes what was queued before it finished its clean-up, even if clients go on calling queue(). (Not guaranteed, and refuted: that an operation is always deleted - one pushed after the clean-up loop is leaked - and freedom from data races on the list.)", "quantifier": "all schedules of any number of client threads, all histories of start/queue/stop; all fair infinite executions", "why_tests_cant": "interleavings", "anchors": ["src/icl_core/src/icl_core_thread/ActiveObject.cpp:run,queue,stop"]}
{"id": "C41", "title": "RWLock (Win32) excludes writers from readers and other writers", "statement": "For the Win32 implementation, under every interleaving, with any time-outs, no two different threads hold the write lock and no thread holds a read lock while one holds the write lock; with un-timed, un-nested calls there is no deadlock, and in every fair execution in which held locks are given up, readLock(), unlock() and an admitted writeLock() return. (Expected but false of the code, and refuted: every writeLock() returns in such an execution (readers can keep a writer out for ever); a tryWriteLock that fails leaves the lock usable by other writers; a writer can write-lock again; tryReadLock/readLock with a time-out returns without waiting for a writer.)", "quantifier": "all schedules of any number of threads, all time-outs; all fair infinite executions", "why_tests_cant": "the faults show only in particular interleavings of several threads", "anchors": ["src/icl_core/src/icl_core_thread/RWLockImplWin32.cpp: readLock, writeLock, unlock"]}
{"id": "C42", "title": "toLower/toUpper change exactly the letters", "statement": "toLower/toUpper return a string of the same length in which every upper/lower case ASCII letter is replaced by its counterpart and every other character is unchanged, without undefined behaviour.", "quantifier": "all strings, including ones with bytes >= 128", "why_tests_cant": "all byte values; the failure is undefined behaviour and not visible in a result", "anchors": ["src/icl_core/src/icl_core/StringHelper.h:toLower,toUpper"]}
{"id": "C43", "title": "SearchableStack is a LIFO stack with lowest-match search", "statement": "push then pop restores the stack and top is the last pushed element; find returns the lowest position whose element matches according to the comparator, and end() exactly when none matches.", "quantifier": "all stacks, elements and comparators", "why_tests_cant": "all contents, including several matches", "anchors": ["src/icl_core/src/icl_core/SearchableStack.h:push,pop,top,find"]}
{"id": "C44", "title": "SpinLock excludes", "statement": "With lock/unlock (and ScopedSpinLock), under every interleaving no two threads have the lock, and a waiting lock() succeeds when it is free; unlock() returns in every fair execution, and so does lock(), with the lock, if held locks are given up and no thread that finds the lock free again and again is passed over for ever at those moments. (Expected but false of the code, and refuted: tryLock() returns true iff it got the lock; a failed tryLock() leaves the lock usable; lock() returns as long as every thread gets its turn again and again.)", "quantifier": "all schedules of any number of threads; all fair infinite executions", "why_tests_cant": "interleavings", "anchors": ["src/icl_core/src/icl_core_thread/SpinLock.h: lock, tryLock, unlock", "src/icl_core/src/icl_core_thread/ScopedSpinLock.h"]}
{"id": "C45", "title": "Thread start/stop/wait/join protocol", "statement": "Under every interleaving of the client and the workers: run() never executes twice at once; start() returning true means run() has been reached; wait() returning true (without cancel) means run() has ended; a stop() is never lost; no worker is joined twice; the destructor waits for run(); calls do not deadlock, and if every run() ends all calls return in every fair execution; if run() only ends once execute() is false, start(), stop() and the destructor still do. (Expected but false of the code, and refuted: wait() returns too in that case; wait() without time-out always succeeds; after the destructor the worker does not touch the object; every worker is joined; after cancel() wait() waits for run(), and the thread can be started again.)", "quantifier": "all schedules, all sequences of calls by one client, any number of restarts; all fair infinite executions", "why_tests_cant": "interleavings and histories", "anchors": ["src/icl_core/src/icl_core_thread/Thread.cpp", "src/icl_core/src/icl_core_thread/Thread.h: stop, running, execute", "src/icl_core/src/icl_core_thread/ThreadImplPosix.cpp"]}
{"id": "C46", "title": "Time-outs and the emulated periodic wait", "statement": "Absolute and relative time-outs convert into each other exactly (never negative; a negative relative time-out means a year); waitPeriod() of the emulated periodic thread returns no earlier than one period after the last execution (one period from now if the clock was set back), never sleeps longer than a period at a time, returns once the clock gets there, and any number of consecutive executions are at least one period apart.", "quantifier": "all clocks (sequences of readings), periods, numbers of calls", "why_tests_cant": "depends on every possible clock behaviour", "anchors": ["src/icl_core/src/icl_core_thread/Common.h: getRelativeTimeout, getAbsoluteTimeout", "src/icl_core/src/icl_core_thread/PeriodicThreadImplEmulate.cpp: waitPeriod"]}
{"id": "C47", "title": "A log statement hands over exactly what was logged, within its buffers", "statement": "Whatever a log statement streams (texts, strings, booleans, integers of every width, pointers, doubles of at most 99 printed characters), no buffer is overrun, and each connected output is handed a message that names the right level, stream, file, line, class, object and function and whose text is the concatenation of the pieces, cut to the log size, followed by a newline that survives the cut; it is handed over iff the stream is active and neither the stream's nor the output's level is above the statement's. (Expected but false, and refuted: a double of 1e93 or more is read out of bounds; names of more than 1024 characters stay terminated.)", "quantifier": "all sequences of pieces, all levels, names, buffer sizes and unfinished texts", "why_tests_cant": "sizes and contents are unbounded and the interesting boundaries depend on their sums", "anchors": ["src/icl_core/src/icl_core_logging/ThreadStream.cpp: write, printf, flush, operator<<", "src/icl_core/src/icl_core_logging/LogOutputStream.cpp: push, LogMessage", "src/icl_core/src/icl_core_logging/LogLevel.cpp", "src/icl_core/src/icl_core_logging/LoggingMacros_SLOGGING.h"]}
{"id": "C48", "title": "Log formats", "statement": "A format string made of texts and directives (~, width, prefix, letter) is accepted, and every message is then printed as the format says: texts literally, class/object/function names with their prefix and closing bracket only when not empty, milliseconds padded to the width. Every other non-empty format is undefined behaviour, not an error. (Expected but false, and refuted: an incomplete directive at the end is harmless; a text of 100 characters can be printed.)", "quantifier": "all format strings and all messages", "why_tests_cant": "all strings over the alphabet, any number of directives", "anchors": ["src/icl_core/src/icl_core_logging/LogOutputStream.cpp: changeLogFormat, parseLogFormat, pushImpl"]}
{"id": "C49", "title": "Log statements of several threads on one stream", "statement": "Whatever the schedule, every log statement that ends with endl is handed to every connected output exactly once, in the order of its thread, with its own level, file, line, class, object and function; no thread stream is used by two threads at once, no buffer is overrun and no statement can be blocked for ever. Its text is exactly what it streamed (after the unfinished text the same thread left at that level) if no other thread stood between releasing and resetting the thread stream when it was taken, in particular when only one thread logs. In every fair execution every log statement ends, and its text has then been handed to every output. (Expected but false, and refuted: the text is right under every schedule; statements nested in the arguments of others keep their source location; every statement ends if each thread gets its turn whenever it could go on without interruption.)", "quantifier": "all schedules, any number of threads, statements and outputs, all texts, buffer and pool sizes; all fair infinite executions", "why_tests_cant": "depends on interleavings of one or two instructions", "anchors": ["src/icl_core/src/icl_core_logging/LogStream.cpp: threadStream, releaseThreadStream", "src/icl_core/src/icl_core_logging/ThreadStream.cpp: write, flush", "src/icl_core/src/icl_core_logging/LoggingMacros_SLOGGING.h: SLOGGING_LOG_FLCO"]}
{"id": "C50", "title": "Log output streams with a worker thread", "statement": "Whatever the schedule of the threads that log, the thread that starts and stops the output and the worker, messages are output in the order in which they were put into the queue, each exactly once. Once start() has returned true, whenever no push() is under way the worker on its own outputs everything in the queue; when shutdown() has returned after stopping the worker, every message queued before the call has been output and there is no worker; start(), shutdown() and push() can always return, and in every infinite execution in which no thread is passed over for ever while what it waits for is available again and again they do return, and every message put into the queue is eventually output, however many are pushed meanwhile; and there is never more than one worker. The queue of fixed size is a FIFO for one message less than its size which drops what does not fit, without access out of bounds. (Expected but false, and refuted: the same if a semaphore wait is interrupted by a signal; everything pushed before shutdown() returns is output; every worker is joined; the queue is only accessed under its mutex; a queue of size n holds n messages.)", "quantifier": "all schedules, any number of threads, messages, starts and shutdowns; all queue sizes and call sequences", "why_tests_cant": "lost wakeups, lost messages at shutdown and interrupted waits appear only in particular interleavings", "anchors": ["src/icl_core/src/icl_core_logging/LogOutputStream.cpp: push, start, shutdown, WorkerThread::run, isMessageQueueFull, incrementIndex", "src/icl_core/src/icl_core_logging/Thread.cpp: start, stop, join, runThread, waitStarted"]}
{"id": "C51", "title": "The logging manager wires streams to outputs", "statement": "Whatever sequence of registrations, initialize(), configure(), stream creations, setLogLevel() and log statements a program makes, no call touches a deleted stream or output, and only configure() and stream creation before initialize() fail (assertion); shutdown() then deletes every stream and output exactly once. After the first initialize() the streams are the registered ones, the outputs those of the configuration sections OutputStream* whose kind is registered plus one for --quick-debug under the first free name; a stream is connected to exactly the outputs whose section names it (or names no stream), to the default output if no outputs are configured or --log-level is valid, and QuickDebug to the --quick-debug output; levels come from --log-level, else the configuration, else Info; every output runs. configure() adds what is missing and keeps connections. A message reaches exactly the connected outputs whose level lets it pass. (Expected but false, and refuted: setLogLevel(l) makes level-l messages visible; logging can be initialized again after shutdown(); every output runs; a section without LogLevel has the default level.) printConfiguration never touches a deleted object and lists the registered output factories, the default output, all outputs with their levels and all streams with exactly the outputs they are connected to.", "quantifier": "all call sequences, configurations, options, registrations and message levels", "why_tests_cant": "configurations, option combinations and call sequences are unbounded, and a dangling output only shows when a later message hits it", "anchors": ["src/icl_core/src/icl_core_logging/LoggingManager.cpp: initialize, configure, setLogLevel, shutdown, registerLogStream, removeOutputStream", "src/icl_core/src/icl_core_logging/Logging.h: REGISTER_LOG_STREAM", "src/icl_core/src/icl_core_logging/LogStream.cpp: addOutputStream, removeOutputStream", "src/icl_core/src/icl_core_logging/LoggingManager.cpp:LoggingManager::printConfiguration"]}
{"id": "C52", "title": "AttributeTree: what is set is what one gets", "statement": "For every tree that the public operations can build and every description: getAttribute(d) returns the attribute of the node reached by the components of d (at each level the first sub tree with that description) if it has one, and otherwise the default, changing nothing; setAttribute(d, v) creates only the missing nodes, stores v there, leaves every other attribute, description and parent alone, and afterwards getAttribute(d) is v while every other description has the value it had; getOrSetDefault returns the stored value or stores the default; isAttribute, search (first match in the order of the printed tree) and contains (number of attributes in the sub tree) mean what they say; descriptions that end in the reserved names for the file path and file name are looked up in the nearest enclosing node that has them; setAttribute marks every enclosing node changed unless the value is the old one, and unmarkChanges resets exactly the flags of the sub tree. (Expected but false, and refuted: getAttribute/isAttribute on a node without sub trees is defined (a member function is called on a null pointer); setAttribute(d, 0) does not set the attribute (it erases it); set/get agree for descriptions with empty components; changed() reports added sub trees and new descriptions.)", "quantifier": "all histories of tree operations, all nodes, descriptions, attributes and defaults", "why_tests_cant": "trees, paths and histories of operations are unbounded; a wrong node shows only for particular combinations of shared prefixes, duplicates and missing levels", "anchors": ["src/icl_core/src/icl_core_config/AttributeTree.cpp: getAttribute, setAttribute, getOrSetDefault, isAttribute, search, contains, changed, unmarkChanges, getSpecialAttribute", "src/icl_core/src/icl_core_config/AttributeTree.h: AttributeTree"]}
{"id": "C53", "title": "AttributeTree: the nodes stay trees, and deletion, copies and insertions do what they say", "statement": "After any sequence of public tree operations (insertions only of trees that have no parent, not below themselves) every node is in the list of exactly its parent, once, and below a root; firstSubTree/nextSubTree enumerate exactly the sub trees; root() ends at the root. Deleting a node frees it and exactly the nodes below it, once each, and takes it out of its parent's list; unlink and unlinkSub detach so that a later deletion of the parent does not delete the detached nodes; a copy has new nodes with the same descriptions and attributes in reversed order at every level and leaves the original alone (a copy of a copy has the original order); revertOrder reverses exactly the lists of the sub tree. newSubNodeDescription is the base plus the least unused number; addSubTree and addNextTree put the tree first, or behind the given node, under its own description or, if that is taken, the first unused number. (Expected but false, and refuted: a copy has the same order; addSubTree on a node without sub trees is defined; addSubTree of a tree whose all-digit description is taken is defined (reads before the string); addSubTree of a tree that still has a parent moves it (it is deleted twice); inserting a tree below itself is rejected (root(), contains() and others never return).)", "quantifier": "all histories of tree operations, all nodes and descriptions", "why_tests_cant": "dangling parents, double frees and lost nodes depend on unbounded histories of insertions, copies and deletions", "anchors": ["src/icl_core/src/icl_core_config/AttributeTree.cpp: AttributeTree, ~AttributeTree, unlink, unlinkSub, addSubTree, newSubNodeDescription, addNewSubTree, SubTreeList", "src/icl_core/src/icl_core_config/AttributeTree.h: addSubTree, addNextTree, root, firstSubTree, nextSubTree, revertOrder"]}
{"id": "C54", "title": "AttributeTree: a saved tree is loaded again; every line of a text does what the format says", "statement": "For every tree that can be built and every text whose lines fit into the buffer: get() does exactly what the lines say, in order (':' sets the attribute of the current node, 'd:a' the one at the path d, 'd{' goes to the path d, '}' goes back, '#' and blank lines are skipped, a '_COMMENT_' is skipped unless comments are loaded), stops at the first line that says nothing and reports a number, and touches nothing outside of the tree; every line has exactly one meaning, but for includes and comments of several lines. For no text and no included files do get() or load() have undefined behaviour on a tree (if a null list may be asked), and the nodes stay trees. What save() writes for a root (or a sub tree) whose descriptions and values the format can hold and which has at least change_style_depth attributes, get() reads back in front of what is there, and load() with preserve_order into an empty root gives exactly the saved content, in the same order, plus the two nodes with the file name; nothing is lost if every leaf has an attribute. load() of a missing file fails. (Expected but false, and refuted: the reported line number is that of the line; small roots or sub trees survive saving (their text sets the attribute of the root); a last line without newline is read; opening a bracket keeps the attribute; descriptions that end in a blank, empty attributes in brackets survive; printing is defined for comments without attribute; load() into an empty tree is defined; the file path is the one of the last loaded file; a second load with preserve_order keeps the order; get() returns for lines of 1998 characters or more, for comments that are not closed and for files that include themselves.)", "quantifier": "all trees that tree operations, get() and load() can build, all texts, files, environments and all change_style_depth", "why_tests_cant": "trees, texts and nested includes are unbounded; a lost or misplaced attribute shows only for particular names, depths and sizes", "anchors": ["src/icl_core/src/icl_core_config/AttributeTree.cpp: printSubTree, save, load, get, readNextLine", "src/icl_core/src/icl_core_config/AttributeTree.h: save, load, get, getFilePath"]}
{"id": "C55", "title": "Typed configuration and command line values", "statement": "For every configuration, key, text and type: get<T> of a missing key returns false and leaves the value; getDefault then gives the default. An integer type reads the decimal, octal (leading 0) or hexadecimal (0x) integer at the beginning of the text (after blanks and a sign), exactly if it is in range and otherwise as the nearest bound (unsigned types: the largest value; a minus sign counts from the top); a text denotes at most one integer, and every text is blank, denotes one, or is read as 0. get<String> is the exact text. get<bool> accepts exactly 0/no/false/1/yes/true in any case and leaves the value otherwise. A char is the first non-blank character. An enumeration is the position of its last matching description. What setValue<T> stores, get<T> and getDefault<T> return. paramOpt/paramOptDefault/paramNonOpt read options and positional arguments the same way, strings up to the first blank. (Expected but false, and refuted: a text that is no number, or out of range, is rejected; getDefault falls back for it; a blank text or a non-ASCII byte in a truth value is harmless (undefined behaviour); a string option keeps its blanks; paramOpt<bool> understands 'true'; a blank char can be read back.)", "quantifier": "all configurations, keys, texts, integer types, previous values and parsed command lines", "why_tests_cant": "the texts and numbers are unbounded; tests try a few literals and never the refuted corners (prefixes, bounds, garbage, blank)", "anchors": ["src/icl_core/src/icl_core_config/Config.h: get, getDefault, setValue, paramOpt, paramOptDefault, paramNonOpt", "src/icl_core/src/icl_core_config/Util.h: hexical_cast", "src/icl_core/src/icl_core/EnumHelper.cpp: string2Enum", "src/icl_core/src/icl_core_config/ConfigManager.h: setValue"]}
{"id": "C56", "title": "Batch reading of configuration values and lists of records", "statement": "For every configuration and every batch of entries (values, enumerations, with or without default, lists of records) at different addresses: get() reads every entry with the prefix completed by '/', returns true exactly if there is an entry and every entry is read, reports every entry in order under its full key (as an error exactly if it fails and errors are to be reported), and deletes all entries exactly if cleanup is asked for. A variable gets the value of the last entry that names it; an entry with a default gives the default when its key is missing or its text an error; other variables keep their values. A list succeeds exactly if some key belongs to it and no such key is in error; it then appends exactly one record per element, in ascending order of the names, each member being what its key says or else as in a new record, and otherwise appends nothing. The keys of a list are those of the form prefix/element or prefix/element/suffix. The array version is the same with an empty prefix, but an empty array counts as read. (Expected but false, and refuted: an empty list counts as read; a default catches an unreadable number; strings keep their blanks; reading a list object twice delivers each record once; an entry twice in a batch, or an array without NULL, is harmless.)", "quantifier": "all configurations, prefixes, lists of entries and members, regular expression matchers, variable contents", "why_tests_cant": "the number and order of entries, elements and members is unbounded, and the entries interact through shared variables and keys", "anchors": ["src/icl_core/src/icl_core_config/Config.h: get(ConfigValues), get(prefix, ConfigValueList)", "src/icl_core/src/icl_core_config/ConfigValue.h", "src/icl_core/src/icl_core_config/ConfigValueDefault.h", "src/icl_core/src/icl_core_config/ConfigEnum.h", "src/icl_core/src/icl_core_config/ConfigEnumDefault.h", "src/icl_core/src/icl_core_config/ConfigList.h", "src/icl_core/src/icl_core_config/MemberValue.h", "src/icl_core/src/icl_core_config/MemberEnum.h"]}
{"id": "C57", "title": "Plugin manager: what is found, handed out, created, reported and destroyed", "statement": "After the call that initialises a PluginManager (initialize() or the first query) has searched the plugin paths, and for every sequence of further calls: plugin(id) yields the static plugin of that identifier if there is one, otherwise always the same object of the library that was found last for id, or NULL if there is none or the library makes none; different identifiers yield different objects; createPluginInstance(id) yields a new object of the right library that is never handed out otherwise, or NULL; available() lists the identifiers found (and those passed to createPluginInstance) and then the static ones, each ascending; plugins() lists the objects and then the static plugins. Lazy loading answers every call but errorMessages() as eager loading does; initialising again changes nothing; errorMessages() lists exactly the files and plugins that failed. Only the initialising call can throw, exactly if a directory cannot be read. The destructor is safe if nothing was loaded; destroying a manager whose first loaded plugin comes from a library is undefined behaviour, and after asking for a smaller unknown identifier it never ends (refuted: that a used manager can be destroyed).", "quantifier": "all directories, libraries, search paths and static plugins, and all sequences of calls before and after the initialisation", "why_tests_cant": "The answers must hold after every history of calls, for every content of the plugin directories and every set of exported symbols", "anchors": ["src/icl_core/src/icl_core_plugin/PluginManager.h:PluginManager::initialize", "src/icl_core/src/icl_core_plugin/PluginManager.h:PluginManager::plugin", "src/icl_core/src/icl_core_plugin/PluginManager.h:PluginManager::createPluginInstance", "src/icl_core/src/icl_core_plugin/PluginManager.h:PluginManager::closePluginHandle", "src/icl_core/src/icl_core_plugin/PluginManagerBase.cpp:addPluginPath"]}
{"id": "C58", "title": "Log files keep every line, archived by day", "statement": "A line that a file log output has written is in its files for ever: for every configuration that does not delete old files, every non-decreasing clock, every history of starts, pushes, stops and (if the stream is flushed) kills of the process, and every pattern of failing file operations (when no file is zipped on rotation; otherwise without failures), the log directory contains all written lines in their order, first the archives NAME.YYYY-MM-DD of strictly ascending days, then the log file; between them only banners and parts of lines interrupted by a kill. No line is in the archive of an earlier day, in one session without failures every line is in the archive of exactly its own day, and without failures every pushed line is written. Other files of the directory are never touched; with DeleteOlderThan exactly the regular files whose name begins with that of the log file and which were last written before the beginning of the day n days ago are deleted.", "quantifier": "all configurations, directories, clocks, histories with kills at any change of the directory, all patterns of failures and of early writes of the stream's buffer", "why_tests_cant": "the order of files after restarts, kills between any two file operations and failures of any of them cannot be enumerated, and tests do not wait for midnight", "anchors": ["src/icl_core/src/icl_core_logging/FileLogOutput.cpp: FileLogOutput, pushImpl, flush, openLogFile, closeLogFile, rotateLogFile", "src/icl_core/src/icl_core/os_fs.cpp: zipFile"]}
{"id": "C59", "title": "The performance monitor measures since the right start", "statement": "For every program of calls to the performance monitor, every reply is determined by the earlier calls: measurement gives the milliseconds (rounded to a double) since the last effective start of its timer and leaves the timer running, startStop gives 0 and starts an unstarted timer and otherwise gives the lap and restarts it, both give 0, record nothing and print nothing if the prefix is not active, and announce the value at the requested level (debug, trace, info; others become info) only while printing is on. A prefix is active if it is enabled by name and the monitor is switched on, or if all prefixes are enabled. No call throws; a program is undefined only through summaries of nothing or of NaN among numbers; a measured value is never NaN. Limits shown: switching the monitor off does not stop it while all prefixes are enabled, startStop then never starts a timer, and a timer that was never started measures since 1970.", "quantifier": "all finite programs of calls, all clock readings, names, prefixes, levels and values", "why_tests_cant": "the reply depends on the whole history of switches, prefixes and timers, of which there are unboundedly many interleavings", "anchors": ["src/icl_core/src/icl_core_performance_monitor/PerformanceMonitor.cpp: start, measurement, startStop, isEnabled, enablePrefix, disablePrefix, enableAll, print", "src/icl_core/src/icl_core_performance_monitor/PerformanceMonitor.h"]}
{"id": "C60", "title": "Performance summaries are the statistics of exactly what was recorded", "statement": "A summary shows the number, mean, median (the upper one), minimum and maximum of exactly the values recorded under its label since the last initialize, whatever was preallocated; undefined if there are none. If no prefix contains '::' or ends in ':', the report of a prefix lists in ascending order of the names exactly the static data, the time values and the other values recorded under that prefix and nothing of another prefix; the report of all prefixes is the reports of the enabled prefixes in ascending order. Static data survives initialize, recorded values do not. Reports are defined as long as no NaN was handed in. Limits shown: data of a prefix with '::' is reported under another prefix, data let in by enableAll is missing from the report of all prefixes, and printSummary of an unknown name is undefined.", "quantifier": "all finite programs of calls, all names, prefixes and doubles", "why_tests_cant": "holds for all sets of recorded values and all names, including those that collide after joining with '::'", "anchors": ["src/icl_core/src/icl_core_performance_monitor/PerformanceMonitor.cpp: addEvent, addNonTimeEvent, addStaticData, createStatisticSummary, createStatisticSummaryNonTime, printSummary, printSummaryFromPrefix, printSummaryAll, getAverage, getMedian, initialize, makeName"]}
{"id": "C61", "title": "Rows of the SQLite log database are never lost by rotation", "statement": "For every history of starting the SQLite log output, logging and stopping it, whatever SQLite or rename operation fails and after whatever change of the file system the process is killed: every row that was inserted, and every row that was there before, is afterwards found, once and in order, in the archives FILENAME.YYYY-MM-DD of ascending days followed by the database itself; an archive holds only rows logged before its day; no other file changes; without rotation there is one file. If nothing fails every logged message becomes a row with exactly its values (line numbers as 32 bit integers), and without a filename nothing is written. Limits shown: an archive is named after the day of the rotation, not of its lines; if midnight falls between the two clock readings of one rotation, or the clock is set back, the next rotation overwrites an archive; a value that fails to bind is replaced by that of the previous message; after one failed opening without rotation no message is ever stored.", "quantifier": "all configurations, prior files, messages, call histories with nondecreasing times up to the year 9999, all failure patterns of the system calls, all kill points", "why_tests_cant": "the failure patterns, kill points and day boundaries of unboundedly long histories cannot be enumerated", "anchors": ["src/icl_core/src/icl_core_logging/SQLiteLogDb.cpp: openDatabase, closeDatabase, writeLogLine, rotateDatabase", "src/icl_core/src/icl_core_logging/SQLiteLogOutput.cpp: pushImpl, onStart, onShutdown"]}
{"id": "C62", "title": "The UDP logging server stores what was logged", "statement": "For all messages whose system name and text fields are 7-bit characters without apostrophes (line ends, commas, brackets, comment signs and semicolons included), in whatever order and from whatever systems the datagrams arrive, the logging server adds exactly one row per datagram with exactly the message's values. A sender that doubles the apostrophes of the text gets the text stored. Limits shown: the output's escaping changes no text at all; a message whose text has an apostrophe before a word (it's, the 'name') is rejected and lost whatever follows it; a pair of apostrophes is stored as one; any text that reaches a log message can add any second row in the name of any other system.", "quantifier": "all messages, texts, system names and sequences of datagrams", "why_tests_cant": "the texts that reach the SQL statement are unbounded; which of them are stored, altered, refused or executed as SQL cannot be enumerated", "anchors": ["src/icl_core/src/icl_core_logging/UdpLogOutput.cpp: pushImpl, escape", "src/icl_core/src/uls/UdpLoggingServer.cpp: processPendingDatagrams, UdpLoggingServer"]}
{"id": "C63", "title": "Scoped locks exclude, release and do not deadlock in order", "statement": "For any number of threads running any code with nested scoped mutex and read-write locks, and every schedule: two threads are never at the same time in scopes of the same lock whose isLocked() is true, unless both are read locks; a forced scope is locked; destructors never unlock what their thread has not locked, and a lock without locked scopes is as free as in the beginning (so leaving a block, also by an exception, releases exactly what it took; mutexes may be nested); an attempt succeeds when nobody holds the lock in conflict; if every thread takes the locks in ascending order, whoever waits, waits in the end for a thread that can go on; and in every fair execution in which blocks end (if the constructors in them return) and readers leave a waiting writer some moment, every constructor returns and every block ends - with mutexes only, without the condition on readers. Limits shown: a writer waits for ever while readers overlap, though each of them leaves; without an order two threads block each other; a thread that has a read-write lock and constructs another scope on it (other than reading twice) never returns from the forced constructor.", "quantifier": "all numbers of threads and locks, all programs and schedules, all failures of the lock calls that may occur; all fair infinite executions", "why_tests_cant": "exclusion and absence of deadlock quantify over all interleavings of all programs", "anchors": ["src/icl_core/src/icl_core_thread/ScopedMutexLock.cpp: ScopedMutexLock, ~ScopedMutexLock", "src/icl_core/src/icl_core_thread/ScopedRWLock.cpp: ScopedRWLock, ~ScopedRWLock", "src/icl_core/src/icl_core_thread/MutexImplPosix.cpp: MutexImplPosix, lock, unlock", "src/icl_core/src/icl_core_thread/RWLockImplPosix.cpp: readLock, writeLock, unlock"]}
{"id": "C64", "title": "Periodic threads keep their schedule; periodic operations run in order", "statement": "For every schedule of a periodic (dispatch) thread on Linux and everything other threads do to it: after the period was set to p at time s, at most one waitPeriod() returns in each interval [s+kp, s+(k+1)p), none in the first, so the k-th return is never before s+kp; a waiting thread goes on exactly when a multiple has passed since its last return (at once after an overrun, without catching up the missed ones); if each round plus the delay of the scheduler fits into the period, the k-th return is within that delay of s+kp for ever (no drift). Every round executes all operations that were added, once each, in the order of addOperation(), those added by operations in the same round; between two rounds the thread waits; after stop() the current round is finished, no round or wait begins, and the thread ends, when it waits after at most that wait. A start with a free descriptor and setPeriod() later succeed. Limits shown: a period of zero blocks waitPeriod() and the destructor for ever; a signal ends a wait early; each start leaves a descriptor open, and when they are used up waits return at once; the seconds are cut to 32 bits, so long periods become short and negative ones are accepted; setPeriod() before the start reports a failure though it has an effect; adding operations from another thread while running is a data race.", "quantifier": "all periods, numbers of operations, operations added by operations, schedules, delays, signals, calls of other threads, starts and stops", "why_tests_cant": "drift, bunching of wake-ups and the effect of a stop at each point show only over unboundedly many rounds and all interleavings", "anchors": ["src/icl_core/src/icl_core_thread/PeriodicThreadImplTimerfd.cpp: makePeriodic, setPeriod, waitPeriod", "src/icl_core/src/icl_core_dispatch/PeriodicDispatchThread.cpp: addOperation, run, ~PeriodicDispatchThread", "src/icl_core/src/icl_core_thread/Thread.cpp: runThread", "src/icl_core/src/icl_core_thread/Thread.h: execute, stop"]}
{"id": "C65", "title": "Locks and semaphores with and without time-outs answer exactly", "statement": "For every history of lock, tryLock, timed lock (absolute and relative), unlock, wait and post calls by any threads on a mutex, read-write lock or semaphore: two threads have a lock at the same time only if both read; a call that waits returns true exactly when the thread runs and the lock is free for it (recursively for mutexes) or the semaphore is positive, even after the time-out; it returns false when it is not and the time is over (at once for the try functions; at the given time; the given span after the call; a negative span means a year), or the thread itself writes; otherwise it keeps waiting. A semaphore's value is its initial value plus posts minus successful waits and never negative; used in scopes it lets at most its initial value of threads in. On Win32 time-outs are whole milliseconds, given up at most 1 ms early and never late. Nothing is undefined while read-write locks are released by threads that have them. Limits shown: Win32 gives up a wait of 0.999999 ms at once, waits for ever for -1 ms and not at all for 2^32 ms; a signal makes the wait for a semaphore return without having taken it; posts at 2^31-1 are lost; initial values are cut to 32 bits; unlocking a read-write lock that the thread does not have is undefined.", "quantifier": "all histories of calls, threads, clock values, time-outs and schedules, all three platforms", "why_tests_cant": "each answer depends on the interleaving of all other threads and the clock between the call and the moment the thread runs", "anchors": ["src/icl_core/src/icl_core_thread/MutexImplPosix.cpp", "src/icl_core/src/icl_core_thread/RWLockImplPosix.cpp", "src/icl_core/src/icl_core_thread/SemaphoreImplPosix.cpp", "src/icl_core/src/icl_core_thread/MutexImplWin32.cpp", "src/icl_core/src/icl_core_thread/SemaphoreImplWin32.cpp", "src/icl_core/src/icl_core_thread/Common.h: getAbsoluteTimeout, getRelativeTimeout", "src/icl_core/src/icl_core_logging/ScopedSemaphore.cpp"]}
{"id": "C66", "title": "The clock, boost times and sleeping are right within stated ranges", "statement": "For every clock reading TimeStamp::now() returns a normalised time at most one clock step (1 us; 1 ms on Windows) before the real time and never goes back while the clock does not; futureMSec(m) is exactly m milliseconds after now(). icl_core::os::nanosleep asks the system for exactly the requested time on Linux and for at most 1 ms less on Windows; sleep and usleep likewise within their ranges. Limits shown: a TimeStamp made from a boost ptime is right only in every 2^23rd second since the epoch (the total nanoseconds are cut to 32 bits) and otherwise wrong by up to 3.15 s; on Windows every nanosleep of more than 1 ms reports failure with the whole time remaining, so that the usual retry loop never ends, sleep() answers with 2^32-s seconds left, usleep() with a failure; on RTAI nanosleep sleeps a thousandth of the time, sleep(5) 0.7 s; on Windows sleep(4294968) 0.7 s.", "quantifier": "all clock readings, durations and numbers of retries, all three platforms", "why_tests_cant": "conversions are right for some readings and wrong for others; retry loops must be followed for every number of iterations", "anchors": ["src/icl_core/src/icl_core/TimeStamp.h", "src/icl_core/src/icl_core/TimeStamp.cpp", "src/icl_core/src/icl_core/os_time.h", "src/icl_core/src/icl_core/os_win32_time.cpp", "src/icl_core/src/icl_core/os_posix_time.cpp"]}
{"id": "C67", "title": "Scaling a time span by a double", "statement": "For every normalised TimeSpan and every finite double d such that the seconds times (divided by) d stay below 2^52 and the nanoseconds times (divided by) d below 2^31-1 in size, span*d and span/d are defined, normalised, and less than a second and a nanosecond away from the exact product (quotient), and equal to it if both the seconds and the nanoseconds times (divided by) d are whole numbers. Undefined: factors that are infinite or NaN, divisors 0 or NaN. Limits shown: the fraction of a second is lost: 1 s / 2 is 0, 1801 s * 0.5 is 900 s; 0.999999999 s / 2 is longer than 1 s / 2; 0.999999999 s * 3 is undefined (int32 overflow).", "quantifier": "all spans and all doubles in the stated range", "why_tests_cant": "rounding of doubles and truncation behave differently for every pair of operands", "anchors": ["src/icl_core/src/icl_core/TimeSpan.h"]}
{"id": "C68", "title": "Scope guards and scoped timers do their work exactly once, however the scope is left", "statement": "In every program of nested scopes, loops, exceptions, handlers, guards (AtScopeEnd), scoped timers, copies and assignments: every guard and timer is destroyed exactly once, in reverse order of construction, also when an exception leaves the scope; a guard then runs its function exactly if it was last enabled (new guards are enabled), never before; a guard declared first in a scope acts after everything else in that scope; guards do not swallow or raise exceptions. The program is killed only if a cleanup function throws or is empty, and in C++11 then always. While its level is logged a scoped timer writes exactly one report, when first stopped or at the end of its scope; each line shows exactly the nanoseconds between construction and print. Limits shown: a copied guard runs its function again; with a clock set back the time is negative.", "quantifier": "all programs over guards, timers, scopes, loops, exceptions and copies; all cleanup functions; all clocks after 1970; C++98 and C++11 destructors", "why_tests_cant": "Every way out of every scope, every nesting and order of enable/disable/stop/copy calls and every clock is covered; a test takes one path.", "anchors": ["src/icl_core/src/icl_core/AtScopeEnd.h:AtScopeEnd", "src/icl_core/src/icl_core_logging/ScopedTimer.h:ScopedTimer", "src/icl_core/src/icl_core_logging/LoggingMacros_SLOGGING.h:SLOGGING_LOG_FLCO"]}
{"id": "C69", "title": "The help text lists every option exactly once", "statement": "For every sequence of registrations (options with and without value, prefix options, positional parameters, version, description), the text Getopt::printHelp writes is determined line by line: program and version, usage line with required then optional positional parameters in the order of registration, description, a block per positional parameter, then a block per option, generic ones (configfile, dump-config, help, log-level, quick-debug) first, each part in alphabetical order. Every registered option, as first registered, is listed exactly once with its short form and value mark; no help text, whatever it contains, produces a line that looks like an option. Limits shown: prefix options are never listed; a short form already taken by another option is shown again although the parser gives it to the first.", "quantifier": "all sequences of registration calls, all names and help texts (any bytes)", "why_tests_cant": "Any registrations in any order with any text, including duplicates and line breaks; a test checks one text.", "anchors": ["src/icl_core/src/icl_core_config/GetoptParser.cpp:Getopt::printHelp", "src/icl_core/src/icl_core_config/GetoptParser.cpp:Getopt::addParameter", "src/icl_core/src/icl_core_config/GetoptParameter.cpp:GetoptParameter"]}
{"id": "C70", "title": "The text of a time stamp is the right date and time, before and after 1970, in UTC and local time", "statement": "For every time stamp, formatIso8601BasicUTC gives the Gregorian date and the time of day of the second the stamp lies in (rounded down, also for stamps before 1970 whose nanoseconds are negative), a comma and the nine digits of the nanoseconds since then; formatIso8601UTC gives date and time of the stamp's seconds; formatIso8601Basic and formatIso8601 give the same texts for the wall clock of the local zone. The calendar is the Gregorian one: every day has exactly one date and no two days share one, and the day numbers the parser uses agree with it. For years of four digits the texts sort as bytes exactly as the stamps do in time, and equal texts are of equal stamps. Limits shown: with years of fewer digits they do not sort; years outside -999..9999 do not fit the buffer (undefined); formatIso8601UTC rounds stamps before 1970 up; texts from before 1970 cannot be read back by fromIso8601BasicUTC; an unknown local time leaves the text indeterminate.", "quantifier": "all time stamps in canonical form, all time zones (any function from instants to offsets)", "why_tests_cant": "Leap years, centuries, the sign of both parts and the zone offset interact over a 64 bit range; tests check a few dates.", "anchors": ["src/icl_core/src/icl_core/TimeStamp.cpp:TimeStamp::strfTime", "src/icl_core/src/icl_core/TimeStamp.cpp:TimeStamp::strfLocaltime", "src/icl_core/src/icl_core/TimeStamp.cpp:TimeStamp::formatIso8601", "src/icl_core/src/icl_core/TimeStamp.cpp:TimeStamp::formatIso8601UTC", "src/icl_core/src/icl_core/TimeStamp.cpp:TimeStamp::formatIso8601Basic", "src/icl_core/src/icl_core/TimeStamp.cpp:TimeStamp::formatIso8601BasicUTC"]}
{"id": "C71", "title": "Time values survive the exchange formats of other systems", "statement": "A time stamp or time span converted to its message type (iTimeStamp, iTimeSpan) and back, by constructor or assignment, is unchanged, also for times before 1970; the fields of a span message mean the span, those of a stamp message mean the stamp exactly if it is not before 1970. Messages of other programs give the time they say while seconds and nanoseconds stay below 2^63 and 2^31. A DDS::Time_t can always be received; a time stamp sent as one comes back unchanged exactly if its seconds fit in 32 bits. A Mach time-out is exact for spans from 0 up to 2^32 seconds, and waiting for a semaphore until a deadline on Darwin waits for what is left of it. Limits shown: assignment does not normalise, so a received stamp with a second or more of nanoseconds compares wrongly; nanoseconds from 2^31 on are taken as negative; after 2038 DDS stamps wrap; the DDS value for 'invalid' becomes an ordinary time; a negative relative time-out waits 136 years on Darwin.", "quantifier": "all canonical time values and all field values of the messages", "why_tests_cant": "The conversions narrow and change sign over 64 bit ranges; a test can only look at some values, and the formats are not built by default.", "anchors": ["src/icl_core/src/icl_core/TimeStamp.cpp:TimeStamp::operator DDS::Time_t", "src/icl_core/src/icl_core/TimeStamp.cpp:TimeStamp::operator iTimeStamp", "src/icl_core/src/icl_core/TimeStamp.cpp:TimeStamp::operator =", "src/icl_core/src/icl_core/TimeSpan.cpp:TimeSpan::operator iTimeSpan", "src/icl_core/src/icl_core/TimeSpan.cpp:TimeSpan::operator =", "src/icl_core/src/icl_core/TimeBase.cpp:TimeBase::machTimespec", "src/icl_core/src/icl_core_thread/SemaphoreImplDarwin.cpp:SemaphoreImplDarwin::wait"]}
{"id": "C72", "title": "Stamped values hold and print what was written", "statement": "Whatever was written to a Stamped value through get(), operator*, operator-> and header(), in any order, reading gives what was written last to each part (sequence numbers modulo 2^32). Its printed line says sequence number, time to the microsecond, item number, frame and data (or its size if the data has no operator<<), so that two values that print the same have the same sequence number, time and item number, and the same frame and data text if the frames have no semicolon. Limits shown: no constructor sets the item number (dsin), and printing reads it, so printing is defined exactly if it was set by hand; a frame with a semicolon cannot be told from the data.", "quantifier": "all ways to make a value, all sequences of writes, all data types and operator<<, all times of the years 1400 to 9999 and special times", "why_tests_cant": "A test sees some values; reading an uninitialised number usually goes unnoticed.", "anchors": ["src/icl_core/src/icl_core/DataHeader.h:DataHeader", "src/icl_core/src/icl_core/DataHeader.h:Stamped::print", "src/icl_core/src/icl_core/DataHeader.h:Stamped::header", "src/icl_core/src/icl_core/DataHeader.cpp:operator <<"]}
{"id": "C73", "title": "The checks for LXRT answer right and need no more than they say", "statement": "The check for a kernel module reads /proc/modules to its end at most and says yes only if a line begins with the name; it finds every listed module whose line and those before it are shorter than 200 characters, and says no if the file cannot be read. isLxrtAvailable() says whether some check so far has found all modules this build needs, and no later check takes it back. Hard real-time implies a real-time task implies LXRT; makeThisAnLxrtTask() answers 1 exactly if it made one, which then is not in hard real-time; after lxrtShutdown(), makeThisALinuxTask() or ensureNoHRT() it is none, or not in hard real-time. A build without LXRT changes nothing and says no. Limits shown: a module with a longer name is taken for the one looked for; a line of 200 characters ends the search.", "quantifier": "all contents of /proc/modules, all module names, all sequences of calls, all answers of the system calls, three build variants", "why_tests_cant": "Depends on the kernel modules of the machine and on a build that needs RTAI.", "anchors": ["src/icl_core/src/icl_core/os_lxrt.cpp:checkKernelModule", "src/icl_core/src/icl_core/os_lxrt.cpp:checkForLxrt", "src/icl_core/src/icl_core/os_lxrt.cpp:isLxrtAvailable", "src/icl_core/src/icl_core/os_lxrt.cpp:makeThisAnLxrtTask", "src/icl_core/src/icl_core/os_lxrt.cpp:makeThisALinuxTask", "src/icl_core/src/icl_core/os_lxrt.cpp:ensureNoHRT"]}
{"id": "C74", "title": "The data of a class derived from Thread outlive its run()", "statement": "A thread class whose destructor calls stop() and join() first (PeriodicDispatchThread) can be deleted at any moment: no thread is in run() or makePeriodic() of it once its own data are destroyed, and none gets to run() of what is only a Thread any more. For a class whose destructor does not (PeriodicThread) this holds if the client deletes the object only before start(), or when its last call was join(), a wait() that answered true or a start() that answered false. A destructor that stops and joins has asked the thread to stop before it waits, and the delete returns in every execution in which nobody is passed over for ever, even if run() only ends when it sees that execute() is false; no delete is ever in a state in which nobody can go on. Limits shown: otherwise run() of a PeriodicThread goes on with destroyed data, also when stop() was called before; and deleted right after start(), a pure virtual run() is called.", "quantifier": "all interleavings of the client and the workers, all histories of start/stop/join/wait before the delete, all moments of the delete; all fair executions", "why_tests_cant": "The use after destruction needs a delete at one moment of the worker's run, and usually looks harmless.", "anchors": ["src/icl_core/src/icl_core_thread/PeriodicThread.cpp:PeriodicThread::~PeriodicThread", "src/icl_core/src/icl_core_dispatch/PeriodicDispatchThread.cpp:PeriodicDispatchThread::~PeriodicDispatchThread", "src/icl_core/src/icl_core_thread/Thread.cpp:Thread::~Thread", "src/icl_core/src/icl_core_thread/Thread.cpp:Thread::runThread"]}
{"id": "C75", "title": "Threads on LXRT: the start barrier, the destructor and the real-time mode", "statement": "With the RTAI 3.8 implementation, if semaphores and RTAI tasks can be made, a Thread does nothing it does not do on Posix; start() and the new worker wait for each other at a barrier, run() is not entered before both have come, the semaphore they wait at is not deleted, and no call is ever stuck. Deleting the thread waits until the last worker has ended altogether. A periodic thread waits for its period in the mode its priority asks for, whatever took it out of it, if RTAI does as it is told, and logs exactly whether it had to and could; setHardRealtime() says true exactly if it changed the mode to the one asked for. Where RTAI gives a name once only, a thread can be started once only. Limits shown: then a second start() after the end of the first run() and a join() waits for ever; so does a start() whose RTAI task cannot be made; where names are not unique a second start() loses the first semaphore.", "quantifier": "all interleavings of the client and the workers, all histories of start/stop/join/wait/delete without cancel, all failures of pthread_create, rt_task_init and the semaphore's name, all sequences of waits, mode changes and losses of the mode", "why_tests_cant": "Needs an RTAI kernel; the deadlocks need failing RTAI calls or one order of run() ending and join().", "anchors": ["src/icl_core/src/icl_core_thread/ThreadImplLxrt38.cpp:start", "src/icl_core/src/icl_core_thread/ThreadImplLxrt38.cpp:runThread", "src/icl_core/src/icl_core_thread/ThreadImplLxrt38.cpp:join", "src/icl_core/src/icl_core_thread/ThreadImplLxrt38.cpp:setHardRealtime", "src/icl_core/src/icl_core_thread/PeriodicThread.cpp:PeriodicThread::waitPeriod", "src/icl_core/src/icl_core_thread/Thread.cpp:Thread::start"]}
{"id": "C76", "title": "A log line is printed with one format, whenever the format is changed", "statement": "If calls of changeLogFormat on an output do not overlap and no signal interrupts the wait of a change, then however many threads log meanwhile, every line is printed with all the entries of one format: the default or one given to changeLogFormat; when no change is under way the format is the one given last. Whatever the calls and signals, the format does not change while a line is printed, at most one thread is in the protected part, and some thread can always go on; unless new calls are made, all calls under way return after finitely many actions, in whatever order the threads go on. Limits shown: two changes at once can mix their entries (the new format is parsed without the lock), and a change interrupted by a signal is dropped but its entries come back in front of those of the next one.", "quantifier": "all interleavings of any number of threads that log and change the format, all formats, all interruptions of waits by signals", "why_tests_cant": "The mix-up needs two threads in the parser at once or a signal during a wait.", "anchors": ["src/icl_core/src/icl_core_logging/LogOutputStream.cpp:LogOutputStream::changeLogFormat", "src/icl_core/src/icl_core_logging/LogOutputStream.cpp:LogOutputStream::pushImpl", "src/icl_core/src/icl_core_logging/LogOutputStream.cpp:LogOutputStream::parseLogFormat"]}
