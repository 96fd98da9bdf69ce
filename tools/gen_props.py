#!/usr/bin/env python3
"""Writes /verif/properties.jsonl.  One entry per property; edit here, rerun."""
import json
H="containers/cliffMap/hashMap.hpp"
P=[]
def p(title,statement,quantifier,why,anchors):
    P.append(dict(id="C%02d"%(len(P)+1),title=title,statement=statement,quantifier=quantifier,why_tests_cant=why,anchors=anchors))
p("Sequential map semantics across resizes",
  "Used from one thread on a freshly created map, put/get/putIfAbsent/replace/remove(key)/remove(key,value)/containsKey behave like a plain key->value dictionary: get returns the value of the last effective write to that key, or the not-found value if there is none or the key was removed, however many table resizes happen in between.",
  "every finite sequence of operations with legal keys and values, every hash function, every power-of-two initial capacity >= 8, every number of resizes",
  "the number of operation sequences, key collisions and resize points is unbounded; a test only samples them",
  [H+":putIfMatch",H+":getImpl",H+":copySlot",H+":helpCopyImpl",H+":resize"])
p("Operations touch only their own key",
  "Used from one thread, an operation on key k (including any migration work it performs on behalf of a resize) never changes what get would return for any other key.",
  "every operation sequence, every pair of distinct legal keys, every hash function",
  "interference depends on which keys collide and which entries a resize happens to move",
  [H+":putIfMatch",H+":copySlot",H+":helpCopy"])
p("Conditional writes act only when their condition holds",
  "Used from one thread, putIfAbsent(k,v) writes iff k is absent and otherwise returns the present value; replace(k,old,new) writes and returns true iff k currently maps to old; remove(k,v) deletes and returns true iff k currently maps to v.",
  "every reachable single-threaded state, every legal key and value arguments",
  "the condition must hold in every reachable table layout, also when the key lives in a half-migrated table",
  [H+":putIfAbsent",H+":replace",H+":remove",H+":putIfMatch"])
p("No assertion failure or undefined access in single-threaded use",
  "Used from one thread with legal keys and values, no operation fails one of the map's internal assertions, dereferences a null successor table, or accesses a slot outside a table.",
  "every finite operation sequence, every hash function, debug and release builds",
  "requires reasoning about every reachable state, including partially migrated chains of tables",
  [H+":copyCheckAndPromote",H+":copySlotAndCheck",H+":Table::key",H+":Table::value",H+":resize"])
p("Every single-threaded operation terminates",
  "Every put, get and remove issued from one thread returns after finitely many steps.",
  "every operation sequence with legal keys and values, every hash function",
  "non-termination cannot be observed by a finite test; it depends on collision patterns across all future table sizes",
  [H+":putIfMatch",H+":tableFull",H+":resize",H+":helpCopyImpl"])
p("size() counts the present keys",
  "In single-threaded use size() returns the number of keys that currently map to a value.",
  "every finite operation sequence",
  "a counting error appears only after particular nestings of resizes and inserts",
  [H+":size",H+":putIfMatch",H+":resize"])
p("remove(key) reports whether the key was present",
  "remove(key) returns true exactly when the key was mapped to a value before the call.",
  "every reachable state and key",
  "the error depends on the stored value",
  [H+":remove","containers/ucfMap.hpp:erase"])
p("containsKey agrees with get",
  "containsKey(k) is true exactly when get(k) would return a stored value (not the not-found value).",
  "every reachable single-threaded state, every legal key",
  "must hold in every table layout",
  [H+":containsKey",H+":get"])
p("increment adds exactly one",
  "increment(k) creates the count 1 for an absent key and otherwise adds exactly one to the stored count, and returns the previous raw value; other keys are unchanged.",
  "every reachable single-threaded state, every legal key whose count does not reach the reserved range",
  "whether an increment is applied through a resize depends on the table layout at the call",
  [H+":increment",H+":update",H+":putIfMatch","containers/ucfMap.hpp:increment"])
p("Reads return only values that some client supplied for that key",
  "In every concurrent execution, get(k) returns either the not-found value or a value that a put/putIfAbsent/replace on the same key k, invoked before the get returned, supplied as its new value (or a count produced by increment(k)); values never leak between keys or appear out of thin air, also during migrations.",
  "every number of threads, every operation list per thread, every interleaving of individual memory accesses, every hash function",
  "the interleavings are unbounded",
  [H+":getImpl",H+":putIfMatch",H+":copySlot"])
p("get, put and remove on present keys are linearizable",
  "If the keys involved are already stored in a map that is not resizing, then any concurrent execution of get/put/remove on those keys is linearizable with respect to the dictionary semantics (returned previous values compared up to the reserved bit 0).",
  "every number of threads, every operation list, every interleaving of individual memory accesses",
  "linearizability quantifies over all interleavings",
  [H+":getImpl",H+":putIfMatch","include/persistence.hpp:pcas","include/persistence.hpp:pcas_read"])
p("Concurrent first inserts of one key agree on a single winner",
  "When several threads concurrently put a previously absent key, exactly one of the calls reports that the key was absent, and the map ends up with one entry for the key.",
  "every interleaving of the threads' memory accesses",
  "the losing interleaving needs a preemption inside a compare-and-swap helper",
  [H+":putIfMatch",H+":CASkey","include/persistence.hpp:pcas"])
p("Values returned to callers never carry reserved marker bits",
  "No value returned by get, put, putIfAbsent or replace has one of the two reserved low-order bits set (unpersisted mark, migration mark).",
  "every concurrent execution with legal keys and values",
  "the leak needs a race between two writers at one particular instruction",
  [H+":get",H+":putIfMatch","include/marking.hpp"])
p("putIfAbsent fails only if the key was present",
  "In a concurrent execution, putIfAbsent(k,v) leaves the map unchanged and reports an existing value only if k was mapped to a value at some moment during the call.",
  "every interleaving",
  "requires a race at one instruction",
  [H+":putIfAbsent",H+":putIfMatch",H+":CASvalue"])
p("A claimed key slot is permanent",
  "Once a key has been given an entry in a table, that entry keeps belonging to the same key for the lifetime of the table: no concurrent operation, removal or migration reassigns or clears it.",
  "every concurrent execution, every table, every entry",
  "quantifies over all interleavings",
  [H+":CASkey",H+":copySlot","containers/cliffMap/hashMap.hpp:VTOMBSTONE"])
p("Entries frozen for migration are never written again",
  "Once an entry of an old table has been frozen for migration, no later write by any thread takes effect in the old table: the frozen value either stays as is or is replaced by the 'migrated' marker, and the 'migrated' marker is final.",
  "every concurrent execution, every table, every entry",
  "quantifies over all interleavings",
  [H+":copySlot",H+":putIfMatch","containers/cliffMap/hashMap.hpp:TOMBPRIME"])
p("Each table gets at most one successor, exactly twice as large",
  "Under concurrent resizing every table obtains at most one successor, the successor never changes, its capacity is exactly twice the old capacity, and every capacity ever in use is a power of two of at least the initial capacity.",
  "every concurrent execution started from a power-of-two capacity in a directory without left-over files",
  "concurrent resizers race",
  [H+":resize",H+":CASNewTable",H+":mmapTable"])
p("The map's current table only moves forward",
  "The table that new operations start from only ever changes from a table to that table's own successor; it never moves back and never skips a table.",
  "every concurrent execution",
  "quantifies over all interleavings of helpers and promoters",
  [H+":copyCheckAndPromote"])
p("Promotion loses nothing",
  "When a migration finishes and the new table replaces the old one, every key that was present is still found with the same value.",
  "single-threaded: every operation sequence and hash function; concurrent: every interleaving",
  "loss requires a miscounted entry among all entries of the old table",
  [H+":copyCheckAndPromote",H+":helpCopyImpl",H+":copySlot"])
p("Lock-freedom: a stalled thread cannot block the others",
  "If one thread is suspended forever at an arbitrary point, every other thread that keeps running eventually completes its operation.",
  "every reachable concurrent state, every suspension point",
  "blocking is an infinite behaviour",
  [H+":helpCopyImpl",H+":copyCheckAndPromote"])
p("Removed keys stay removed",
  "After remove(k) has completed and no later operation writes k, get(k) never again returns a value, whatever resizes happen afterwards.",
  "single-threaded: every operation sequence; concurrent: every interleaving",
  "reappearance needs a stalled helper or a duplicate entry plus later resizes",
  [H+":copySlot",H+":putIfMatch"])
p("Acknowledged writes survive a crash",
  "Once put(k,v) has returned, a crash at any later point leaves v (or a later value of k) in persistent memory.",
  "every execution, every crash point, every cache write-back choice",
  "crash points and cache evictions cannot be enumerated by tests",
  ["include/persistence.hpp:pcas",H+":CASvalue",H+":putIfMatch"])
p("In single-threaded use a crash loses at most the last write of an entry, and never a value that was read",
  "In single-threaded use, at every crash point (also in the middle of an operation) the persistent copy of each entry's key and value is the current one or the immediately preceding one, and whenever the current one has been read since it was written, the persistent copy is the current one.",
  "every operation sequence, every crash point between two memory accesses, every cache write-back choice, every line size",
  "crash points and cache evictions cannot be enumerated by tests",
  ["include/persistence.hpp:persist","include/persistence.hpp:pcas_read","include/persistence.hpp:pcas"])
p("What a concurrent reader has seen survives a crash",
  "In a concurrent execution, a key or value that a completed read has observed is in persistent memory (possibly replaced by a later one) at every later crash.",
  "every interleaving, every crash point, every cache write-back choice",
  "needs reasoning over all interleavings and write-backs",
  ["include/persistence.hpp:persist","include/persistence.hpp:pcas_read"])
p("No value without its key in persistent memory",
  "At every crash point of every concurrent execution, an entry whose persistent value field is not the initial value has its key field set in persistent memory too.",
  "every interleaving, every crash point, every cache write-back choice",
  "crash states are exponentially many",
  [H+":putIfMatch",H+":KVpair",H+":mmapTable"])
p("Persistent entries contain only client data",
  "At every crash point of every concurrent execution, each entry of the persistent image is unused, or carries a key some client passed in, together with a value that a client supplied for that same key (possibly with marker bits), or a deletion/migration marker; keys and values of different clients' writes are never mixed up.",
  "every interleaving, every crash point, every cache write-back choice",
  "crash states are exponentially many",
  [H+":putIfMatch",H+":copySlot","include/persistence.hpp"])
p("Reopening a map restores its contents",
  "Constructing a map with recovery enabled over the files of an earlier map makes every persisted key available again with its value.",
  "every set of table files left by an earlier run",
  "the set of on-disk states is unbounded",
  [H+":ConcurrentHashMap",H+":mmapTable",H+":numFromName"])
p("A map created without recovery starts empty",
  "Constructing a map without recovery gives a map in which every get returns not-found and size() is 0, and tables created later by resizing also start empty.",
  "every state of the table directory",
  "depends on left-over files",
  [H+":mmapTable",H+":ConcurrentHashMap",H+":resize"])
p("Table file names encode their creation order",
  "Parsing the file name of the n-th table gives back n, and recovery visits tables in creation order.",
  "every table number below 2^31 (the range of atoi), every set of table files",
  "fails only for particular numbers",
  [H+":getOrderedFileName",H+":numFromName",H+":ConcurrentHashMap"])
p("Tables created after recovery get fresh files",
  "After recovery, the next table allocated by a resize uses a file name that no recovered table uses.",
  "every set of recovered table files",
  "depends on the on-disk state",
  [H+":ConcurrentHashMap",H+":resize",H+":mmapTable"])
p("Marker bits and reserved values never collide with client data",
  "Setting, testing and clearing the marker bits is lossless on client words; the reserved key and value words are pairwise distinct and distinct from every legal client word, also after marking.",
  "every 64-bit word",
  "2^64 words",
  ["include/marking.hpp:setMark","include/marking.hpp:clearMark","include/marking.hpp:isMarked",H+":VINITIAL",H+":isValueReserved"])
p("Distinct container elements are stored under distinct keys",
  "The benchmark container's encoding of an element as a key (shift by the reserved bits) is injective, reversible, and never yields a reserved word.",
  "every 64-bit element",
  "2^64 elements",
  ["containers/ucfMap.hpp:insert","containers/ucfMap.hpp:get",H+":BITS_MARKED"])
p("Container insert reports whether the element was new",
  "insert(el) returns true exactly when el was not in the container before the call, as the reference (STL) container does.",
  "every reachable single-threaded state, every legal element",
  "must be checked in every state",
  ["containers/ucfMap.hpp:insert","containers/stlMap.hpp:insert","containers/container.hpp"])
p("Container membership operations agree with the reference container",
  "After any single-threaded sequence of insert/erase/contains/get/count on legal elements, contains(el) is true exactly when el was inserted and not erased since, and get(el) returns el exactly in that case.",
  "every finite sequence of container operations",
  "unbounded sequences",
  ["containers/ucfMap.hpp:contains","containers/ucfMap.hpp:get","containers/stlMap.hpp"])
p("Readers and writers use the same home position",
  "For every key and table capacity, the position at which get starts probing equals the position at which put starts probing.",
  "every 64-bit hash value, every power-of-two capacity",
  "differs only for astronomically large tables",
  [H+":getImpl",H+":putIfMatch",H+":get"])
p("Range persistence flushes exactly the covering cache lines",
  "PERSIST(addr,len) flushes every 64-byte line that intersects [addr,addr+len) and no other line, then fences.",
  "every address and length that do not wrap the address space",
  "2^128 inputs",
  ["include/persistence.hpp:PERSIST","include/persistence.hpp:PERSIST_FLUSH_ONLY"])
p("Descriptor references survive encoding into a word",
  "Encoding a multi-word-CAS descriptor reference (thread id, sequence number, kind flags) into a word and decoding it gives the same reference; different references give different words, and the kind flags are exactly the reserved low bits. The same holds for the descriptors' status words.",
  "every thread id, sequence number and flag combination that fits the fields, every power-of-two thread bound",
  "2^64 encodings; the repository's own testCast samples a few dozen",
  ["include/KCAS/pmwcas.hpp:DescRef","include/KCAS/pmwcas.hpp:testCast","include/KCAS/pmwcas.hpp:KCASDescriptor::Mutable"])
p("The benchmark splits work without loss or overlap",
  "The per-thread operation counts add up to the requested total, and the elements generated for different (thread, index) pairs are different.",
  "every total, every positive thread count, every thread and index",
  "unbounded parameters",
  ["tests/test.hpp:opsPerThread","tests/test.hpp:opsMainLoop","tests/alternating.hpp:genElem"])
p("Reads do not change the map",
  "get and containsKey leave the dictionary contents unchanged; if no migration is in progress they change nothing but the unpersisted marks.",
  "every reachable single-threaded state, every key",
  "must hold in every layout",
  [H+":get",H+":getImpl",H+":containsKey"])
p("Mapping an existing table file repairs half-finished inserts and keeps the rest",
  "Mapping an existing table file turns every entry whose key is set but whose value was never written into a deleted entry, leaves every other entry as it is, and sets the size counter to the number of entries holding a value.",
  "every file content",
  "unbounded file contents",
  [H+":mmapTable"])
p("A call that runs alone returns",
  "In every reachable state in which no call is in progress, a call that is then made by one thread, while all others do nothing, returns or reports an allocation failure.",
  "every concurrent execution up to that state, every call",
  "the states that matter are left behind by rare interleavings",
  [H+":helpCopyImpl",H+":copySlot",H+":putIfMatch"])
p("A table whose creation was interrupted holds no entries",
  "If the process stops while a table file is being created and initialised, the table that is opened from this file later holds no entries and has size 0.",
  "every capacity, every point of interruption",
  "depends on the moment of the crash",
  [H+":mmapTable"])
p("A map that has not grown survives a crash when it is constructed again",
  "If a single-threaded execution of a map that has not grown stops anywhere, also in the middle of a call, then a map constructed from its file (without the recovery flag) behaves as a dictionary in which each key has what the history up to the crash says except for at most the last change of this key, and never a state of the key from before the last get that found it; size() is the number of its keys.",
  "every capacity, line size, hash function, call sequence, crash point between two memory accesses, cache write-back choice, and every later call sequence",
  "crash points and cache evictions cannot be enumerated by tests",
  [H+":mmapTable",H+":ConcurrentHashMap",H+":putIfMatch","include/persistence.hpp:pcas"])
p("Every call takes effect on one entry in one step",
  "In every concurrent execution, also while tables are being resized, the result of each completed call is explained by a single step made between its invocation and its response: a writing call exchanges or inspects the value word of one entry of its key, in a table that was current during the call or a successor of it, and returns what that word was before; a reading call returns what a search of such a table gives at that step.",
  "every number of threads, every schedule, every hash function, capacity and call sequence",
  "a call that takes its result from two different moments is only exposed by rare interleavings",
  [H+":putIfMatch",H+":getImpl",H+":copySlotAndCheck","include/persistence.hpp:pcas"])
p("Concurrent calls on a new map are linearizable",
  "Every concurrent execution of get, containsKey, put, putIfAbsent, replace, remove and size on a map that starts empty can be explained by an order of its calls, consistent with real time, in which each call does what it does on a dictionary.",
  "every number of threads, schedule, hash function, capacity and call sequence",
  "a missing update only shows under rare interleavings of the first inserts of a key",
  [H+":putIfMatch",H+":getImpl",H+":get"])
p("Concurrent increments are not lost",
  "In every concurrent execution of increment and get on a map that starts empty, each get(k) returns a count between the number of increments of k that had returned when it started and the number that had started when it returned, and no two increments of one key return the same previous count.",
  "every number of threads, schedule, hash function, capacity and call sequence",
  "lost updates only show under rare interleavings",
  [H+":increment",H+":updateLoop",H+":putIfMatch"])
K="include/KCAS/pmwcas.hpp"
p("One call at a time, the multi-word compare-and-swap is atomic",
  "Multi-word compare-and-swaps, single-word compare-and-swaps and reads that are made one after another by any of the threads do what the atomic operations do: a multi-word compare-and-swap replaces all of its words if all have the expected values, and none otherwise, and reports which.",
  "every call sequence with distinct words and values with clear flag bits, every array, every number of threads up to 2^16 and words per call",
  "unbounded sequences of calls; the reused descriptors carry state from one call to the next",
  [K+":PMwCAS",K+":createNew",K+":InstallMwCASDescriptor",K+":CompleteInstall",K+":PMwCASRead",K+":CAS"])
p("A successful multi-word compare-and-swap takes effect in all of its words",
  "When all calls have returned, a word that only one multi-word compare-and-swap writes holds the new value of this call if the call reported success.",
  "every number of threads, schedule and call sequence",
  "depends on a helper that reads in the few steps between the decision and the installation of the last word",
  [K+":PMwCAS",K+":PMwCASRead",K+":CASField"])
p("The outcome of a multi-word compare-and-swap is decided once",
  "The status of a descriptor changes only from undecided to decided, as long as its sequence number stays the same; the sequence number changes only by steps of the owner, to the next one, and the status is undecided then.",
  "every number of threads, schedule and call sequence",
  "races between helpers",
  [K+":PMwCAS",K+":CASField",K+":createNew"])
p("A read of a word returns a value, not a descriptor",
  "A read returns 0 (the initial value) or a value that some call mentions as an old or new value; in particular its flag bits are clear.",
  "every number of threads, schedule and call sequence",
  "references to descriptors are in the array only for short moments",
  [K+":PMwCASRead",K+":CompleteInstall",K+":InstallMwCASDescriptor"])
p("Recovery completes or undoes an interrupted multi-word compare-and-swap",
  "The recovery of the memory that an execution leaves behind does not fail; afterwards the words of an interrupted call have all their old or all their new values, and none is a reference to a descriptor.",
  "every execution and every moment of interruption",
  "depends on the moment of the crash",
  [K+":recover",K+":PMwCAS"])
p("The check after recovery accepts the container of an interrupted test",
  "After a crash at any point of the alternating test, the check of the recovered container succeeds if the container holds what the finished calls left in it.",
  "every number of threads and operations, and every point of interruption",
  "the harness runs with a few numbers of threads and operations, and rarely crashes",
  ["tests/alternating.hpp:check_elements","tests/alternating.hpp:check_all_elements","tests/alternating.hpp:consistency_check","runTest.hpp:run_test"])
p("With several threads a crash loses at most the last change of an entry",
  "Whatever a crash of a concurrent execution finds in an entry of a table, the entry has since then taken at most one other value, the current one.",
  "every number of threads, schedule, call sequence, hash function and capacity, every crash image",
  "depends on the interleaving of the flushes of several threads and on which cache lines reach memory",
  ["include/persistence.hpp:pcas_read","include/persistence.hpp:persist","include/persistence.hpp:pcas",H+":CASvalue"])
p("A map used by several threads survives a crash when it is constructed again",
  "The map constructed from the file that a crash of a concurrent execution leaves behind behaves as a dictionary that has, for each key, what memory said at some moment before the crash; at most the last change is lost, and no value that a get has returned.",
  "every number of threads, schedule, call sequence, hash function and capacity, every crash image",
  "depends on the interleaving and on which cache lines reach memory",
  [H+":putIfMatch",H+":CASkey",H+":mmapTable",H+":getImpl"])
p("What has been read survives a crash while the map grows",
  "After a get of k has returned v, and if k is not written any more, every later crash finds k with v in the persistent copy of some table, also while and after the map grows.",
  "every number of threads, schedule, call sequence, hash function and capacity, every crash image",
  "needs a crash at a time when the migration mark has reached memory and the copy has not",
  [H+":copySlot",H+":putIfMatch",H+":copyCheckAndPromote","include/persistence.hpp:pcas"])
p("The YCSB driver deals out the trace",
  "Every operation of the first operationCount + 1 lines of the trace is put into the queue of exactly one thread, line j into that of thread j modulo the number of threads, in the order of the file and within the queues' bounds; every INSERT line of the load file is inserted.",
  "every trace, number of threads and content of the line buffer",
  "the traces have millions of lines; a write past a queue need not crash",
  ["tests/ycsb.hpp:container_test_prefix"])
p("The counting drivers report how often each number occurs",
  "The reddit and degree drivers increment exactly the numbers of their file, the container then holds the number of occurrences of each, and the report lists every number with its count.",
  "every file, hash function and capacity",
  "nothing compares the report with the file",
  ["tests/reddit.hpp:parseFile","tests/reddit.hpp:reportReddit","tests/degree.hpp:parseFile","tests/degree.hpp:reportDegree"])
p("The command line sets what its options say",
  "Every option sets its field to its value, later options override earlier ones, anything else is rejected, and the capacity is 2 to the given power.",
  "every list of arguments",
  "the scripts use a few well-formed command lines",
  ["runTest.hpp:matchOpt1","runTest.hpp:conv","runTest.cpp:main","containers/ucfMap.hpp:container_type"])
p("The random driver makes only legal calls",
  "Whatever rand() returns, the random driver never passes an element whose key or value is a reserved word to the container, and a single-threaded run does not fail an assertion.",
  "every sequence of random numbers, hash function and capacity",
  "the reserved words are a few out of 2^64",
  ["tests/random.hpp:container_test_prefix","tests/random.hpp:container_test"])
p("The start barrier holds back every thread until all have arrived",
  "No thread leaves sync_start before every thread has entered it, its assertion holds, and every thread leaves it once all have arrived.",
  "every number of threads and schedule",
  "depends on the interleaving of the threads' start",
  ["tests/test.hpp:sync_start","runTest.hpp:run_test"])
p("Half-installed words can be completed by everybody",
  "In every execution a word that refers to a word descriptor refers to its present contents, which describe that word; completing it turns it into a reference to the call if this is still undecided and into the old value otherwise; outdated references change nothing; and the first pass of recovery completes all of them.",
  "every execution, every memory with well-formed descriptors, every reference",
  "needs another thread, or the recovery, to meet a call between two of its steps",
  [K+":CompleteInstall",K+":InstallMwCASDescriptor",K+":readField",K+":CASField",K+":createNew",K+":recover"])
p("A call that is not decided can be completed by every thread",
  "A thread that meets a reference to a call that is not decided while the other threads pause, in a read, a compare-and-swap of one or several words or as a helper, completes it with the result and the effect that the atomic operation has on the array without the call, and then acts on the array after it.",
  "every memory with such a call, whichever of its words refer to it, every helper",
  "needs another thread to meet a call between two of its steps",
  [K+":PMwCAS",K+":PMwCASRead",K+":CAS"])
p("xxhash maps distinct keys to distinct hashes",
  "The xxhash wrapper computes XXH64 of the eight bytes of a 64-bit key, and two different keys never have the same 64-bit hash.",
  "every pair of 64-bit keys",
  "2^127 pairs of keys",
  ["hashing/hash.hpp:xxhash","hashing/xxhash.hpp:endian_align","hashing/xxhash.hpp:endian_align_sub_ending"])
p("Hashing piecewise is hashing at once",
  "Feeding an input to the streaming state in pieces and taking the digest gives the hash of the concatenated pieces.",
  "every seed, every input below 2^64 bytes and every division into pieces",
  "the cases depend on how each piece meets the 32-byte buffer",
  ["hashing/xxhash.hpp:hash_state_t","hashing/xxhash.hpp:endian_align"])
p("The KCAS test program makes legal calls",
  "Whatever rand() returns, performOps has no undefined behaviour and calls PMwCAS with distinct words of the array, at most K of them, and values with clear flag bits; a thread that runs alone never sees a call fail.",
  "every sequence of random numbers, every iteration order of the set, every number of threads and every schedule",
  "the calls depend on random numbers and on what concurrent reads return",
  ["include/KCAS/main.cpp:performOps","include/KCAS/main.cpp:threadRunner","include/KCAS/define.hpp"])
p("The wrapped containers answer like the reference",
  "The containers pmemMap, levelMap and onefileMap, created without recovery, answer every sequence of calls made by any threads one after another like the reference container stlMap.",
  "every sequence of calls, every assignment of calls to threads",
  "the library maps need persistent memory, and the answers depend on the whole history",
  ["containers/pmemMap.hpp:container_type","containers/levelMap.hpp:container_type","containers/onefileMap.hpp:container_type","containers/stlMap.hpp:container_type"])
p("A multi-word compare-and-swap that runs alone completes",
  "Whatever undecided calls of other threads have left references in the array, and whatever words they were stopped in the middle of installing, a thread that runs alone completes its PMwCAS, PMwCASRead or CAS; the calls it meets are completed atomically, one after the other, and its own call acts atomically after them.",
  "every number of pending calls, every set of words that refer to them, every operation",
  "the helping calls nest as deep as the chain of pending calls, which depends on where the other threads were stopped",
  ["include/KCAS/pmwcas.hpp:PMwCAS","include/KCAS/pmwcas.hpp:PMwCASRead","include/KCAS/pmwcas.hpp:CAS"])
p("Until a multi-word compare-and-swap is decided, threads only prepare calls",
  "From an array at rest, threads that execute PMwCAS and PMwCASRead in any interleaving leave the array logically unchanged until a call is decided: reads return the initial values, no assertion fails, no index is out of bounds, every call that has been made was asked for, and a thread that then runs alone completes any operation atomically after some of these calls.",
  "every number of threads, every list of operations of each, every schedule without a decided call",
  "the states depend on the interleaving of the single steps of all threads",
  ["include/KCAS/pmwcas.hpp:PMwCAS","include/KCAS/pmwcas.hpp:PMwCASRead","include/KCAS/pmwcas.hpp:CAS"])
p("Concurrent calls stay inside the tables and their assertions hold",
  "While threads call the map in any interleaving, resizes included, no thread follows a null pointer or indexes a table out of its range, and no assertion fails.",
  "every number of threads, every list of calls of each, every schedule, every hash function and capacity",
  "the table that a thread works on and its entries can be replaced between any two of its steps",
  [H+":copyCheckAndPromote",H+":copySlot",H+":resize",H+":helpCopyImpl",H+":putIfMatch"])
p("Concurrent multi-word compare-and-swaps fail no assertion and stay inside the arrays",
  "While threads call PMwCAS, PMwCASRead and CAS in any interleaving, no assertion fails, no exception is thrown, and neither the array nor the descriptor pool is indexed out of its range.",
  "every number of threads up to that of the descriptors, every list of legal calls of each, every schedule",
  "the references that a thread finds and the descriptors behind them can change between any two of its steps",
  [K+":PMwCAS",K+":PMwCASRead",K+":CAS",K+":CompleteInstall",K+":InstallMwCASDescriptor",K+":getSeq"])
p("What the multi-word compare-and-swap has done, and what was read, survives a crash",
  "When PMwCAS or CAS has returned true, its new values, and when PMwCASRead has returned, the value it returned, are what a crash at that moment leaves of these words; and a word without the dirty flag is always the word that a crash leaves.",
  "every execution and every moment of the crash",
  "which cache lines reach memory before a crash depends on the hardware, and the flag can be cleared by any thread",
  [K+":PMwCAS",K+":PMwCASRead",K+":CAS","include/persistence.hpp:persist","include/persistence.hpp:pcas_read","include/persistence.hpp:pcas"])
with open("/verif/properties.jsonl","w") as f:
    for x in P: f.write(json.dumps(x)+"\n")
print(len(P))
