{"id": "C01", "title": "Sequential map semantics across resizes", "statement": "Used from one thread on a freshly created map, put/get/putIfAbsent/replace/remove(key)/remove(key,value)/containsKey behave like a plain key->value dictionary: get returns the value of the last effective write to that key, or the not-found value if there is none or the key was removed, however many table resizes happen in between.", "quantifier": "every finite sequence of operations with legal keys and values, every hash function, every power-of-two initial capacity >= 8, every number of resizes", "why_tests_cant": "the number of operation sequences, key collisions and resize points is unbounded; a test only samples them", "anchors": ["containers/cliffMap/hashMap.hpp:putIfMatch", "containers/cliffMap/hashMap.hpp:getImpl", "containers/cliffMap/hashMap.hpp:copySlot", "containers/cliffMap/hashMap.hpp:helpCopyImpl", "containers/cliffMap/hashMap.hpp:resize"]}
{"id": "C02", "title": "Operations touch only their own key", "statement": "Used from one thread, an operation on key k (including any migration work it performs on behalf of a resize) never changes what get would return for any other key.", "quantifier": "every operation sequence, every pair of distinct legal keys, every hash function", "why_tests_cant": "interference depends on which keys collide and which entries a resize happens to move", "anchors": ["containers/cliffMap/hashMap.hpp:putIfMatch", "containers/cliffMap/hashMap.hpp:copySlot", "containers/cliffMap/hashMap.hpp:helpCopy"]}
{"id": "C03", "title": "Conditional writes act only when their condition holds", "statement": "Used from one thread, putIfAbsent(k,v) writes iff k is absent and otherwise returns the present value; replace(k,old,new) writes and returns true iff k currently maps to old; remove(k,v) deletes and returns true iff k currently maps to v.", "quantifier": "every reachable single-threaded state, every legal key and value arguments", "why_tests_cant": "the condition must hold in every reachable table layout, also when the key lives in a half-migrated table", "anchors": ["containers/cliffMap/hashMap.hpp:putIfAbsent", "containers/cliffMap/hashMap.hpp:replace", "containers/cliffMap/hashMap.hpp:remove", "containers/cliffMap/hashMap.hpp:putIfMatch"]}
{"id": "C04", "title": "No assertion failure or undefined access in single-threaded use", "statement": "Used from one thread with legal keys and values, no operation fails one of the map's internal assertions, dereferences a null successor table, or accesses a slot outside a table.", "quantifier": "every finite operation sequence, every hash function, debug and release builds", "why_tests_cant": "requires reasoning about every reachable state, including partially migrated chains of tables", "anchors": ["containers/cliffMap/hashMap.hpp:copyCheckAndPromote", "containers/cliffMap/hashMap.hpp:copySlotAndCheck", "containers/cliffMap/hashMap.hpp:Table::key", "containers/cliffMap/hashMap.hpp:Table::value", "containers/cliffMap/hashMap.hpp:resize"]}
{"id": "C05", "title": "Every single-threaded operation terminates", "statement": "Every put, get and remove issued from one thread returns after finitely many steps.", "quantifier": "every operation sequence with legal keys and values, every hash function", "why_tests_cant": "non-termination cannot be observed by a finite test; it depends on collision patterns across all future table sizes", "anchors": ["containers/cliffMap/hashMap.hpp:putIfMatch", "containers/cliffMap/hashMap.hpp:tableFull", "containers/cliffMap/hashMap.hpp:resize", "containers/cliffMap/hashMap.hpp:helpCopyImpl"]}
{"id": "C06", "title": "size() counts the present keys", "statement": "In single-threaded use size() returns the number of keys that currently map to a value.", "quantifier": "every finite operation sequence", "why_tests_cant": "a counting error appears only after particular nestings of resizes and inserts", "anchors": ["containers/cliffMap/hashMap.hpp:size", "containers/cliffMap/hashMap.hpp:putIfMatch", "containers/cliffMap/hashMap.hpp:resize"]}
{"id": "C07", "title": "remove(key) reports whether the key was present", "statement": "remove(key) returns true exactly when the key was mapped to a value before the call.", "quantifier": "every reachable state and key", "why_tests_cant": "the error depends on the stored value", "anchors": ["containers/cliffMap/hashMap.hpp:remove", "containers/ucfMap.hpp:erase"]}
{"id": "C08", "title": "containsKey agrees with get", "statement": "containsKey(k) is true exactly when get(k) would return a stored value (not the not-found value).", "quantifier": "every reachable single-threaded state, every legal key", "why_tests_cant": "must hold in every table layout", "anchors": ["containers/cliffMap/hashMap.hpp:containsKey", "containers/cliffMap/hashMap.hpp:get"]}
{"id": "C09", "title": "increment adds exactly one", "statement": "increment(k) creates the count 1 for an absent key and otherwise adds exactly one to the stored count, and returns the previous raw value; other keys are unchanged.", "quantifier": "every reachable single-threaded state, every legal key whose count does not reach the reserved range", "why_tests_cant": "whether an increment is applied through a resize depends on the table layout at the call", "anchors": ["containers/cliffMap/hashMap.hpp:increment", "containers/cliffMap/hashMap.hpp:update", "containers/cliffMap/hashMap.hpp:putIfMatch", "containers/ucfMap.hpp:increment"]}
{"id": "C10", "title": "Reads return only values that some client supplied for that key", "statement": "In every concurrent execution, get(k) returns either the not-found value or a value that a put/putIfAbsent/replace on the same key k, invoked before the get returned, supplied as its new value (or a count produced by increment(k)); values never leak between keys or appear out of thin air, also during migrations.", "quantifier": "every number of threads, every operation list per thread, every interleaving of individual memory accesses, every hash function", "why_tests_cant": "the interleavings are unbounded", "anchors": ["containers/cliffMap/hashMap.hpp:getImpl", "containers/cliffMap/hashMap.hpp:putIfMatch", "containers/cliffMap/hashMap.hpp:copySlot"]}
{"id": "C11", "title": "get, put and remove on present keys are linearizable", "statement": "If the keys involved are already stored in a map that is not resizing, then any concurrent execution of get/put/remove on those keys is linearizable with respect to the dictionary semantics (returned previous values compared up to the reserved bit 0).", "quantifier": "every number of threads, every operation list, every interleaving of individual memory accesses", "why_tests_cant": "linearizability quantifies over all interleavings", "anchors": ["containers/cliffMap/hashMap.hpp:getImpl", "containers/cliffMap/hashMap.hpp:putIfMatch", "include/persistence.hpp:pcas", "include/persistence.hpp:pcas_read"]}
{"id": "C12", "title": "Concurrent first inserts of one key agree on a single winner", "statement": "When several threads concurrently put a previously absent key, exactly one of the calls reports that the key was absent, and the map ends up with one entry for the key.", "quantifier": "every interleaving of the threads' memory accesses", "why_tests_cant": "the losing interleaving needs a preemption inside a compare-and-swap helper", "anchors": ["containers/cliffMap/hashMap.hpp:putIfMatch", "containers/cliffMap/hashMap.hpp:CASkey", "include/persistence.hpp:pcas"]}
{"id": "C13", "title": "Values returned to callers never carry reserved marker bits", "statement": "No value returned by get, put, putIfAbsent or replace has one of the two reserved low-order bits set (unpersisted mark, migration mark).", "quantifier": "every concurrent execution with legal keys and values", "why_tests_cant": "the leak needs a race between two writers at one particular instruction", "anchors": ["containers/cliffMap/hashMap.hpp:get", "containers/cliffMap/hashMap.hpp:putIfMatch", "include/marking.hpp"]}
{"id": "C14", "title": "putIfAbsent fails only if the key was present", "statement": "In a concurrent execution, putIfAbsent(k,v) leaves the map unchanged and reports an existing value only if k was mapped to a value at some moment during the call.", "quantifier": "every interleaving", "why_tests_cant": "requires a race at one instruction", "anchors": ["containers/cliffMap/hashMap.hpp:putIfAbsent", "containers/cliffMap/hashMap.hpp:putIfMatch", "containers/cliffMap/hashMap.hpp:CASvalue"]}
{"id": "C15", "title": "A claimed key slot is permanent", "statement": "Once a key has been given an entry in a table, that entry keeps belonging to the same key for the lifetime of the table: no concurrent operation, removal or migration reassigns or clears it.", "quantifier": "every concurrent execution, every table, every entry", "why_tests_cant": "quantifies over all interleavings", "anchors": ["containers/cliffMap/hashMap.hpp:CASkey", "containers/cliffMap/hashMap.hpp:copySlot", "containers/cliffMap/hashMap.hpp:VTOMBSTONE"]}
{"id": "C16", "title": "Entries frozen for migration are never written again", "statement": "Once an entry of an old table has been frozen for migration, no later write by any thread takes effect in the old table: the frozen value either stays as is or is replaced by the 'migrated' marker, and the 'migrated' marker is final.", "quantifier": "every concurrent execution, every table, every entry", "why_tests_cant": "quantifies over all interleavings", "anchors": ["containers/cliffMap/hashMap.hpp:copySlot", "containers/cliffMap/hashMap.hpp:putIfMatch", "containers/cliffMap/hashMap.hpp:TOMBPRIME"]}
{"id": "C17", "title": "Each table gets at most one successor, exactly twice as large", "statement": "Under concurrent resizing every table obtains at most one successor, the successor never changes, its capacity is exactly twice the old capacity, and every capacity ever in use is a power of two of at least the initial capacity.", "quantifier": "every concurrent execution started from a power-of-two capacity in a directory without left-over files", "why_tests_cant": "concurrent resizers race", "anchors": ["containers/cliffMap/hashMap.hpp:resize", "containers/cliffMap/hashMap.hpp:CASNewTable", "containers/cliffMap/hashMap.hpp:mmapTable"]}
{"id": "C18", "title": "The map's current table only moves forward", "statement": "The table that new operations start from only ever changes from a table to that table's own successor; it never moves back and never skips a table.", "quantifier": "every concurrent execution", "why_tests_cant": "quantifies over all interleavings of helpers and promoters", "anchors": ["containers/cliffMap/hashMap.hpp:copyCheckAndPromote"]}
{"id": "C19", "title": "Promotion loses nothing", "statement": "When a migration finishes and the new table replaces the old one, every key that was present is still found with the same value.", "quantifier": "single-threaded: every operation sequence and hash function; concurrent: every interleaving", "why_tests_cant": "loss requires a miscounted entry among all entries of the old table", "anchors": ["containers/cliffMap/hashMap.hpp:copyCheckAndPromote", "containers/cliffMap/hashMap.hpp:helpCopyImpl", "containers/cliffMap/hashMap.hpp:copySlot"]}
{"id": "C20", "title": "Lock-freedom: a stalled thread cannot block the others", "statement": "If one thread is suspended forever at an arbitrary point, every other thread that keeps running eventually completes its operation.", "quantifier": "every reachable concurrent state, every suspension point", "why_tests_cant": "blocking is an infinite behaviour", "anchors": ["containers/cliffMap/hashMap.hpp:helpCopyImpl", "containers/cliffMap/hashMap.hpp:copyCheckAndPromote"]}
{"id": "C21", "title": "Removed keys stay removed", "statement": "After remove(k) has completed and no later operation writes k, get(k) never again returns a value, whatever resizes happen afterwards.", "quantifier": "single-threaded: every operation sequence; concurrent: every interleaving", "why_tests_cant": "reappearance needs a stalled helper or a duplicate entry plus later resizes", "anchors": ["containers/cliffMap/hashMap.hpp:copySlot", "containers/cliffMap/hashMap.hpp:putIfMatch"]}
{"id": "C22", "title": "Acknowledged writes survive a crash", "statement": "Once put(k,v) has returned, a crash at any later point leaves v (or a later value of k) in persistent memory.", "quantifier": "every execution, every crash point, every cache write-back choice", "why_tests_cant": "crash points and cache evictions cannot be enumerated by tests", "anchors": ["include/persistence.hpp:pcas", "containers/cliffMap/hashMap.hpp:CASvalue", "containers/cliffMap/hashMap.hpp:putIfMatch"]}
{"id": "C23", "title": "In single-threaded use a crash loses at most the last write of an entry, and never a value that was read", "statement": "In single-threaded use, at every crash point (also in the middle of an operation) the persistent copy of each entry's key and value is the current one or the immediately preceding one, and whenever the current one has been read since it was written, the persistent copy is the current one.", "quantifier": "every operation sequence, every crash point between two memory accesses, every cache write-back choice, every line size", "why_tests_cant": "crash points and cache evictions cannot be enumerated by tests", "anchors": ["include/persistence.hpp:persist", "include/persistence.hpp:pcas_read", "include/persistence.hpp:pcas"]}
{"id": "C24", "title": "What a concurrent reader has seen survives a crash", "statement": "In a concurrent execution, a key or value that a completed read has observed is in persistent memory (possibly replaced by a later one) at every later crash.", "quantifier": "every interleaving, every crash point, every cache write-back choice", "why_tests_cant": "needs reasoning over all interleavings and write-backs", "anchors": ["include/persistence.hpp:persist", "include/persistence.hpp:pcas_read"]}
{"id": "C25", "title": "No value without its key in persistent memory", "statement": "At every crash point of every concurrent execution, an entry whose persistent value field is not the initial value has its key field set in persistent memory too.", "quantifier": "every interleaving, every crash point, every cache write-back choice", "why_tests_cant": "crash states are exponentially many", "anchors": ["containers/cliffMap/hashMap.hpp:putIfMatch", "containers/cliffMap/hashMap.hpp:KVpair", "containers/cliffMap/hashMap.hpp:mmapTable"]}
{"id": "C26", "title": "Persistent entries contain only client data", "statement": "At every crash point of every concurrent execution, each entry of the persistent image is unused, or carries a key some client passed in, together with a value that a client supplied for that same key (possibly with marker bits), or a deletion/migration marker; keys and values of different clients' writes are never mixed up.", "quantifier": "every interleaving, every crash point, every cache write-back choice", "why_tests_cant": "crash states are exponentially many", "anchors": ["containers/cliffMap/hashMap.hpp:putIfMatch", "containers/cliffMap/hashMap.hpp:copySlot", "include/persistence.hpp"]}
{"id": "C27", "title": "Reopening a map restores its contents", "statement": "Constructing a map with recovery enabled over the files of an earlier map makes every persisted key available again with its value.", "quantifier": "every set of table files left by an earlier run", "why_tests_cant": "the set of on-disk states is unbounded", "anchors": ["containers/cliffMap/hashMap.hpp:ConcurrentHashMap", "containers/cliffMap/hashMap.hpp:mmapTable", "containers/cliffMap/hashMap.hpp:numFromName"]}
{"id": "C28", "title": "A map created without recovery starts empty", "statement": "Constructing a map without recovery gives a map in which every get returns not-found and size() is 0, and tables created later by resizing also start empty.", "quantifier": "every state of the table directory", "why_tests_cant": "depends on left-over files", "anchors": ["containers/cliffMap/hashMap.hpp:mmapTable", "containers/cliffMap/hashMap.hpp:ConcurrentHashMap", "containers/cliffMap/hashMap.hpp:resize"]}
{"id": "C29", "title": "Table file names encode their creation order", "statement": "Parsing the file name of the n-th table gives back n, and recovery visits tables in creation order.", "quantifier": "every table number below 2^31 (the range of atoi), every set of table files", "why_tests_cant": "fails only for particular numbers", "anchors": ["containers/cliffMap/hashMap.hpp:getOrderedFileName", "containers/cliffMap/hashMap.hpp:numFromName", "containers/cliffMap/hashMap.hpp:ConcurrentHashMap"]}
{"id": "C30", "title": "Tables created after recovery get fresh files", "statement": "After recovery, the next table allocated by a resize uses a file name that no recovered table uses.", "quantifier": "every set of recovered table files", "why_tests_cant": "depends on the on-disk state", "anchors": ["containers/cliffMap/hashMap.hpp:ConcurrentHashMap", "containers/cliffMap/hashMap.hpp:resize", "containers/cliffMap/hashMap.hpp:mmapTable"]}
{"id": "C31", "title": "Marker bits and reserved values never collide with client data", "statement": "Setting, testing and clearing the marker bits is lossless on client words; the reserved key and value words are pairwise distinct and distinct from every legal client word, also after marking.", "quantifier": "every 64-bit word", "why_tests_cant": "2^64 words", "anchors": ["include/marking.hpp:setMark", "include/marking.hpp:clearMark", "include/marking.hpp:isMarked", "containers/cliffMap/hashMap.hpp:VINITIAL", "containers/cliffMap/hashMap.hpp:isValueReserved"]}
{"id": "C32", "title": "Distinct container elements are stored under distinct keys", "statement": "The benchmark container's encoding of an element as a key (shift by the reserved bits) is injective, reversible, and never yields a reserved word.", "quantifier": "every 64-bit element", "why_tests_cant": "2^64 elements", "anchors": ["containers/ucfMap.hpp:insert", "containers/ucfMap.hpp:get", "containers/cliffMap/hashMap.hpp:BITS_MARKED"]}
{"id": "C33", "title": "Container insert reports whether the element was new", "statement": "insert(el) returns true exactly when el was not in the container before the call, as the reference (STL) container does.", "quantifier": "every reachable single-threaded state, every legal element", "why_tests_cant": "must be checked in every state", "anchors": ["containers/ucfMap.hpp:insert", "containers/stlMap.hpp:insert", "containers/container.hpp"]}
{"id": "C34", "title": "Container membership operations agree with the reference container", "statement": "After any single-threaded sequence of insert/erase/contains/get/count on legal elements, contains(el) is true exactly when el was inserted and not erased since, and get(el) returns el exactly in that case.", "quantifier": "every finite sequence of container operations", "why_tests_cant": "unbounded sequences", "anchors": ["containers/ucfMap.hpp:contains", "containers/ucfMap.hpp:get", "containers/stlMap.hpp"]}
{"id": "C35", "title": "Readers and writers use the same home position", "statement": "For every key and table capacity, the position at which get starts probing equals the position at which put starts probing.", "quantifier": "every 64-bit hash value, every power-of-two capacity", "why_tests_cant": "differs only for astronomically large tables", "anchors": ["containers/cliffMap/hashMap.hpp:getImpl", "containers/cliffMap/hashMap.hpp:putIfMatch", "containers/cliffMap/hashMap.hpp:get"]}
{"id": "C36", "title": "Range persistence flushes exactly the covering cache lines", "statement": "PERSIST(addr,len) flushes every 64-byte line that intersects [addr,addr+len) and no other line, then fences.", "quantifier": "every address and length that do not wrap the address space", "why_tests_cant": "2^128 inputs", "anchors": ["include/persistence.hpp:PERSIST", "include/persistence.hpp:PERSIST_FLUSH_ONLY"]}
{"id": "C37", "title": "Descriptor references survive encoding into a word", "statement": "Encoding a multi-word-CAS descriptor reference (thread id, sequence number, kind flags) into a word and decoding it gives the same reference; different references give different words, and the kind flags are exactly the reserved low bits. The same holds for the descriptors' status words.", "quantifier": "every thread id, sequence number and flag combination that fits the fields, every power-of-two thread bound", "why_tests_cant": "2^64 encodings; the repository's own testCast samples a few dozen", "anchors": ["include/KCAS/pmwcas.hpp:DescRef", "include/KCAS/pmwcas.hpp:testCast", "include/KCAS/pmwcas.hpp:KCASDescriptor::Mutable"]}
{"id": "C38", "title": "The benchmark splits work without loss or overlap", "statement": "The per-thread operation counts add up to the requested total, and the elements generated for different (thread, index) pairs are different.", "quantifier": "every total, every positive thread count, every thread and index", "why_tests_cant": "unbounded parameters", "anchors": ["tests/test.hpp:opsPerThread", "tests/test.hpp:opsMainLoop", "tests/alternating.hpp:genElem"]}
{"id": "C39", "title": "Reads do not change the map", "statement": "get and containsKey leave the dictionary contents unchanged; if no migration is in progress they change nothing but the unpersisted marks.", "quantifier": "every reachable single-threaded state, every key", "why_tests_cant": "must hold in every layout", "anchors": ["containers/cliffMap/hashMap.hpp:get", "containers/cliffMap/hashMap.hpp:getImpl", "containers/cliffMap/hashMap.hpp:containsKey"]}
{"id": "C40", "title": "Mapping an existing table file repairs half-finished inserts and keeps the rest", "statement": "Mapping an existing table file turns every entry whose key is set but whose value was never written into a deleted entry, leaves every other entry as it is, and sets the size counter to the number of entries holding a value.", "quantifier": "every file content", "why_tests_cant": "unbounded file contents", "anchors": ["containers/cliffMap/hashMap.hpp:mmapTable"]}
{"id": "C41", "title": "A call that runs alone returns", "statement": "In every reachable state in which no call is in progress, a call that is then made by one thread, while all others do nothing, returns or reports an allocation failure.", "quantifier": "every concurrent execution up to that state, every call", "why_tests_cant": "the states that matter are left behind by rare interleavings", "anchors": ["containers/cliffMap/hashMap.hpp:helpCopyImpl", "containers/cliffMap/hashMap.hpp:copySlot", "containers/cliffMap/hashMap.hpp:putIfMatch"]}
{"id": "C42", "title": "A table whose creation was interrupted holds no entries", "statement": "If the process stops while a table file is being created and initialised, the table that is opened from this file later holds no entries and has size 0.", "quantifier": "every capacity, every point of interruption", "why_tests_cant": "depends on the moment of the crash", "anchors": ["containers/cliffMap/hashMap.hpp:mmapTable"]}
{"id": "C43", "title": "A map that has not grown survives a crash when it is constructed again", "statement": "If a single-threaded execution of a map that has not grown stops anywhere, also in the middle of a call, then a map constructed from its file (without the recovery flag) behaves as a dictionary in which each key has what the history up to the crash says except for at most the last change of this key, and never a state of the key from before the last get that found it; size() is the number of its keys.", "quantifier": "every capacity, line size, hash function, call sequence, crash point between two memory accesses, cache write-back choice, and every later call sequence", "why_tests_cant": "crash points and cache evictions cannot be enumerated by tests", "anchors": ["containers/cliffMap/hashMap.hpp:mmapTable", "containers/cliffMap/hashMap.hpp:ConcurrentHashMap", "containers/cliffMap/hashMap.hpp:putIfMatch", "include/persistence.hpp:pcas"]}
{"id": "C44", "title": "Every call takes effect on one entry in one step", "statement": "In every concurrent execution, also while tables are being resized, the result of each completed call is explained by a single step made between its invocation and its response: a writing call exchanges or inspects the value word of one entry of its key, in a table that was current during the call or a successor of it, and returns what that word was before; a reading call returns what a search of such a table gives at that step.", "quantifier": "every number of threads, every schedule, every hash function, capacity and call sequence", "why_tests_cant": "a call that takes its result from two different moments is only exposed by rare interleavings", "anchors": ["containers/cliffMap/hashMap.hpp:putIfMatch", "containers/cliffMap/hashMap.hpp:getImpl", "containers/cliffMap/hashMap.hpp:copySlotAndCheck", "include/persistence.hpp:pcas"]}
{"id": "C45", "title": "Concurrent calls on a new map are linearizable", "statement": "Every concurrent execution of get, containsKey, put, putIfAbsent, replace, remove and size on a map that starts empty can be explained by an order of its calls, consistent with real time, in which each call does what it does on a dictionary.", "quantifier": "every number of threads, schedule, hash function, capacity and call sequence", "why_tests_cant": "a missing update only shows under rare interleavings of the first inserts of a key", "anchors": ["containers/cliffMap/hashMap.hpp:putIfMatch", "containers/cliffMap/hashMap.hpp:getImpl", "containers/cliffMap/hashMap.hpp:get"]}
{"id": "C46", "title": "Concurrent increments are not lost", "statement": "In every concurrent execution of increment and get on a map that starts empty, each get(k) returns a count between the number of increments of k that had returned when it started and the number that had started when it returned, and no two increments of one key return the same previous count.", "quantifier": "every number of threads, schedule, hash function, capacity and call sequence", "why_tests_cant": "lost updates only show under rare interleavings", "anchors": ["containers/cliffMap/hashMap.hpp:increment", "containers/cliffMap/hashMap.hpp:updateLoop", "containers/cliffMap/hashMap.hpp:putIfMatch"]}
{"id": "C47", "title": "One call at a time, the multi-word compare-and-swap is atomic", "statement": "Multi-word compare-and-swaps, single-word compare-and-swaps and reads that are made one after another by any of the threads do what the atomic operations do: a multi-word compare-and-swap replaces all of its words if all have the expected values, and none otherwise, and reports which.", "quantifier": "every call sequence with distinct words and values with clear flag bits, every array, every number of threads up to 2^16 and words per call", "why_tests_cant": "unbounded sequences of calls; the reused descriptors carry state from one call to the next", "anchors": ["include/KCAS/pmwcas.hpp:PMwCAS", "include/KCAS/pmwcas.hpp:createNew", "include/KCAS/pmwcas.hpp:InstallMwCASDescriptor", "include/KCAS/pmwcas.hpp:CompleteInstall", "include/KCAS/pmwcas.hpp:PMwCASRead", "include/KCAS/pmwcas.hpp:CAS"]}
{"id": "C48", "title": "A successful multi-word compare-and-swap takes effect in all of its words", "statement": "When all calls have returned, a word that only one multi-word compare-and-swap writes holds the new value of this call if the call reported success.", "quantifier": "every number of threads, schedule and call sequence", "why_tests_cant": "depends on a helper that reads in the few steps between the decision and the installation of the last word", "anchors": ["include/KCAS/pmwcas.hpp:PMwCAS", "include/KCAS/pmwcas.hpp:PMwCASRead", "include/KCAS/pmwcas.hpp:CASField"]}
{"id": "C49", "title": "The outcome of a multi-word compare-and-swap is decided once", "statement": "The status of a descriptor changes only from undecided to decided, as long as its sequence number stays the same; the sequence number changes only by steps of the owner, to the next one, and the status is undecided then.", "quantifier": "every number of threads, schedule and call sequence", "why_tests_cant": "races between helpers", "anchors": ["include/KCAS/pmwcas.hpp:PMwCAS", "include/KCAS/pmwcas.hpp:CASField", "include/KCAS/pmwcas.hpp:createNew"]}
{"id": "C50", "title": "A read of a word returns a value, not a descriptor", "statement": "A read returns 0 (the initial value) or a value that some call mentions as an old or new value; in particular its flag bits are clear.", "quantifier": "every number of threads, schedule and call sequence", "why_tests_cant": "references to descriptors are in the array only for short moments", "anchors": ["include/KCAS/pmwcas.hpp:PMwCASRead", "include/KCAS/pmwcas.hpp:CompleteInstall", "include/KCAS/pmwcas.hpp:InstallMwCASDescriptor"]}
{"id": "C51", "title": "Recovery completes or undoes an interrupted multi-word compare-and-swap", "statement": "The recovery of the memory that an execution leaves behind does not fail; afterwards the words of an interrupted call have all their old or all their new values, and none is a reference to a descriptor.", "quantifier": "every execution and every moment of interruption", "why_tests_cant": "depends on the moment of the crash", "anchors": ["include/KCAS/pmwcas.hpp:recover", "include/KCAS/pmwcas.hpp:PMwCAS"]}
{"id": "C52", "title": "The check after recovery accepts the container of an interrupted test", "statement": "After a crash at any point of the alternating test, the check of the recovered container succeeds if the container holds what the finished calls left in it.", "quantifier": "every number of threads and operations, and every point of interruption", "why_tests_cant": "the harness runs with a few numbers of threads and operations, and rarely crashes", "anchors": ["tests/alternating.hpp:check_elements", "tests/alternating.hpp:check_all_elements", "tests/alternating.hpp:consistency_check", "runTest.hpp:run_test"]}
{"id": "C53", "title": "With several threads a crash loses at most the last change of an entry", "statement": "Whatever a crash of a concurrent execution finds in an entry of a table, the entry has since then taken at most one other value, the current one.", "quantifier": "every number of threads, schedule, call sequence, hash function and capacity, every crash image", "why_tests_cant": "depends on the interleaving of the flushes of several threads and on which cache lines reach memory", "anchors": ["include/persistence.hpp:pcas_read", "include/persistence.hpp:persist", "include/persistence.hpp:pcas", "containers/cliffMap/hashMap.hpp:CASvalue"]}
{"id": "C54", "title": "A map used by several threads survives a crash when it is constructed again", "statement": "The map constructed from the file that a crash of a concurrent execution leaves behind behaves as a dictionary that has, for each key, what memory said at some moment before the crash; at most the last change is lost, and no value that a get has returned.", "quantifier": "every number of threads, schedule, call sequence, hash function and capacity, every crash image", "why_tests_cant": "depends on the interleaving and on which cache lines reach memory", "anchors": ["containers/cliffMap/hashMap.hpp:putIfMatch", "containers/cliffMap/hashMap.hpp:CASkey", "containers/cliffMap/hashMap.hpp:mmapTable", "containers/cliffMap/hashMap.hpp:getImpl"]}
{"id": "C55", "title": "What has been read survives a crash while the map grows", "statement": "After a get of k has returned v, and if k is not written any more, every later crash finds k with v in the persistent copy of some table, also while and after the map grows.", "quantifier": "every number of threads, schedule, call sequence, hash function and capacity, every crash image", "why_tests_cant": "needs a crash at a time when the migration mark has reached memory and the copy has not", "anchors": ["containers/cliffMap/hashMap.hpp:copySlot", "containers/cliffMap/hashMap.hpp:putIfMatch", "containers/cliffMap/hashMap.hpp:copyCheckAndPromote", "include/persistence.hpp:pcas"]}
{"id": "C56", "title": "The YCSB driver deals out the trace", "statement": "Every operation of the first operationCount + 1 lines of the trace is put into the queue of exactly one thread, line j into that of thread j modulo the number of threads, in the order of the file and within the queues' bounds; every INSERT line of the load file is inserted.", "quantifier": "every trace, number of threads and content of the line buffer", "why_tests_cant": "the traces have millions of lines; a write past a queue need not crash", "anchors": ["tests/ycsb.hpp:container_test_prefix"]}
{"id": "C57", "title": "The counting drivers report how often each number occurs", "statement": "The reddit and degree drivers increment exactly the numbers of their file, the container then holds the number of occurrences of each, and the report lists every number with its count.", "quantifier": "every file, hash function and capacity", "why_tests_cant": "nothing compares the report with the file", "anchors": ["tests/reddit.hpp:parseFile", "tests/reddit.hpp:reportReddit", "tests/degree.hpp:parseFile", "tests/degree.hpp:reportDegree"]}
{"id": "C58", "title": "The command line sets what its options say", "statement": "Every option sets its field to its value, later options override earlier ones, anything else is rejected, and the capacity is 2 to the given power.", "quantifier": "every list of arguments", "why_tests_cant": "the scripts use a few well-formed command lines", "anchors": ["runTest.hpp:matchOpt1", "runTest.hpp:conv", "runTest.cpp:main", "containers/ucfMap.hpp:container_type"]}
{"id": "C59", "title": "The random driver makes only legal calls", "statement": "Whatever rand() returns, the random driver never passes an element whose key or value is a reserved word to the container, and a single-threaded run does not fail an assertion.", "quantifier": "every sequence of random numbers, hash function and capacity", "why_tests_cant": "the reserved words are a few out of 2^64", "anchors": ["tests/random.hpp:container_test_prefix", "tests/random.hpp:container_test"]}
{"id": "C60", "title": "The start barrier holds back every thread until all have arrived", "statement": "No thread leaves sync_start before every thread has entered it, its assertion holds, and every thread leaves it once all have arrived.", "quantifier": "every number of threads and schedule", "why_tests_cant": "depends on the interleaving of the threads' start", "anchors": ["tests/test.hpp:sync_start", "runTest.hpp:run_test"]}
{"id": "C61", "title": "Half-installed words can be completed by everybody", "statement": "In every execution a word that refers to a word descriptor refers to its present contents, which describe that word; completing it turns it into a reference to the call if this is still undecided and into the old value otherwise; outdated references change nothing; and the first pass of recovery completes all of them.", "quantifier": "every execution, every memory with well-formed descriptors, every reference", "why_tests_cant": "needs another thread, or the recovery, to meet a call between two of its steps", "anchors": ["include/KCAS/pmwcas.hpp:CompleteInstall", "include/KCAS/pmwcas.hpp:InstallMwCASDescriptor", "include/KCAS/pmwcas.hpp:readField", "include/KCAS/pmwcas.hpp:CASField", "include/KCAS/pmwcas.hpp:createNew", "include/KCAS/pmwcas.hpp:recover"]}
{"id": "C62", "title": "A call that is not decided can be completed by every thread", "statement": "A thread that meets a reference to a call that is not decided while the other threads pause, in a read, a compare-and-swap of one or several words or as a helper, completes it with the result and the effect that the atomic operation has on the array without the call, and then acts on the array after it.", "quantifier": "every memory with such a call, whichever of its words refer to it, every helper", "why_tests_cant": "needs another thread to meet a call between two of its steps", "anchors": ["include/KCAS/pmwcas.hpp:PMwCAS", "include/KCAS/pmwcas.hpp:PMwCASRead", "include/KCAS/pmwcas.hpp:CAS"]}
{"id": "C63", "title": "xxhash maps distinct keys to distinct hashes", "statement": "The xxhash wrapper computes XXH64 of the eight bytes of a 64-bit key, and two different keys never have the same 64-bit hash.", "quantifier": "every pair of 64-bit keys", "why_tests_cant": "2^127 pairs of keys", "anchors": ["hashing/hash.hpp:xxhash", "hashing/xxhash.hpp:endian_align", "hashing/xxhash.hpp:endian_align_sub_ending"]}
{"id": "C64", "title": "Hashing piecewise is hashing at once", "statement": "Feeding an input to the streaming state in pieces and taking the digest gives the hash of the concatenated pieces.", "quantifier": "every seed, every input below 2^64 bytes and every division into pieces", "why_tests_cant": "the cases depend on how each piece meets the 32-byte buffer", "anchors": ["hashing/xxhash.hpp:hash_state_t", "hashing/xxhash.hpp:endian_align"]}
{"id": "C65", "title": "The KCAS test program makes legal calls", "statement": "Whatever rand() returns, performOps has no undefined behaviour and calls PMwCAS with distinct words of the array, at most K of them, and values with clear flag bits; a thread that runs alone never sees a call fail.", "quantifier": "every sequence of random numbers, every iteration order of the set, every number of threads and every schedule", "why_tests_cant": "the calls depend on random numbers and on what concurrent reads return", "anchors": ["include/KCAS/main.cpp:performOps", "include/KCAS/main.cpp:threadRunner", "include/KCAS/define.hpp"]}
{"id": "C66", "title": "The wrapped containers answer like the reference", "statement": "The containers pmemMap, levelMap and onefileMap, created without recovery, answer every sequence of calls made by any threads one after another like the reference container stlMap.", "quantifier": "every sequence of calls, every assignment of calls to threads", "why_tests_cant": "the library maps need persistent memory, and the answers depend on the whole history", "anchors": ["containers/pmemMap.hpp:container_type", "containers/levelMap.hpp:container_type", "containers/onefileMap.hpp:container_type", "containers/stlMap.hpp:container_type"]}
{"id": "C67", "title": "A multi-word compare-and-swap that runs alone completes", "statement": "Whatever undecided calls of other threads have left references in the array, and whatever words they were stopped in the middle of installing, a thread that runs alone completes its PMwCAS, PMwCASRead or CAS; the calls it meets are completed atomically, one after the other, and its own call acts atomically after them.", "quantifier": "every number of pending calls, every set of words that refer to them, every operation", "why_tests_cant": "the helping calls nest as deep as the chain of pending calls, which depends on where the other threads were stopped", "anchors": ["include/KCAS/pmwcas.hpp:PMwCAS", "include/KCAS/pmwcas.hpp:PMwCASRead", "include/KCAS/pmwcas.hpp:CAS"]}
{"id": "C68", "title": "Until a multi-word compare-and-swap is decided, threads only prepare calls", "statement": "From an array at rest, threads that execute PMwCAS and PMwCASRead in any interleaving leave the array logically unchanged until a call is decided: reads return the initial values, no assertion fails, no index is out of bounds, every call that has been made was asked for, and a thread that then runs alone completes any operation atomically after some of these calls.", "quantifier": "every number of threads, every list of operations of each, every schedule without a decided call", "why_tests_cant": "the states depend on the interleaving of the single steps of all threads", "anchors": ["include/KCAS/pmwcas.hpp:PMwCAS", "include/KCAS/pmwcas.hpp:PMwCASRead", "include/KCAS/pmwcas.hpp:CAS"]}
{"id": "C69", "title": "Concurrent calls stay inside the tables and their assertions hold", "statement": "While threads call the map in any interleaving, resizes included, no thread follows a null pointer or indexes a table out of its range, and no assertion fails.", "quantifier": "every number of threads, every list of calls of each, every schedule, every hash function and capacity", "why_tests_cant": "the table that a thread works on and its entries can be replaced between any two of its steps", "anchors": ["containers/cliffMap/hashMap.hpp:copyCheckAndPromote", "containers/cliffMap/hashMap.hpp:copySlot", "containers/cliffMap/hashMap.hpp:resize", "containers/cliffMap/hashMap.hpp:helpCopyImpl", "containers/cliffMap/hashMap.hpp:putIfMatch"]}
{"id": "C70", "title": "Concurrent multi-word compare-and-swaps fail no assertion and stay inside the arrays", "statement": "While threads call PMwCAS, PMwCASRead and CAS in any interleaving, no assertion fails, no exception is thrown, and neither the array nor the descriptor pool is indexed out of its range.", "quantifier": "every number of threads up to that of the descriptors, every list of legal calls of each, every schedule", "why_tests_cant": "the references that a thread finds and the descriptors behind them can change between any two of its steps", "anchors": ["include/KCAS/pmwcas.hpp:PMwCAS", "include/KCAS/pmwcas.hpp:PMwCASRead", "include/KCAS/pmwcas.hpp:CAS", "include/KCAS/pmwcas.hpp:CompleteInstall", "include/KCAS/pmwcas.hpp:InstallMwCASDescriptor", "include/KCAS/pmwcas.hpp:getSeq"]}
{"id": "C71", "title": "What the multi-word compare-and-swap has done, and what was read, survives a crash", "statement": "When PMwCAS or CAS has returned true, its new values, and when PMwCASRead has returned, the value it returned, are what a crash at that moment leaves of these words; and a word without the dirty flag is always the word that a crash leaves.", "quantifier": "every execution and every moment of the crash", "why_tests_cant": "which cache lines reach memory before a crash depends on the hardware, and the flag can be cleared by any thread", "anchors": ["include/KCAS/pmwcas.hpp:PMwCAS", "include/KCAS/pmwcas.hpp:PMwCASRead", "include/KCAS/pmwcas.hpp:CAS", "include/persistence.hpp:persist", "include/persistence.hpp:pcas_read", "include/persistence.hpp:pcas"]}
