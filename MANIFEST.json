{
 "claims": [
  {
   "property": "C01",
   "status": "proved",
   "theorems": [
    "C01_sequential_map",
    "C01_get_returns_last_write"
   ],
   "note": "Every sequence of legal calls on a new map, for every hash function, power-of-two capacity and device of at most 2^32 entries."
  },
  {
   "property": "C02",
   "status": "proved",
   "theorems": [
    "C02_frame"
   ],
   "note": ""
  },
  {
   "property": "C03",
   "status": "proved",
   "theorems": [
    "C03_putIfAbsent",
    "C03_replace",
    "C03_removeVal"
   ],
   "note": "Single-threaded, including calls made while a migration is in progress."
  },
  {
   "property": "C04",
   "status": "proved",
   "theorems": [
    "C04_no_failure"
   ],
   "note": "Allocation failure is the only error."
  },
  {
   "property": "C05",
   "status": "partial",
   "theorems": [
    "C05_termination_partial",
    "C05_refuted"
   ],
   "note": "False in full: eleven keys with one home position make the map double its table until allocation fails. Proved: every call returns or reports allocation failure."
  },
  {
   "property": "C06",
   "status": "partial",
   "theorems": [
    "C06_size_partial",
    "C06_isEmpty_partial",
    "C06_refuted",
    "C06_refuted_isEmpty"
   ],
   "note": "False in full: a resize nested in a resize loses a count. Proved for histories in which no call leaves a migration in progress."
  },
  {
   "property": "C07",
   "status": "partial",
   "theorems": [
    "C07_remove_partial",
    "C07_refuted"
   ],
   "note": "False in full: remove returns true for absent keys. Proved: the exact result, and that the key is gone afterwards."
  },
  {
   "property": "C08",
   "status": "proved",
   "theorems": [
    "C08_containsKey"
   ],
   "note": ""
  },
  {
   "property": "C09",
   "status": "partial",
   "theorems": [
    "C09_increment_partial",
    "C09_refuted"
   ],
   "note": "False in full: an increment during which the table grows stores a reserved word. Proved for calls that stay in the same table."
  },
  {
   "property": "C10",
   "status": "proved",
   "theorems": [
    "C10_reads",
    "C10_previous_values"
   ],
   "note": "Every schedule, any number of threads, also during migrations."
  },
  {
   "property": "C11",
   "status": "partial",
   "theorems": [
    "C11_linearizable_partial",
    "C11_without_removals",
    "C11_no_failure",
    "C11_refuted"
   ],
   "note": "Proved in full without removals. With removals false: a put that loses twice against removals returns the deletion mark instead of 'not found'; proved with this exception, and for all calls except increment."
  },
  {
   "property": "C12",
   "status": "partial",
   "theorems": [
    "C12_refuted",
    "C12_per_entry_partial",
    "C12_no_race_partial"
   ],
   "note": "False: a losing CAS reports the winner's key with the unpersisted bit, which is not recognised, so both puts insert the key. Proved without removals, increments and growth: for every schedule there are at most as many winners as the key has entries, and at least one once the calls have returned; exactly one when no two threads insert the same new key at the same time."
  },
  {
   "property": "C13",
   "status": "partial",
   "theorems": [
    "C13_marker_bits_partial",
    "C13_refuted"
   ],
   "note": "False for put and putIfAbsent, which may return the unpersisted bit. Proved: get returns neither bit, no call returns the migration bit."
  },
  {
   "property": "C14",
   "status": "partial",
   "theorems": [
    "C14_present_partial",
    "C14_refuted"
   ],
   "note": "False: an unpersisted deletion mark is reported as an existing value. Proved: this is the only exception, otherwise the key was mapped to the reported value during the call."
  },
  {
   "property": "C15",
   "status": "proved",
   "theorems": [
    "C15_key_permanent"
   ],
   "note": ""
  },
  {
   "property": "C16",
   "status": "proved",
   "theorems": [
    "C16_frozen"
   ],
   "note": ""
  },
  {
   "property": "C17",
   "status": "proved",
   "theorems": [
    "C17_successor",
    "C17_capacity"
   ],
   "note": ""
  },
  {
   "property": "C18",
   "status": "proved",
   "theorems": [
    "C18_forward"
   ],
   "note": ""
  },
  {
   "property": "C19",
   "status": "partial",
   "theorems": [
    "C19_promotion_partial",
    "C19_refuted"
   ],
   "note": "Proved single-threaded. Concurrently false: one entry can be counted twice, so that the table is replaced before all entries have been copied."
  },
  {
   "property": "C20",
   "status": "partial",
   "theorems": [
    "C20_refuted",
    "C20_unresized_partial",
    "C20_few_keys_partial"
   ],
   "note": "False: a thread suspended before it adds to the migration's work counter blocks every other call. Proved: while the table has no successor nothing fails and every call returns after a bounded number of steps of its own thread, whatever the others do, racing or suspended; with few keys and no racing first insertions the table never gets a successor. The counterexample is during a resize."
  },
  {
   "property": "C21",
   "status": "partial",
   "theorems": [
    "C21_removed_partial",
    "C21_refuted"
   ],
   "note": "Proved single-threaded. Concurrently false: a key that was inserted twice (see C12) comes back after the next resize."
  },
  {
   "property": "C22",
   "status": "partial",
   "theorems": [
    "C22_refuted",
    "C22_read_partial"
   ],
   "note": "False: put returns before its write is flushed. Proved for one thread and a map that has not grown: a put survives once its key has been read. With several threads: C24, C54."
  },
  {
   "property": "C24",
   "status": "partial",
   "theorems": [
    "C24_read_durable_partial",
    "C24_refuted"
   ],
   "note": "False for values: a delayed reader may clear the unpersisted bit of a later write of the same value. Proved for keys, and for values of entries that never take the same value twice."
  },
  {
   "property": "C25",
   "status": "proved",
   "theorems": [
    "C25_no_orphan_value"
   ],
   "note": ""
  },
  {
   "property": "C26",
   "status": "proved",
   "theorems": [
    "C26_client_data",
    "C26_images_exist"
   ],
   "note": ""
  },
  {
   "property": "C27",
   "status": "partial",
   "theorems": [
    "C27_refuted",
    "C27_deletes_refuted",
    "C27_reopen_partial",
    "C27_resized_refuted"
   ],
   "note": "False: recovery has undefined behaviour for every state of the directory, and with that repaired it deletes every table file. Proved: constructing the map without the recovery flag restores a map that never grew. False for one that did."
  },
  {
   "property": "C28",
   "status": "partial",
   "theorems": [
    "C28_file",
    "C28_new_file",
    "C28_clean_partial",
    "C28_empty_partial",
    "C28_refuted",
    "C28_grow_refuted"
   ],
   "note": "Proved for a directory without table files; without a file of the number 0 the map starts empty. False otherwise: left-over files are opened by the constructor and by resize."
  },
  {
   "property": "C29",
   "status": "partial",
   "theorems": [
    "C29_parse",
    "C29_parse_policy",
    "C29_parse_any",
    "C29_order_partial",
    "C29_order_refuted",
    "C29_chain_partial"
   ],
   "note": "Parsing is proved for every number below 2^31. The order is proved for numbers with the same number of digits and false otherwise, because names are sorted as strings. C29_chain_partial: with the other recovery errors repaired and equal digit counts, the used tables are kept in creation order and linked each to the next."
  },
  {
   "property": "C30",
   "status": "partial",
   "theorems": [
    "C30_refuted",
    "C30_fresh_partial"
   ],
   "note": "False even if the rest of recovery is repaired: the next table uses the file of the table visited last. Proved for maps created without recovery."
  },
  {
   "property": "C31",
   "status": "proved",
   "theorems": [
    "C31_marks_lossless",
    "C31_reserved_distinct",
    "C31_client_words",
    "C31_address_mask"
   ],
   "note": ""
  },
  {
   "property": "C23",
   "status": "proved",
   "theorems": [
    "C23_last_or_previous",
    "C23_read"
   ],
   "note": "At every memory access of every call, for any calls and any files the map started from."
  },
  {
   "property": "C32",
   "status": "partial",
   "theorems": [
    "C32_encoding_partial",
    "C32_refuted"
   ],
   "note": "False in full: elements that differ by 2^61 share a key, and four elements are encoded as reserved words. Proved for elements below 2^61 - 4."
  },
  {
   "property": "C33",
   "status": "partial",
   "theorems": [
    "C33_refuted",
    "C33_insert_inverted"
   ],
   "note": "False: insert reports the opposite. Proved: in every reachable state it returns true exactly when the element was already there."
  },
  {
   "property": "C34",
   "status": "proved",
   "theorems": [
    "C34_contains",
    "C34_get",
    "C34_reference",
    "C34_results_refuted"
   ],
   "note": "Membership and get agree with the reference container for elements below 2^61 - 4. C34_results_refuted lists the other results that differ from the reference container's."
  },
  {
   "property": "C35",
   "status": "partial",
   "theorems": [
    "C35_home_partial",
    "C35_refuted"
   ],
   "note": "Proved for capacities up to 2^32; false for every larger one, because get converts the hash to int."
  },
  {
   "property": "C36",
   "status": "partial",
   "theorems": [
    "C36_persist_partial",
    "C36_refuted"
   ],
   "note": "Proved for non-empty ranges that end before the last cache line of the address space. False for the others: the loop wraps around and never ends, and an empty unaligned range flushes a line."
  },
  {
   "property": "C37",
   "status": "proved",
   "theorems": [
    "C37_descref",
    "C37_descref_onto",
    "C37_status_words"
   ],
   "note": "Thread bounds up to 2^16."
  },
  {
   "property": "C38",
   "status": "partial",
   "theorems": [
    "C38_counts",
    "C38_elements",
    "C38_alternating_partial",
    "C38_run_partial",
    "C38_refuted",
    "C38_prefix_refuted"
   ],
   "note": "The counts are proved in full, the elements as long as they do not exceed 64 bits. The alternating test stores elements in an int: distinct below 2^32, false above. run_test executes the prefix for the first thread only, so the others make fewer calls than their share."
  },
  {
   "property": "C39",
   "status": "proved",
   "theorems": [
    "C39_reads"
   ],
   "note": ""
  },
  {
   "property": "C40",
   "status": "proved",
   "theorems": [
    "C40_repair",
    "C40_model"
   ],
   "note": ""
  },
  {
   "property": "C41",
   "status": "partial",
   "theorems": [
    "C41_refuted",
    "C41_unresized_partial",
    "C41_phases_partial"
   ],
   "note": "False: after two racing inserts of one key the next resize may never end. Proved: as long as the table has no successor, in every reachable state, a call that runs alone returns unless it gives the table a successor; in the executions in phases of C45, whenever nobody is in a call, every sequence of calls that runs alone returns or reports allocation failure."
  },
  {
   "property": "C42",
   "status": "partial",
   "theorems": [
    "C42_complete_partial",
    "C42_refuted"
   ],
   "note": "False at every point of interruption before the last entry is initialised: the zero bytes count as entries. Proved for an interruption after that."
  },
  {
   "property": "C43",
   "status": "proved",
   "theorems": [
    "C43_crash_reopen"
   ],
   "note": "For maps that have not grown (after growth nothing is restored, see C27)."
  },
  {
   "property": "C44",
   "status": "proved",
   "theorems": [
    "C44_one_step"
   ],
   "note": "Reads and writes of one entry; what the calls do to the dictionary as a whole is C01 (one thread) and C11 (stored keys, no resize)."
  },
  {
   "property": "C45",
   "status": "partial",
   "theorems": [
    "C45_linearizable_partial",
    "C45_without_removals",
    "C45_few_keys",
    "C45_phases",
    "C45_refuted",
    "C45_refuted_growth"
   ],
   "note": "False: two threads that put the same new key may both be told that there was no value. Proved while the first table has no successor, if no two threads insert the same new key at the same time; with the weaker reading of put's result in the presence of removals. Also proved for executions in phases: in each phase either one thread runs alone, through any number of resizes, or several threads run without a resize. False when the map grows while several threads run, even if the insertions come one after the other: a put that has returned is not seen by a later get."
  },
  {
   "property": "C46",
   "status": "partial",
   "theorems": [
    "C46_not_lost_partial",
    "C46_refuted",
    "C46_refuted_growth"
   ],
   "note": "False: one of two racing first increments of a counter is lost. Proved while the first table has no successor, if the first increment of each key returns before another thread starts to increment it. False when the map grows: the increment that makes it grow stores another word."
  },
  {
   "property": "C47",
   "status": "proved",
   "theorems": [
    "C47_sequential"
   ],
   "note": ""
  },
  {
   "property": "C48",
   "status": "partial",
   "theorems": [
    "C48_refuted",
    "C48_disjoint_partial",
    "C48_calm_partial"
   ],
   "note": "False: a read that helps a call whose outcome is decided may put old values back, because the helper uses its own idea of the outcome. Proved for threads that access different words and, more generally, for every execution in which calls that overlap in time access different words."
  },
  {
   "property": "C49",
   "status": "proved",
   "theorems": [
    "C49_decided_once"
   ],
   "note": ""
  },
  {
   "property": "C50",
   "status": "proved",
   "theorems": [
    "C50_reads_values"
   ],
   "note": "From the initial memory of the constructor."
  },
  {
   "property": "C51",
   "status": "partial",
   "theorems": [
    "C51_refuted_bounds",
    "C51_refuted_torn",
    "C51_refuted_undecided",
    "C51_quiescent_partial",
    "C51_undecided_partial"
   ],
   "note": "False: the last loop hides the index of the loop around it, so that it looks at descriptors that do not exist or at words of calls that are completed only later, and decided calls are not completed. Proved for memories in which no call is under way, and for one call that stopped anywhere before it was decided, if it is one of thread 0 or thread 0 has no words to check. The memory is recovered as it is: lost cache lines are not modelled here."
  },
  {
   "property": "C52",
   "status": "partial",
   "theorems": [
    "C52_accepts_partial",
    "C52_one_thread_partial",
    "C52_complete",
    "C52_threads",
    "C52_refuted",
    "C52_prefix_refuted",
    "C52_crash_refuted"
   ],
   "note": "False: for even numbers of operations from 4 to 8 per thread, for 20 or more operations per thread with several threads (their prefix is never executed), and for a crash in the prefix; and finished inserts that are not in the file make it fail. Proved for the other numbers of operations, which are exactly those for which it accepts a complete run. Elements below 2^31."
  },
  {
   "property": "C53",
   "status": "partial",
   "theorems": [
    "C53_last_change_partial",
    "C53_refuted"
   ],
   "note": "Proved for entries that never take a value a second time, for any number of tables. False otherwise: a delayed write-back of the first occurrence of a value clears the mark of the second."
  },
  {
   "property": "C54",
   "status": "partial",
   "theorems": [
    "C54_crash_reopen_partial",
    "C54_read_partial",
    "C54_refuted"
   ],
   "note": "A key that some get has returned is found again after the crash, however many threads insert. Proved for maps with a single table, if one thread at a time inserts new keys. False otherwise: a thread that loses the race for an entry goes on to the next one without writing back the key it has passed, so a crash can leave a key that searches do not reach."
  },
  {
   "property": "C55",
   "status": "partial",
   "theorems": [
    "C55_until_growth_partial",
    "C55_frozen_partial",
    "C55_refuted"
   ],
   "note": "Proved as long as the table that was read has no successor; no value is marked for migration before there is one. False when the map grows, even with one thread: copySlot writes the migrated mark without waiting for the copy to be written back, so a crash can lose both."
  },
  {
   "property": "C56",
   "status": "partial",
   "theorems": [
    "C56_queues_partial",
    "C56_one_thread",
    "C56_run_partial",
    "C56_refuted",
    "C56_malformed_refuted"
   ],
   "note": "Proved for two or more threads, or few operations, and well-formed lines of less than 1023 characters; the resulting calls and the final contents of the map for one thread. False for one thread: the loop admits one line more than the queue has room for. Lines without a number reuse the previous one."
  },
  {
   "property": "C57",
   "status": "partial",
   "theorems": [
    "C57_reddit",
    "C57_reddit_all",
    "C57_every_file",
    "C57_degree_all",
    "C57_every_line",
    "C57_one_reading",
    "C57_degree",
    "C57_counts_partial",
    "C57_report_partial",
    "C57_report_refuted",
    "C57_growth_refuted",
    "C57_shift_refuted",
    "C57_lines_refuted"
   ],
   "note": "Which numbers are incremented is proved for all files (degree counts the second column), the counts while one thread counts and the table does not grow. False: counts after growth, hashes that agree in 61 bits, numbers not below the container's size are not reported, malformed lines."
  },
  {
   "property": "C58",
   "status": "partial",
   "theorems": [
    "C58_options_partial",
    "C58_all",
    "C58_help",
    "C58_unknown",
    "C58_average",
    "C58_capacity_partial",
    "C58_capacity_refuted",
    "C58_file",
    "C58_threads",
    "C58_refuted"
   ],
   "note": "What every list of arguments leads to is proved; it is what the options say for well-formed values and capacities below 2^31. False otherwise, e.g. -r true switches recovery off; a capacity of 2^31 becomes 2^64 - 2^31, larger ones are undefined."
  },
  {
   "property": "C59",
   "status": "partial",
   "theorems": [
    "C59_main",
    "C59_prefix",
    "C59_calls",
    "C59_inserts",
    "C59_safe",
    "C59_container",
    "C59_threads",
    "C59_refuted"
   ],
   "note": "Proved when rand() returns less than 2^61 - 4, as the C library's does. The driver's own test for reserved words is wrong: its main loop tests the element instead of the key."
  },
  {
   "property": "C60",
   "status": "proved",
   "theorems": [
    "C60_barrier",
    "C60_released"
   ],
   "note": "Release is stated as: once every thread has taken two steps and then another one."
  },
  {
   "property": "C61",
   "status": "proved",
   "theorems": [
    "C61_up_to_date",
    "C61_complete",
    "C61_install",
    "C61_install_stale",
    "C61_create",
    "C61_read",
    "C61_cas",
    "C61_recovery"
   ],
   "note": "From the initial memory of the constructor, for legal calls with values whose flag bits are clear."
  },
  {
   "property": "C62",
   "status": "proved",
   "theorems": [
    "C62_help",
    "C62_read",
    "C62_cas",
    "C62_conflict"
   ],
   "note": "The thread that completes the call runs alone, in a memory in which no word of the call is half installed (for those see C61) and its expected values have clear flag bits. Two threads that complete a call at the same time after its decision are the subject of C48."
  },
  {
   "property": "C63",
   "status": "proved",
   "theorems": [
    "C63_no_collisions",
    "C63_range"
   ],
   "note": ""
  },
  {
   "property": "C64",
   "status": "proved",
   "theorems": [
    "C64_streaming"
   ],
   "note": ""
  },
  {
   "property": "C65",
   "status": "partial",
   "theorems": [
    "C65_refuted",
    "C65_calls_partial",
    "C65_array_partial",
    "C65_alone_partial",
    "C65_threads_partial",
    "C65_range_partial"
   ],
   "note": "False as C++17: rand() << 3 is undefined when rand() returns 2^29 or more. Proved otherwise, in C++17 and C++20: the calls are legal in every execution, and a thread that runs alone never sees one fail; no schedule makes an assertion fail or an access leave the arrays."
  },
  {
   "property": "C66",
   "status": "partial",
   "theorems": [
    "C66_pmem_partial",
    "C66_pmem_reopen_partial",
    "C66_pmem_refuted",
    "C66_pmem_file_refuted",
    "C66_level_partial",
    "C66_level_reopen_partial",
    "C66_level_threads_refuted",
    "C66_level_refuted",
    "C66_onefile_partial",
    "C66_onefile_refuted"
   ],
   "note": "The library maps are taken as documented. False: increment inserts instead of counting, levelMap's count is its capacity, an insert of any thread but the first is outside of an array of one element, an old file is not emptied, and onefileMap returns an unassigned variable for an absent key. Proved for the other calls."
  },
  {
   "property": "C67",
   "status": "proved",
   "theorems": [
    "C67_alone"
   ],
   "note": "for calls that are not decided, whose words may be half installed by their own thread or by one that helped; helping a call that has been decided is refuted by C48_refuted"
  },
  {
   "property": "C68",
   "status": "proved",
   "theorems": [
    "C68_under_way",
    "C68_completes"
   ],
   "note": "Rely/guarantee proof over every schedule: until a call is decided, the invariant of C67 holds for the calls that have been made, the array without them is the initial one, reads return initial values and no thread has failed (other than by the model's fuel); a thread between two calls that then runs alone completes any legal operation. CAS of single words by the other threads is not covered; what happens once a call is decided is the subject of C48."
  },
  {
   "property": "C69",
   "status": "partial",
   "theorems": [
    "C69_memory",
    "C69_assertions_partial",
    "C69_refuted",
    "C69_increment_refuted"
   ],
   "note": "No null pointer and no index out of range in any execution, increments included. False for one assertion, copyDone + workDone <= oldLen: an entry can be counted as copied twice (executed witness). Proved without increments: it is the only assertion that can fail. With increments newVal != VINITIAL can fail too (executed witness): an increment that meets an unpersisted deletion mark stores the word of an unused entry."
  },
  {
   "property": "C70",
   "status": "proved",
   "theorems": [
    "C70_no_error",
    "C70_in_range"
   ],
   "note": "For the calls for which the code is written (distinct words of the array, at most K of them, values with clear flag bits) and no more threads than descriptors. A thread that is stuck for the bound that the model puts on loops is excepted."
  },
  {
   "property": "C71",
   "status": "partial",
   "theorems": [
    "C71_call_partial",
    "C71_alone_partial",
    "C71_decided_partial",
    "C71_decision_partial",
    "C71_read_partial",
    "C71_flag_partial",
    "C71_flag_refuted",
    "C71_read_refuted",
    "C71_cas_refuted"
   ],
   "note": "False for reads and for the flag: a word that is changed and changed back between the flush and the compare-and-swap of persist loses its flag without having been flushed, so that what a later read returns can be lost. False for CAS, which leaves its word dirty. Proved for multi-word calls and reads that run alone, and for the flag in all executions in which no thread comes between a flush and the compare-and-swap after it. Proved for multi-word calls in all executions, disturbed by others in any way: once one is about to return true, a crash cannot bring back what its words were before it was decided, nor lose the decision."
  }
 ]
}