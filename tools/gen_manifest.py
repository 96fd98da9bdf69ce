#!/usr/bin/env python3
"""Writes MANIFEST.json, after checking that every theorem it names exists in rocq/theories."""
import json, os, re
root = os.path.join(os.path.dirname(os.path.abspath(__file__)), "..")
claims = []
def claim(prop, status, theorems, note):
    claims.append({"property": prop, "status": status, "theorems": theorems, "note": note})

claim("C01", "proved", ["C01_sequential_map", "C01_get_returns_last_write"],
      "Every sequence of legal calls on a new map, for every hash function, power-of-two capacity and device of at most 2^32 entries.")
claim("C02", "proved", ["C02_frame"], "")
claim("C03", "proved", ["C03_putIfAbsent", "C03_replace", "C03_removeVal"], "Single-threaded, including calls made while a migration is in progress.")
claim("C04", "proved", ["C04_no_failure"], "Allocation failure is the only error.")
claim("C05", "partial", ["C05_termination_partial", "C05_refuted"],
      "False in full: eleven keys with one home position make the map double its table until allocation fails. Proved: every call returns or reports allocation failure.")
claim("C06", "partial", ["C06_size_partial", "C06_isEmpty_partial", "C06_refuted", "C06_refuted_isEmpty"],
      "False in full: a resize nested in a resize loses a count. Proved for histories in which no call leaves a migration in progress.")
claim("C07", "partial", ["C07_remove_partial", "C07_refuted"],
      "False in full: remove returns true for absent keys. Proved: the exact result, and that the key is gone afterwards.")
claim("C08", "proved", ["C08_containsKey"], "")
claim("C09", "partial", ["C09_increment_partial", "C09_refuted"],
      "False in full: an increment during which the table grows stores a reserved word. Proved for calls that stay in the same table.")
claim("C10", "proved", ["C10_reads", "C10_previous_values"], "Every schedule, any number of threads, also during migrations.")
claim("C11", "partial", ["C11_linearizable_partial", "C11_without_removals", "C11_no_failure", "C11_refuted"],
      "Proved in full without removals. With removals false: a put that loses twice against removals returns the deletion mark instead of 'not found'; proved with this exception, and for all calls except increment.")
claim("C12", "partial", ["C12_refuted", "C12_per_entry_partial", "C12_no_race_partial"], "False: a losing CAS reports the winner's key with the unpersisted bit, which is not recognised, so both puts insert the key. Proved without removals, increments and growth: for every schedule there are at most as many winners as the key has entries, and at least one once the calls have returned; exactly one when no two threads insert the same new key at the same time.")
claim("C13", "partial", ["C13_marker_bits_partial", "C13_refuted"],
      "False for put and putIfAbsent, which may return the unpersisted bit. Proved: get returns neither bit, no call returns the migration bit.")
claim("C14", "partial", ["C14_present_partial", "C14_refuted"], "False: an unpersisted deletion mark is reported as an existing value. Proved: this is the only exception, otherwise the key was mapped to the reported value during the call.")
claim("C15", "proved", ["C15_key_permanent"], "")
claim("C16", "proved", ["C16_frozen"], "")
claim("C17", "proved", ["C17_successor", "C17_capacity"], "")
claim("C18", "proved", ["C18_forward"], "")
claim("C19", "partial", ["C19_promotion_partial", "C19_refuted"],
      "Proved single-threaded. Concurrently false: one entry can be counted twice, so that the table is replaced before all entries have been copied.")
claim("C20", "partial", ["C20_refuted", "C20_unresized_partial", "C20_few_keys_partial"], "False: a thread suspended before it adds to the migration's work counter blocks every other call. Proved: while the table has no successor nothing fails and every call returns after a bounded number of steps of its own thread, whatever the others do, racing or suspended; with few keys and no racing first insertions the table never gets a successor. The counterexample is during a resize.")
claim("C21", "partial", ["C21_removed_partial", "C21_refuted"],
      "Proved single-threaded. Concurrently false: a key that was inserted twice (see C12) comes back after the next resize.")
claim("C22", "partial", ["C22_refuted", "C22_read_partial"], "False: put returns before its write is flushed. Proved for one thread and a map that has not grown: a put survives once its key has been read. With several threads: C24, C54.")
claim("C24", "partial", ["C24_read_durable_partial", "C24_refuted"],
      "False for values: a delayed reader may clear the unpersisted bit of a later write of the same value. Proved for keys, and for values of entries that never take the same value twice.")
claim("C25", "proved", ["C25_no_orphan_value"], "")
claim("C26", "proved", ["C26_client_data", "C26_images_exist"], "")
claim("C27", "partial", ["C27_refuted", "C27_deletes_refuted", "C27_reopen_partial", "C27_resized_refuted"],
      "False: recovery has undefined behaviour for every state of the directory, and with that repaired it deletes every table file. Proved: constructing the map without the recovery flag restores a map that never grew. False for one that did.")
claim("C28", "partial", ["C28_file", "C28_new_file", "C28_clean_partial", "C28_empty_partial", "C28_refuted", "C28_grow_refuted"],
      "Proved for a directory without table files; without a file of the number 0 the map starts empty. False otherwise: left-over files are opened by the constructor and by resize.")
claim("C29", "partial", ["C29_parse", "C29_parse_policy", "C29_parse_any", "C29_order_partial", "C29_order_refuted", "C29_chain_partial"],
      "Parsing is proved for every number below 2^31. The order is proved for numbers with the same number of digits and false otherwise, because names are sorted as strings. C29_chain_partial: with the other recovery errors repaired and equal digit counts, the used tables are kept in creation order and linked each to the next.")
claim("C30", "partial", ["C30_refuted", "C30_fresh_partial"],
      "False even if the rest of recovery is repaired: the next table uses the file of the table visited last. Proved for maps created without recovery.")
claim("C31", "proved", ["C31_marks_lossless", "C31_reserved_distinct", "C31_client_words", "C31_address_mask"], "")
claim("C23", "proved", ["C23_last_or_previous", "C23_read"],
      "At every memory access of every call, for any calls and any files the map started from.")
claim("C32", "partial", ["C32_encoding_partial", "C32_refuted"],
      "False in full: elements that differ by 2^61 share a key, and four elements are encoded as reserved words. Proved for elements below 2^61 - 4.")
claim("C33", "partial", ["C33_refuted", "C33_insert_inverted"],
      "False: insert reports the opposite. Proved: in every reachable state it returns true exactly when the element was already there.")
claim("C34", "proved", ["C34_contains", "C34_get", "C34_reference", "C34_results_refuted"],
      "Membership and get agree with the reference container for elements below 2^61 - 4. C34_results_refuted lists the other results that differ from the reference container's.")
claim("C35", "partial", ["C35_home_partial", "C35_refuted"],
      "Proved for capacities up to 2^32; false for every larger one, because get converts the hash to int.")
claim("C36", "partial", ["C36_persist_partial", "C36_refuted"],
      "Proved for non-empty ranges that end before the last cache line of the address space. False for the others: the loop wraps around and never ends, and an empty unaligned range flushes a line.")
claim("C37", "proved", ["C37_descref", "C37_descref_onto", "C37_status_words"], "Thread bounds up to 2^16.")
claim("C38", "partial", ["C38_counts", "C38_elements", "C38_alternating_partial", "C38_run_partial", "C38_refuted", "C38_prefix_refuted"],
      "The counts are proved in full, the elements as long as they do not exceed 64 bits. The alternating test stores elements in an int: distinct below 2^32, false above. run_test executes the prefix for the first thread only, so the others make fewer calls than their share.")
claim("C39", "proved", ["C39_reads"], "")
claim("C40", "proved", ["C40_repair", "C40_model"], "")
claim("C41", "partial", ["C41_refuted", "C41_unresized_partial", "C41_phases_partial"], "False: after two racing inserts of one key the next resize may never end. Proved: as long as the table has no successor, in every reachable state, a call that runs alone returns unless it gives the table a successor; in the executions in phases of C45, whenever nobody is in a call, every sequence of calls that runs alone returns or reports allocation failure.")
claim("C42", "partial", ["C42_complete_partial", "C42_refuted"],
      "False at every point of interruption before the last entry is initialised: the zero bytes count as entries. Proved for an interruption after that.")
claim("C43", "proved", ["C43_crash_reopen"], "For maps that have not grown (after growth nothing is restored, see C27).")
claim("C44", "proved", ["C44_one_step"], "Reads and writes of one entry; what the calls do to the dictionary as a whole is C01 (one thread) and C11 (stored keys, no resize).")
claim("C45", "partial", ["C45_linearizable_partial", "C45_without_removals", "C45_few_keys", "C45_phases", "C45_refuted", "C45_refuted_growth"],
      "False: two threads that put the same new key may both be told that there was no value. Proved while the first table has no successor, if no two threads insert the same new key at the same time; with the weaker reading of put's result in the presence of removals. Also proved for executions in phases: in each phase either one thread runs alone, through any number of resizes, or several threads run without a resize. False when the map grows while several threads run, even if the insertions come one after the other: a put that has returned is not seen by a later get.")
claim("C46", "partial", ["C46_not_lost_partial", "C46_refuted", "C46_refuted_growth"],
      "False: one of two racing first increments of a counter is lost. Proved while the first table has no successor, if the first increment of each key returns before another thread starts to increment it. False when the map grows: the increment that makes it grow stores another word.")
claim("C47", "proved", ["C47_sequential"], "")
claim("C48", "partial", ["C48_refuted", "C48_disjoint_partial", "C48_calm_partial"],
      "False: a read that helps a call whose outcome is decided may put old values back, because the helper uses its own idea of the outcome. Proved for threads that access different words and, more generally, for every execution in which calls that overlap in time access different words.")
claim("C49", "proved", ["C49_decided_once"], "")
claim("C50", "proved", ["C50_reads_values"], "From the initial memory of the constructor.")
claim("C51", "partial", ["C51_refuted_bounds", "C51_refuted_torn", "C51_refuted_undecided", "C51_quiescent_partial", "C51_undecided_partial"],
      "False: the last loop hides the index of the loop around it, so that it looks at descriptors that do not exist or at words of calls that are completed only later, and decided calls are not completed. Proved for memories in which no call is under way, and for one call that stopped anywhere before it was decided, if it is one of thread 0 or thread 0 has no words to check. The memory is recovered as it is: lost cache lines are not modelled here.")
claim("C52", "partial", ["C52_accepts_partial", "C52_one_thread_partial", "C52_complete", "C52_threads", "C52_refuted", "C52_prefix_refuted", "C52_crash_refuted"],
      "False: for even numbers of operations from 4 to 8 per thread, for 20 or more operations per thread with several threads (their prefix is never executed), and for a crash in the prefix; and finished inserts that are not in the file make it fail. Proved for the other numbers of operations, which are exactly those for which it accepts a complete run. Elements below 2^31.")
claim("C53", "partial", ["C53_last_change_partial", "C53_refuted"],
      "Proved for entries that never take a value a second time, for any number of tables. False otherwise: a delayed write-back of the first occurrence of a value clears the mark of the second.")
claim("C54", "partial", ["C54_crash_reopen_partial", "C54_read_partial", "C54_refuted"],
      "A key that some get has returned is found again after the crash, however many threads insert. Proved for maps with a single table, if one thread at a time inserts new keys. False otherwise: a thread that loses the race for an entry goes on to the next one without writing back the key it has passed, so a crash can leave a key that searches do not reach.")
claim("C55", "partial", ["C55_until_growth_partial", "C55_frozen_partial", "C55_refuted"],
      "Proved as long as the table that was read has no successor; no value is marked for migration before there is one. False when the map grows, even with one thread: copySlot writes the migrated mark without waiting for the copy to be written back, so a crash can lose both.")

claim("C56", "partial", ["C56_queues_partial", "C56_one_thread", "C56_run_partial", "C56_refuted", "C56_malformed_refuted"],
      "Proved for two or more threads, or few operations, and well-formed lines of less than 1023 characters; the resulting calls and the final contents of the map for one thread. False for one thread: the loop admits one line more than the queue has room for. Lines without a number reuse the previous one.")
claim("C57", "partial", ["C57_reddit", "C57_reddit_all", "C57_every_file", "C57_degree_all", "C57_every_line", "C57_one_reading", "C57_degree", "C57_counts_partial", "C57_report_partial", "C57_report_refuted", "C57_growth_refuted", "C57_shift_refuted", "C57_lines_refuted"],
      "Which numbers are incremented is proved for all files (degree counts the second column), the counts while one thread counts and the table does not grow. False: counts after growth, hashes that agree in 61 bits, numbers not below the container's size are not reported, malformed lines.")
claim("C58", "partial", ["C58_options_partial", "C58_all", "C58_help", "C58_unknown", "C58_average", "C58_capacity_partial", "C58_capacity_refuted", "C58_file", "C58_threads", "C58_refuted"],
      "What every list of arguments leads to is proved; it is what the options say for well-formed values and capacities below 2^31. False otherwise, e.g. -r true switches recovery off; a capacity of 2^31 becomes 2^64 - 2^31, larger ones are undefined.")
claim("C59", "partial", ["C59_main", "C59_prefix", "C59_calls", "C59_inserts", "C59_safe", "C59_container", "C59_threads", "C59_refuted"],
      "Proved when rand() returns less than 2^61 - 4, as the C library's does. The driver's own test for reserved words is wrong: its main loop tests the element instead of the key.")
claim("C60", "proved", ["C60_barrier", "C60_released"], "Release is stated as: once every thread has taken two steps and then another one.")
claim("C61", "proved", ["C61_up_to_date", "C61_complete", "C61_install", "C61_install_stale", "C61_create", "C61_read", "C61_cas", "C61_recovery"],
      "From the initial memory of the constructor, for legal calls with values whose flag bits are clear.")
claim("C62", "proved", ["C62_help", "C62_read", "C62_cas", "C62_conflict"],
      "The thread that completes the call runs alone, in a memory in which no word of the call is half installed (for those see C61) and its expected values have clear flag bits. Two threads that complete a call at the same time after its decision are the subject of C48.")

claim("C63", "proved", ["C63_no_collisions", "C63_range"], "")
claim("C64", "proved", ["C64_streaming"], "")
claim("C65", "partial", ["C65_refuted", "C65_calls_partial", "C65_array_partial", "C65_alone_partial", "C65_threads_partial", "C65_range_partial"],
  "False as C++17: rand() << 3 is undefined when rand() returns 2^29 or more. Proved otherwise, in C++17 and C++20: the calls are legal in every execution, and a thread that runs alone never sees one fail; no schedule makes an assertion fail or an access leave the arrays.")

claim("C66", "partial", ["C66_pmem_partial", "C66_pmem_reopen_partial", "C66_pmem_refuted", "C66_pmem_file_refuted", "C66_level_partial", "C66_level_reopen_partial", "C66_level_threads_refuted", "C66_level_refuted", "C66_onefile_partial", "C66_onefile_refuted"],
  "The library maps are taken as documented. False: increment inserts instead of counting, levelMap's count is its capacity, an insert of any thread but the first is outside of an array of one element, an old file is not emptied, and onefileMap returns an unassigned variable for an absent key. Proved for the other calls.")

claim("C67", "proved", ["C67_alone"],
      "for calls that are not decided, whose words may be half installed by their own thread or by one that helped; helping a call that has been decided is refuted by C48_refuted")
claim("C68", "proved", ["C68_under_way", "C68_completes"],
 "Rely/guarantee proof over every schedule: until a call is decided, the invariant of C67 holds for the calls that have been made, the array without them is the initial one, reads return initial values and no thread has failed (other than by the model's fuel); a thread between two calls that then runs alone completes any legal operation. CAS of single words by the other threads is not covered; what happens once a call is decided is the subject of C48.")
claim("C69", "partial", ["C69_memory", "C69_assertions_partial", "C69_refuted", "C69_increment_refuted"],
 "No null pointer and no index out of range in any execution, increments included. False for one assertion, copyDone + workDone <= oldLen: an entry can be counted as copied twice (executed witness). Proved without increments: it is the only assertion that can fail. With increments newVal != VINITIAL can fail too (executed witness): an increment that meets an unpersisted deletion mark stores the word of an unused entry.")
claim("C70", "proved", ["C70_no_error", "C70_in_range"],
      "For the calls for which the code is written (distinct words of the array, at most K of them, values with clear flag bits) and no more threads than descriptors. A thread that is stuck for the bound that the model puts on loops is excepted.")
claim("C71", "partial", ["C71_call_partial", "C71_alone_partial", "C71_decided_partial", "C71_decision_partial", "C71_read_partial", "C71_flag_partial", "C71_flag_refuted", "C71_read_refuted", "C71_cas_refuted"],
      "False for reads and for the flag: a word that is changed and changed back between the flush and the compare-and-swap of persist loses its flag without having been flushed, so that what a later read returns can be lost. False for CAS, which leaves its word dirty. Proved for multi-word calls and reads that run alone, and for the flag in all executions in which no thread comes between a flush and the compare-and-swap after it. Proved for multi-word calls in all executions, disturbed by others in any way: once one is about to return true, a crash cannot bring back what its words were before it was decided, nor lose the decision.")
src = ""
d = os.path.join(root, "rocq", "theories")
for f in os.listdir(d):
    if f.endswith(".v"): src += open(os.path.join(d, f)).read()
names = set(re.findall(r"^Theorem (\w+)", src, re.M))
for c in claims:
    for t in c["theorems"]:
        assert t in names, t
used = {t for c in claims for t in c["theorems"]}
print("unclaimed:", sorted(names - used))
json.dump({"claims": claims}, open(os.path.join(root, "MANIFEST.json"), "w"), indent=1)
