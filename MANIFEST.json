{
 "claims": [
  {
   "property": "C01",
   "status": "proved",
   "theorems": [
    "C01_pbptree_map",
    "C01_pbptree_erase"
   ],
   "note": "Heap-level model of PBPTree; every M >= 2, even N >= 6 and every history that erases only stored keys. Outcome Ok excludes out-of-bounds, null/freed node and uninitialised reads."
  },
  {
   "property": "C02",
   "status": "proved",
   "theorems": [
    "C02_pbptree_scan"
   ],
   "note": "scan reports exactly the map, strictly ascending."
  },
  {
   "property": "C03",
   "status": "proved",
   "theorems": [
    "C03_pbptree_range"
   ],
   "note": "every pair of bounds, including lo > hi."
  },
  {
   "property": "C04",
   "status": "partial",
   "theorems": [
    "C04_pbptree_erase_absent_refuted",
    "C04_pbptree_erase_empty_refuted",
    "C04_pbptree_erase_absent_partial",
    "C04_pbptree_erase_absent_exact_partial",
    "C04_pbptree_erase_absent_any_history_partial"
   ],
   "note": "REFUTED: eraseFromLeafNode does not check pos < numKeys, so a stale slot holding the key makes erase of an absent key remove another entry and return true; on a new tree an uninitialised key is read. Proved: when the leaf is not empty and the slot compared is live or holds another key, erase returns false, keeps the contents and the tree stays usable. C04_pbptree_erase_absent_exact_partial, C04_pbptree_erase_absent_any_history_partial: after any sequence of inserts and erases of any keys, the slot behind the last entry of the leaf decides whether an erase of an absent key changes nothing, takes the largest key below it, or is undefined; no other outcome (N >= 5; with odd N also undefined where the condition of PathSpec fails)."
  },
  {
   "property": "C05",
   "status": "partial",
   "theorems": [
    "C05_pbptree_n4_refuted",
    "C05_pbptree_insert_only_partial",
    "C05_pbptree_path_partial",
    "C05_pbptree_small_partial",
    "C05_exact_partial"
   ],
   "note": "REFUTED for N = 4: a non-root branch with one key makes underflowAtLeafLevel replace the root. Positive part: histories without erase work for every N >= 2. C05_pbptree_path_partial: for every N >= 3 right when each erase meets the condition of PathSpec on the nodes it passes. C05_pbptree_small_partial: unconditionally right for N >= 3 while there are fewer than 2*ceil(N/2)*floor(M/2) entries. C05_exact_partial: from N = 5 on the condition is exact, an erase that does not meet it is undefined."
  },
  {
   "property": "C06",
   "status": "proved",
   "theorems": [
    "C06_pbptree_shape"
   ],
   "note": "uniform leaf depth, occupancy bounds and the resulting lower bound on the number of entries."
  },
  {
   "property": "C07",
   "status": "partial",
   "theorems": [
    "C07_pbptree_iterator_partial",
    "C07_pbptree_iterator_empty_refuted"
   ],
   "note": "Holds whenever at least one entry is stored; REFUTED on the empty tree (begin() != end(), *begin() undefined)."
  },
  {
   "property": "C08",
   "status": "proved",
   "theorems": [
    "C08_bptree_map",
    "C08_bptree_erase",
    "C08_bptree_scan",
    "C08_bptree_range",
    "C08_bptree_shape",
    "C08_bptree_iterator"
   ],
   "note": "Same development, linear search instance."
  },
  {
   "property": "C09",
   "status": "partial",
   "theorems": [
    "C09_bptree_odd_refuted",
    "C09_bptree_insert_only_partial",
    "C09_bptree_path_partial",
    "C09_bptree_small_partial",
    "C09_exact_partial"
   ],
   "note": "REFUTED: with odd N mergeBranchNodes produces N+1 keys and writes past the arrays (N=5, M=2). Positive part: histories without erase are safe for every N >= 2. C09_bptree_path_partial, C09_bptree_small_partial, C09_exact_partial: as for C05."
  },
  {
   "property": "C10",
   "status": "proved",
   "theorems": [
    "C10_hpbptree_map",
    "C10_hpbptree_erase",
    "C10_hpbptree_scan",
    "C10_hpbptree_range",
    "C10_hpbptree_iterator",
    "C10_hpbptree_any_n",
    "C10_hpbptree_small"
   ],
   "note": "HPBPTree without recover(). C10_hpbptree_any_n, C10_hpbptree_small: N >= 3, for erases that meet the condition of PathSpec, and for few entries (see C05)."
  },
  {
   "property": "C100",
   "status": "partial",
   "theorems": [
    "C100_bench_split_rounds",
    "C100_bench_split_frees_refuted"
   ],
   "note": "REFUTED: C100_bench_split_frees_refuted. *leafNode = *leaf overwrites nextLeaf before deleteLeafNode(leafRef.nextLeaf), so null is deleted and the new leaf is lost. C100_bench_split_rounds (any capacity, leaves, sequence): contents are restored, and exactly one leaf per round is lost."
  },
  {
   "property": "C101",
   "status": "partial",
   "theorems": [
    "C101_bench_merge_partial",
    "C101_bench_merge_unsorted",
    "C101_bench_merge_lookup_refuted"
   ],
   "note": "REFUTED: C101_bench_merge_lookup_refuted (LEAFKEYS 18: key 10 is stored and not found). The target leaf is prepared with the larger keys, mergeLeafNodes appends the smaller ones; unsorted for every capacity from 4 on. Positive: exactly the keys of both leaves, in that order."
  },
  {
   "property": "C102",
   "status": "proved",
   "theorems": [
    "C102_bench_balance",
    "C102_bench_erase"
   ],
   "note": "Any capacity and value type; leaves of the PBPTree (the TreeType in the file). A split while preparing would be UB; the theorems exclude it."
  },
  {
   "property": "C103",
   "status": "partial",
   "theorems": [
    "C103_bench_flush_erase",
    "C103_bench_flush_split",
    "C103_bench_flush_balance_right",
    "C103_bench_flush_balance_refuted",
    "C103_bench_flush_merge_refuted"
   ],
   "note": "REFUTED for balance in the direction of the file (the donor arrays are not flushed, C103_bench_flush_balance_refuted) and for merge (C103_bench_flush_merge_refuted). Proved for erase, split and balance to the right, any capacity and element size. The ranges as written; rounding to cache lines is not counted."
  },
  {
   "property": "C104",
   "status": "partial",
   "theorems": [
    "C104_bench_insert",
    "C104_bench_insert_last",
    "C104_bench_insert_flush",
    "C104_bench_insert_flush_inside_refuted",
    "C104_bench_insert_middle_refuted"
   ],
   "note": "REFUTED: C104_bench_insert_flush_inside_refuted and C104_bench_insert_middle_refuted (LEAFKEYS 18, ELEMENTS 270: the flush goes beyond the node; for the middle position prepare splits the leaf). Positive: first, last and a middle inside one leaf, any capacity; the flush always covers what was written, and stays inside exactly if ELEMENTS is at most LEAFKEYS."
  },
  {
   "property": "C105",
   "status": "partial",
   "theorems": [
    "C105_bench_skip_insert",
    "C105_bench_skip_target",
    "C105_bench_skip_target_refuted"
   ],
   "note": "REFUTED as stated for every TARGET_KEY: C105_bench_skip_target_refuted (prepare inserts nothing for a key that is not first, last or middle, so the measured node is empty; C105_bench_skip_target says exactly when). C105_bench_skip_insert proves the rest for these three keys, among them the constant of the file."
  },
  {
   "property": "C106",
   "status": "proved",
   "theorems": [
    "C106_bench_skip_get"
   ],
   "note": "for every capacity and number of copies"
  },
  {
   "property": "C107",
   "status": "proved",
   "theorems": [
    "C107_bench_get"
   ],
   "note": "Every leaf capacity of at least 2, even or odd, every ELEMENTS of at least LEAFKEYS. The copies of the leaf and flushes are left out."
  },
  {
   "property": "C108",
   "status": "proved",
   "theorems": [
    "C108_bench_scan",
    "C108_bench_scan_last"
   ],
   "note": "PBPTree with N >= 3, M >= 2, every depth."
  },
  {
   "property": "C109",
   "status": "proved",
   "theorems": [
    "C109_bench_traverse",
    "C109_bench_traverse_tree"
   ],
   "note": "For the non-hybrid variant that the file compiles. TARGET_DEPTH 0 is excluded: at(0) throws."
  },
  {
   "property": "C11",
   "status": "partial",
   "theorems": [
    "C11_refuted",
    "C11_recover_lookup_partial",
    "C11_single_registration_partial",
    "C11_recover_erase_partial"
   ],
   "note": "REFUTED: C11_refuted: recover() registers the first leaf twice, and five later inserts lose key 20. C11_recover_lookup_partial: lookups and the full scan directly after recover() are right for every insert history. C11_single_registration_partial: with the second registration removed every later history is right. C11_recover_erase_partial: the same directly after recover() for every history with erases."
  },
  {
   "property": "C110",
   "status": "proved",
   "theorems": [
    "C110_perf_run",
    "C110_perf_bound"
   ],
   "note": "For every sequence of random numbers; the table is the abstract map of MapSpec. The file uses an older interface (pfabric) and is not part of the build."
  },
  {
   "property": "C111",
   "status": "proved",
   "theorems": [
    "C111_hibit",
    "C111_hibit_negative",
    "C111_alignment",
    "C111_points",
    "C111_progress_below",
    "C111_progress_lines"
   ],
   "note": "C111_progress_below: called with 1 to 99 entries insert divides by zero; no benchmark does so. C111_alignment uses shr and wrap32 of BdccModel. From 100 entries on a progress line is written exactly for the multiples of a hundredth of the entries."
  },
  {
   "property": "C112",
   "status": "partial",
   "theorems": [
    "C112_key_scan",
    "C112_non_key_scan",
    "C112_non_key_scan_all",
    "C112_tree_scan",
    "C112_non_key_count_refuted",
    "C112_tree_count_refuted",
    "C112_selectivity"
   ],
   "note": "REFUTED: C112_non_key_count_refuted (one row more than stated) and C112_tree_count_refuted (about half of the rows); C112_key_scan is the positive part, C112_non_key_scan and C112_tree_scan give the selected rows exactly. Conditions evaluated on the inserted rows; that rangeScan delivers them is C43-C45. The arguments are 0.1 to 100 percent of the rows, rounded down."
  },
  {
   "property": "C113",
   "status": "proved",
   "theorems": [
    "C113_pbptree_print",
    "C113_bptree_print",
    "C113_hpbptree_print",
    "C113_unsorted_print",
    "C113_fptree_print"
   ],
   "note": "All histories of inserts and erases of present keys for even N >= 6 (PBPTree, BPTree, HPBPTree); insert histories for N >= 2 (UnsortedPBPTree, FPTree). A line is kept as indentation, node and keys; FPTree prints slots without a bit too, their keys may never have been written."
  },
  {
   "property": "C114",
   "status": "proved",
   "theorems": [
    "C114_hpbptree_leaf_list",
    "C114_fptree_leaf_list"
   ],
   "note": "leafList is taken as the leftmost leaf."
  },
  {
   "property": "C115",
   "status": "proved",
   "theorems": [
    "C115_print"
   ],
   "note": "For raw = false. Same histories as C41, C44, C45 (inserted keys absent, keys below 65536, deletes only if the first column is not a string). Texts and column names are left out."
  },
  {
   "property": "C116",
   "status": "partial",
   "theorems": [
    "C116_print_partial",
    "C116_print_ascending_partial",
    "C116_refuted",
    "C116_print_erase_partial"
   ],
   "note": "REFUTED: C116_refuted, after a split has put a key into the wrong half (see C47) the keys shown are not ascending. Proved for histories whose new keys are above or below all stored ones (leaf capacity at least 3) and for ascending histories (leaf capacity at least 2).  With erases under the guard of C72."
  },
  {
   "property": "C117",
   "status": "partial",
   "theorems": [
    "C117_print_partial",
    "C117_print_erase_partial",
    "C117_refuted"
   ],
   "note": "REFUTED: C117_refuted, after a restart with five leaves (N = 3) print reads a child pointer that was never written. Proved for histories with restarts whose leaf counts recover gets right and new keys above or below all stored ones, and for inserts and erases under the guard of C75."
  },
  {
   "property": "C118",
   "status": "partial",
   "theorems": [
    "C118_print_partial",
    "C118_refuted",
    "C118_print_erase_partial"
   ],
   "note": "REFUTED: C118_refuted, with N = 64 stored keys are not shown (the split loses separators, C52). Proved for keys from 0 up to but excluding the largest value of KeyType and N not a multiple of 64. C118_print_erase_partial covers histories with erases under the guard of C70."
  },
  {
   "property": "C119",
   "status": "partial",
   "theorems": [
    "C119_print_partial",
    "C119_refuted",
    "C119_restart_refuted",
    "C119_print_erase_partial"
   ],
   "note": "REFUTED: C119_refuted, with M = 64 stored keys are not shown (C68); C119_restart_refuted, after a restart with five leaves print reads a child pointer never written. Proved for keys from 0 up to but excluding the largest value, N and M not multiples of 64 and restarts whose leaf counts recover gets right. C119_print_erase_partial covers histories with erases under the guard of C70."
  },
  {
   "property": "C12",
   "status": "proved",
   "theorems": [
    "C12_unsorted_map",
    "C12_unsorted_scan",
    "C12_unsorted_shape"
   ],
   "note": "any N >= 2, M >= 2, any integral KeyType up to 64 bits (also negative keys)"
  },
  {
   "property": "C13",
   "status": "partial",
   "theorems": [
    "C13_refuted",
    "C13_exact_partial",
    "C13_guarded_partial",
    "C13_largest_partial",
    "C13_erase_partial",
    "C13_leaf_erase_partial",
    "C13_any_n_partial",
    "C13_path_exact_partial"
   ],
   "note": "REFUTED: right merge frees the leaf after the merged one, which is still linked (C13_refuted). What holds, in trees of any size: every history whose erases avoid that case (a condition decided before each erase) is the map, scan and shape included; in particular histories that erase only the largest key stored; and histories that fit in one leaf. The condition is exact (C13_exact_partial): an erase that does not meet it reports success and leaves a stored key whose lookup reads a freed leaf. C13_any_n_partial: N >= 3, if the erases meet the condition of PathSpec too. C13_path_exact_partial: N >= 5, odd N included: both conditions are always decided for a stored key and together say exactly what the erase does (right, another key is lost, or undefined).  Erases of keys that are not stored: C94."
  },
  {
   "property": "C14",
   "status": "proved",
   "theorems": [
    "C14_fptree_map",
    "C14_fptree_scan",
    "C14_fptree_range",
    "C14_fptree_shape"
   ],
   "note": "Any M >= 2 (M < 2^64), N >= 2, any integral key type of at most 64 bits, any fingerprint function, any uninitialised fingerprints; any sequence of inserts."
  },
  {
   "property": "C15",
   "status": "partial",
   "theorems": [
    "C15_refuted",
    "C15_guarded_partial",
    "C15_erase_partial",
    "C15_leaf_erase_partial",
    "C15_leaf_merge_partial",
    "C15_leaf_balance_partial",
    "C15_any_n_partial",
    "C15_exact_partial",
    "C15_path_exact_partial"
   ],
   "note": "REFUTED: C15_refuted (stale slot 0 decides the balancing direction, key 50 becomes unreachable). What holds, in trees of any size and with absent keys erased too: every history in which the raw slots 0 are ordered like the leaves whenever leaves are rebalanced is the map, scans and shape included; histories with at most M entries stored; the leaf-level functions. C15_any_n_partial: N >= 3, if the erases meet the condition of PathSpec too. C15_exact_partial: the condition is always decided and exact; where it does not hold, the erase succeeds and another stored key is no longer found (N even, N >= 6). C15_path_exact_partial: N >= 5, odd N included, any key: both conditions are always decided and together say exactly what the erase does (right, another key is no longer found, or undefined)."
  },
  {
   "property": "C16",
   "status": "proved",
   "theorems": [
    "C16_fptree_recover_map",
    "C16_fptree_recover_scan",
    "C16_fptree_recover_range"
   ],
   "note": "Histories of inserts and restarts in any order; each restart drops all branch nodes and runs recover() on the leaf list. Lookups, scans and range scans equal those of the inserts alone."
  },
  {
   "property": "C17",
   "status": "proved",
   "theorems": [
    "C17_bit_atomic",
    "C17_bit_lookup",
    "C17_bit_scan",
    "C17_unsorted_atomic",
    "C17_unsorted_lookup",
    "C17_unsorted_stores"
   ],
   "note": "all reachable leaves (also after earlier failures), all keys, all store prefixes"
  },
  {
   "property": "C18",
   "status": "partial",
   "theorems": [
    "C18_refuted",
    "C18_append_partial",
    "C18_below_partial",
    "C18_stores"
   ],
   "note": "REFUTED: C18_refuted. Inserts at the end of the leaf are atomic; entries below the insert position survive"
  },
  {
   "property": "C19",
   "status": "partial",
   "theorems": [
    "C19_refuted",
    "C19_atomic_partial",
    "C19_agree_partial",
    "C19_stores"
   ],
   "note": "REFUTED: C19_refuted (lookup and scan disagree between the last two stores). Lookup alone and scan alone are atomic at every crash point"
  },
  {
   "property": "C20",
   "status": "proved",
   "theorems": [
    "C20_bitmap",
    "C20_bitmap_single",
    "C20_popcount"
   ],
   "note": "Word-level model; positions beyond n raise (modelled as UB outcome). C20_bitmap_single covers multiples of 64 without flip()/set()."
  },
  {
   "property": "C21",
   "status": "partial",
   "theorems": [
    "C21_getFreeZero",
    "C21_getFreeZero_single",
    "C21_getFreeZero_contents",
    "C21_getFirstSet_partial",
    "C21_getFirstSet_refuted"
   ],
   "note": "getFreeZero proved for every n. REFUTED for getFirstSet on an empty map: it returns n rounded up to a multiple of 64, not n; the guarded theorem states the real result."
  },
  {
   "property": "C22",
   "status": "partial",
   "theorems": [
    "C22_refuted",
    "C22_set_all_refuted",
    "C22_flip_refuted",
    "C22_flip_exact"
   ],
   "note": "REFUTED: sanitize() computes an empty mask when n is a multiple of 64, so set()/flip() clear the last 64 bits; shown for every such n. C22_flip_exact: the result of flip() at every size. Positive statement for the other sizes: C20_bitmap."
  },
  {
   "property": "C23",
   "status": "proved",
   "theorems": [
    "C23_random",
    "C23_skewed"
   ],
   "note": "Every seed, every number of draws; Skewed for max_log <= 30 (1 << 31 is undefined)."
  },
  {
   "property": "C24",
   "status": "proved",
   "theorems": [
    "C24_binary_search"
   ],
   "note": ""
  },
  {
   "property": "C25",
   "status": "proved",
   "theorems": [
    "C25_slot_search"
   ],
   "note": ""
  },
  {
   "property": "C26",
   "status": "proved",
   "theorems": [
    "C26_rank",
    "C26_rank_signed",
    "C26_findSplitKey"
   ],
   "note": "Arrays of at least two keys for findSplitKey (with one key the requested rank is 2)."
  },
  {
   "property": "C27",
   "status": "partial",
   "theorems": [
    "C27_refuted",
    "C27_position_partial"
   ],
   "note": "REFUTED: the comparison is made in size_t, so negative keys are never marked as smaller. The returned position is right for signed keys too."
  },
  {
   "property": "C28",
   "status": "partial",
   "theorems": [
    "C28_min",
    "C28_max",
    "C28_min_bitmap",
    "C28_max_bitmap",
    "C28_next_greater",
    "C28_next_smaller",
    "C28_max_zero_refuted"
   ],
   "note": "Proved if no live key is the extreme value of the key type. REFUTED without that guard: an unsigned key 0 that is the only live key is not found by findMaxKeyPos."
  },
  {
   "property": "C29",
   "status": "proved",
   "theorems": [
    "C29_simple_map",
    "C29_simple_seeded",
    "C29_one_level_refuted"
   ],
   "note": "All insert histories, all random levels, MAX_LEVEL >= 2, first key not MIN_KEY (the head sentinel); also with the levels drawn by the modelled generator for every seed. C29_one_level_refuted records that MAX_LEVEL = 1 reads forward[1] out of bounds."
  },
  {
   "property": "C30",
   "status": "partial",
   "theorems": [
    "C30_refuted",
    "C30_simple_any_key_partial"
   ],
   "note": "REFUTED: C30_refuted inserts MIN_KEY into an empty list; it is taken for a duplicate of the head and not found. C30_simple_any_key_partial: every key is found again unless MIN_KEY is the first key inserted."
  },
  {
   "property": "C31",
   "status": "proved",
   "theorems": [
    "C31_simple_crash",
    "C31_simple_history"
   ],
   "note": "Every prefix of the stores of an insert (program order, atomic stores) in every list reached by inserts and earlier power failures leaves the old entries or those plus the new one; whole histories with any number of power failures."
  },
  {
   "property": "C32",
   "status": "proved",
   "theorems": [
    "C32_wo_map",
    "C32_one_slot_refuted",
    "C32_one_level_refuted"
   ],
   "note": "Proved for every N >= 2, M >= 2, key types of 1..64 bits; the two refutations show that N = 1 and M = 1 lead to undefined behaviour. Random levels are arbitrary arguments below M."
  },
  {
   "property": "C33",
   "status": "partial",
   "theorems": [
    "C33_wo_negative_refuted",
    "C32_wo_map"
   ],
   "note": "REFUTED: with N = 2 inserting -5, 7, 3 loses -5. For non-negative keys the claim is C32_wo_map."
  },
  {
   "property": "C34",
   "status": "proved",
   "theorems": [
    "C34_trie_map"
   ],
   "note": "All insert histories over byte strings of any length; looked-up keys shorter than 256 bytes. insert reports whether the key is new."
  },
  {
   "property": "C35",
   "status": "partial",
   "theorems": [
    "C35_trie_long_key_refuted",
    "C35_trie_long_keys_absent"
   ],
   "note": "REFUTED: a 256-byte key just inserted is not found (uint8_t loop index). Positive: every lookup of a key of 256 bytes or more ends and reports absent."
  },
  {
   "property": "C36",
   "status": "partial",
   "theorems": [
    "C36_trie_remove_refuted",
    "C36_trie_remove_exact",
    "C36_trie_remove_prefix_free"
   ],
   "note": "REFUTED: with \"a\" and \"ab\" stored, remove(\"ab\") loses \"a\". Positive: exact description of which keys a remove loses, and correctness when no key is a proper prefix of another."
  },
  {
   "property": "C37",
   "status": "partial",
   "theorems": [
    "C37_patricia_refuted",
    "C37_patricia_overflow",
    "C37_patricia_lookup_refuted",
    "C37_patricia_map_partial",
    "C37_patricia_insert_new_partial"
   ],
   "note": "REFUTED: setKey writes eight times the bytes it allocates, so every first insert is undefined; with enough room, keys that part at the first bit of a byte make the bytes before it a key that is found. Proved for roomy allocations, true values and keys without such a pair (for example ASCII)."
  },
  {
   "property": "C38",
   "status": "partial",
   "theorems": [
    "C38_patricia_remove_refuted",
    "C38_patricia_remove_kept_refuted",
    "C38_patricia_remove_partial",
    "C38_patricia_remove_found_partial"
   ],
   "note": "REFUTED: removing \"cpp\" loses \"c\"; a key with longer keys on both sides stays although remove reports success. Proved where no key is a proper prefix of another, under the conditions of C37."
  },
  {
   "property": "C39",
   "status": "proved",
   "theorems": [
    "C39_round_trip",
    "C39_consecutive"
   ],
   "note": "Every value of every nested type built from ints, doubles, strings, pairs, tuples and vectors: deserialising the bytes written gives the value back and leaves the following bytes; two values written one after the other come back in order."
  },
  {
   "property": "C40",
   "status": "proved",
   "theorems": [
    "C40_masks"
   ],
   "note": "All dimension lists with widths summing to at most 32."
  },
  {
   "property": "C41",
   "status": "partial",
   "theorems": [
    "C41_value",
    "C41_value_exists",
    "C41_one_dimension_partial",
    "C41_tiles_partial",
    "C41_shift_refuted",
    "C41_partition_refuted"
   ],
   "note": "REFUTED: C41_shift_refuted (two dimensions of different positions lead to a shift by a negative amount), C41_partition_refuted (after splitting a block whose rows all have the largest value two ranges contain it). Proved: the value is below 2^bins; after every history the ranges tile [0, 2^bins-1] apart from such repeated single values (C41_tiles_partial, for 1-800 columns, 16-bit keys not inserted twice, rows fitting into an empty block)."
  },
  {
   "property": "C42",
   "status": "proved",
   "theorems": [
    "C42_sizes",
    "C42_sizes_exist",
    "C42_sizes_weighted_exist",
    "C42_weight_refuted"
   ],
   "note": "Any column list, any weightings. Side finding C42_weight_refuted: all weightings zero divide by zero."
  },
  {
   "property": "C43",
   "status": "proved",
   "theorems": [
    "C43_bounds",
    "C43_prune",
    "C43_table"
   ],
   "note": "C43_bounds, C43_prune: every block and every row list, columns of all three types; C43_table: whole tables, for 1-800 columns, 16-bit keys not inserted twice, rows fitting into an empty block."
  },
  {
   "property": "C44",
   "status": "partial",
   "theorems": [
    "C44_get_partial",
    "C44_refuted"
   ],
   "note": "REFUTED: C44_refuted: splitBlock truncates keys to 16 bits. Proved for 1-800 columns, 16-bit keys not inserted twice, rows fitting into an empty block: after any history, with any splits, getByKey gives the stored row."
  },
  {
   "property": "C45",
   "status": "partial",
   "theorems": [
    "C45_count_partial",
    "C45_refuted"
   ],
   "note": "REFUTED: C45_refuted: a key inserted twice counts twice. Proved for 1-800 columns, 16-bit keys not inserted twice, rows fitting into an empty block."
  },
  {
   "property": "C46",
   "status": "partial",
   "theorems": [
    "C46_refuted",
    "C46_scan_partial",
    "C46_deleted_shown",
    "C46_surplus"
   ],
   "note": "REFUTED: C46_refuted: rangeScan produces deleted rows. C46_scan_partial describes what it produces in any table all of whose blocks still have a row (marked as deleted or not): the matching rows of the table and the matching rows at positions marked as deleted, each once; so the claim holds exactly if no marked row satisfies the predicates (C46_deleted_shown, C46_surplus). Same guards as C53: 1-800 columns, 16-bit keys not inserted twice, null behind the candidate vector."
  },
  {
   "property": "C47",
   "status": "partial",
   "theorems": [
    "C47_refuted",
    "C47_ub_refuted",
    "C47_first_split",
    "C47_one_leaf_partial",
    "C47_structure_partial"
   ],
   "note": "REFUTED: inserting 10,20,30,40,15,50,60 with M=N=4 makes lookup(20) answer 'not found' (C47_refuted); findLeafNode never uses the rightmost child pointer, so right after the first split every key from the split key on is looked up through an unwritten slot (C47_ub_refuted, and for every history of M+1 distinct keys C47_first_split). C47_one_leaf_partial: histories that fit into one leaf agree with the map. C47_structure_partial: with new keys outside the range of the stored ones, the leaf insert itself descends to holds every entry, at any depth."
  },
  {
   "property": "C48",
   "status": "proved",
   "theorems": [
    "C48_wbptree_insert",
    "C48_wbptree_overwrite",
    "C48_wbptree_lookup",
    "C48_wbptree_new"
   ],
   "note": "For every leaf satisfying the cell-by-cell description good_leaf; lookup and overwriting are covered as well."
  },
  {
   "property": "C49",
   "status": "partial",
   "theorems": [
    "C49_refuted",
    "C49_stale_refuted",
    "C49_dead_partial",
    "C49_one_leaf_partial"
   ],
   "note": "REFUTED: C49_refuted (inverted bit test) C49_stale_refuted: an old value is reported. C49_dead_partial: in any tree all that is reported comes from slots not in use; C49_one_leaf_partial: with up to M keys nothing is reported if there are M, and an unwritten slot is read otherwise."
  },
  {
   "property": "C50",
   "status": "partial",
   "theorems": [
    "C50_assign",
    "C50_reset_partial",
    "C50_reset_refuted"
   ],
   "note": "REFUTED: C50_reset_refuted: reset frees a heap string but keeps the pointer. Proved: all assignment histories (C50_assign), and with resets while at most 15 characters are stored."
  },
  {
   "property": "C51",
   "status": "partial",
   "theorems": [
    "C51_ascending_partial",
    "C51_refuted"
   ],
   "note": "REFUTED: C51_refuted (the scan starts at children[0], which need not be the leftmost child). Proved: histories in ascending key order with keys from 0 below the largest value, trees of any depth, N not a multiple of 64."
  },
  {
   "property": "C52",
   "status": "partial",
   "theorems": [
    "C52_bit_map_partial",
    "C52_refuted",
    "C52_max_refuted",
    "C52_flip_refuted",
    "C52_flip_model"
   ],
   "note": "REFUTED: C52_refuted for negative keys, C52_max_refuted for the largest key, C52_flip_refuted for N = 64 (flip() in splitBranchNode clears the sibling's bits). Proved: every history over the keys from 0 up to but excluding the largest value, any depth, N not a multiple of 64."
  },
  {
   "property": "C53",
   "status": "partial",
   "theorems": [
    "C53_scan_partial",
    "C53_scan_refuted",
    "C53_scan_end_refuted"
   ],
   "note": "REFUTED: the scan stops at an empty block and reads behind the candidate vector. Proved: exact result when no block is empty or has deleted rows and the memory behind the vector reads as null."
  },
  {
   "property": "C54",
   "status": "partial",
   "theorems": [
    "C54_room_partial",
    "C54_refuted"
   ],
   "note": "REFUTED: C54_refuted with 1001 columns; proved up to 800 columns."
  },
  {
   "property": "C55",
   "status": "partial",
   "theorems": [
    "C55_delete_partial",
    "C55_refuted"
   ],
   "note": "REFUTED: C55_refuted: with a string in column 0 the wrong position is marked. Proved when the first column is not a string, for 1-800 columns, 16-bit keys not inserted twice, rows fitting into an empty block."
  },
  {
   "property": "C56",
   "status": "partial",
   "theorems": [
    "C56_safe_partial",
    "C56_ends_partial",
    "C56_refuted"
   ],
   "note": "REFUTED: C56_refuted: division by zero. Proved: rows that fit an empty block are inserted without undefined behaviour and the splitting ends."
  },
  {
   "property": "C57",
   "status": "proved",
   "theorems": [
    "C57_simple_print",
    "C57_crash_count_refuted"
   ],
   "note": "Crash-free histories. C57_crash_count_refuted records that a power failure before the last store leaves the printed count one short."
  },
  {
   "property": "C58",
   "status": "proved",
   "theorems": [
    "C58_random_next",
    "C58_random_uniform",
    "C58_random_one_in",
    "C58_random_skewed"
   ],
   "note": "Every seed; the step is shown to be multiplication by 16807 modulo 2^31-1 with wrap-around of the C++ types modelled."
  },
  {
   "property": "C59",
   "status": "partial",
   "theorems": [
    "C59_wo_crash_partial",
    "C59_wo_crash_refuted",
    "C59_wo_retry_refuted"
   ],
   "note": "REFUTED: between the 2nd and 5th store of a splitting insert the moved entries are unreachable (C59_wo_crash_refuted); an entry whose occupancy bit was stored but not its bound stays invisible and a repeated insert reports a duplicate (C59_wo_retry_refuted). C59_wo_crash_partial proves old-or-new for every other store; missing: stores 2..5 of a split."
  },
  {
   "property": "C60",
   "status": "proved",
   "theorems": [
    "C60_wo_print"
   ],
   "note": "Bottom row of printList; N below 2^64. Higher rows are not covered."
  },
  {
   "property": "C61",
   "status": "proved",
   "theorems": [
    "C61_trie_sub_nodes"
   ],
   "note": "All histories of inserts and removes."
  },
  {
   "property": "C62",
   "status": "partial",
   "theorems": [
    "C62_trie_crash_insert",
    "C62_trie_crash_remove",
    "C62_trie_cut_whole"
   ],
   "note": "Inserts: all crash histories. Histories with removes: proved when no key is a proper prefix of another (otherwise remove itself is wrong, C36). Transactions are atomic by assumption."
  },
  {
   "property": "C63",
   "status": "partial",
   "theorems": [
    "C63_patricia_count_refuted",
    "C63_patricia_count_partial"
   ],
   "note": "REFUTED: a key whose value is false is counted again on each insert. Proved for true values under the conditions of C37 and C38, modulo 2^32."
  },
  {
   "property": "C64",
   "status": "partial",
   "theorems": [
    "C64_refuted",
    "C64_one_leaf_partial",
    "C64_ascending_partial"
   ],
   "note": "REFUTED: the scan starts at children[0], which is not the leftmost child once the leftmost leaf was split. C64_one_leaf_partial: in one leaf the scan lists the map in order. C64_ascending_partial: ascending histories, any depth."
  },
  {
   "property": "C65",
   "status": "partial",
   "theorems": [
    "C65_refuted",
    "C65_absent_refuted",
    "C65_wbptree_erase_full",
    "C65_wbptree_erase_partial",
    "C65_wbptree_erase_absent_partial"
   ],
   "note": "REFUTED: erasing from a full leaf reads behind the slot array (every such erase: C65_wbptree_erase_full), erasing an absent key above all keys uses an unwritten slot. The _partial theorems cover the other leaves: a stored key in a non-full leaf, an absent key below some stored key."
  },
  {
   "property": "C66",
   "status": "partial",
   "theorems": [
    "C66_refuted",
    "C66_wbptree_split_partial",
    "C66_wbptree_bad_split"
   ],
   "note": "REFUTED: if the new key has rank (M+1)/2-1 it becomes the split key while a larger key stays on the left (always: C66_wbptree_bad_split). C66_wbptree_split_partial: no entry is lost, both halves are well-formed, and for every other rank the split key separates them."
  },
  {
   "property": "C67",
   "status": "proved",
   "theorems": [
    "C67_wbptree_merge",
    "C67_wbptree_balance"
   ],
   "note": "For all well-formed leaves; the receiving leaf of a balance must not be empty."
  },
  {
   "property": "C68",
   "status": "partial",
   "theorems": [
    "C68_refuted",
    "C68_flip_refuted",
    "C68_bith_map_partial",
    "C68_ascending_partial"
   ],
   "note": "REFUTED: C68_refuted (negative keys), C68_flip_refuted (M = 64 loses half of a split leaf). C68_bith_map_partial proves the map for keys in [0, max), N and M not multiples of 64; C68_ascending_partial proves the scan for ascending histories."
  },
  {
   "property": "C69",
   "status": "partial",
   "theorems": [
    "C69_refuted",
    "C69_recover_partial",
    "C69_lost",
    "C69_scan"
   ],
   "note": "REFUTED: C69_refuted. Exact condition: with L leaves, the rebuilt tree works iff no digit of L - 1 in base N + 1 is zero (rec_fits): C69_recover_partial proves any history whose restarts meet it, C69_lost proves that otherwise a lookup of the largest keys reads an unset pointer, C69_scan that the scan after a restart is right in both cases."
  },
  {
   "property": "C70",
   "status": "partial",
   "theorems": [
    "C70_refuted",
    "C70_freed_refuted",
    "C70_lost_refuted",
    "C70_bit_erase_partial",
    "C70_bith_erase_partial"
   ],
   "note": "REFUTED: C70_refuted (out-of-bounds read), C70_freed_refuted (a leaf in use is freed), C70_lost_refuted (keys not found). Proved for every history all of whose repairs are of the kinds let through by BitESpec (decided before each erase: entries from the right neighbour, merge into the left neighbour, merge with the last leaf; no repair of branch nodes), keys from 0 below the largest one."
  },
  {
   "property": "C71",
   "status": "partial",
   "theorems": [
    "C71_empty_refuted",
    "C71_first_refuted",
    "C71_wbptree_refuted",
    "C71_fptree_scan",
    "C71_bit_scan",
    "C71_fptree_partial",
    "C71_fptree_erase_partial",
    "C71_unsorted_partial",
    "C71_unsorted_erase_partial",
    "C71_bit_ascending_partial",
    "C71_bith_ascending_partial",
    "C71_wbptree_ascending_partial"
   ],
   "note": "REFUTED: C71_empty_refuted (begin() of an empty tree reads beyond the bitmap or an unset entry), C71_first_refuted and C71_wbptree_refuted (the iteration starts at children[0], which need not be the leftmost child). Proved: FPTree and UnsortedPBPTree holding at least one entry, inserts only with any N, and with erases that meet the conditions of C13_guarded_partial and C15_guarded_partial; BitPBPTree, BitHPBPTree and wBPTree after inserts in ascending order; in any state the iteration agrees with a scan that meets no empty leaf."
  },
  {
   "property": "C72",
   "status": "partial",
   "theorems": [
    "C72_refuted",
    "C72_left_refuted",
    "C72_right_refuted",
    "C72_merge_refuted",
    "C72_freed_refuted",
    "C72_root_refuted",
    "C72_leak_refuted",
    "C72_erase_partial",
    "C72_balance_left",
    "C72_balance_right",
    "C72_merge"
   ],
   "note": "REFUTED: C72_refuted (key of a full leaf), C72_left_refuted and C72_right_refuted (wrong separator), C72_merge_refuted (wrong child dropped), C72_freed_refuted (use after free), C72_root_refuted (inner node made the root), C72_leak_refuted (slot lost).  C72_erase_partial: right for every history whose repairs are all of the kinds let through by WbESpec (last leaf takes entries from its left neighbour, leafs merged, root merged away), trees of any depth; keys are looked for where insert and erase look, not by findLeafNode (C47).  C72_balance_left, C72_balance_right, C72_merge: balanceBranchNodes and mergeBranchNodes leave the right keys and children in every cell, for all nodes; the donor keeps exactly one position marked that no slot leads to."
  },
  {
   "property": "C73",
   "status": "partial",
   "theorems": [
    "C73_ascending_partial",
    "C73_refuted",
    "C73_range_refuted",
    "C73_ub_refuted"
   ],
   "note": "REFUTED: the scan starts at children[0], which is not the first leaf after a split to the left (C73_refuted); range scan and lookup take branch keys in the order of their positions (C73_range_refuted) and follow an unwritten slot above the last separator (C73_ub_refuted). Proved: ascending inserts with restarts at leaf counts that recover gets right are scanned right. A range scan in the positive direction is covered after a restart only (C74_reads)."
  },
  {
   "property": "C74",
   "status": "partial",
   "theorems": [
    "C74_recover_partial",
    "C74_reads",
    "C74_refuted"
   ],
   "note": "REFUTED: with a leaf count minus one that has a zero digit in base N + 1 the recovered tree has a node whose only child is not where insert and erase look (C74_refuted). Proved: if no restart has such a count, histories of inserts whose new keys lie outside the stored ones mean the map (C74_recover_partial); for any count, scan after the restart is right and lookup and range scan are right where defined, and exactly what is undefined (C74_reads). Missing: new keys between stored ones, erases before a restart."
  },
  {
   "property": "C75",
   "status": "partial",
   "theorems": [
    "C75_erase_partial",
    "C75_refuted",
    "C75_separator_refuted",
    "C75_merge_refuted",
    "C75_root_refuted"
   ],
   "note": "REFUTED: separator read from the wrong position (C75_separator_refuted, a history that wBPTree gets right), key of a full leaf (C75_refuted), merged branch nodes (C75_merge_refuted), node made the root of the whole tree (C75_root_refuted). Proved: histories whose repairs are of the kinds let through by WbESpec and WhESpec mean the map and erase returns whether the key was there. Missing: restarts in between."
  },
  {
   "property": "C76",
   "status": "partial",
   "theorems": [
    "C76_bit_atomic",
    "C76_fptree_atomic",
    "C76_sorted_refuted",
    "C76_unsorted_refuted",
    "C76_sorted_partial",
    "C76_sorted_stores",
    "C76_unsorted_partial",
    "C76_unsorted_stores"
   ],
   "note": "REFUTED for PBPTree (C76_sorted_refuted: lookup of 30 answers the value of 20) and UnsortedPBPTree (C76_unsorted_refuted: the last entry is lost, or gets the value of the erased one). Proved for BitPBPTree and FPTree (one store). For the other two the partial theorems say which slots are untouched at every failure point and that erasing the last entry is atomic."
  },
  {
   "property": "C77",
   "status": "partial",
   "theorems": [
    "C77_fptree_refuted",
    "C77_bit_refuted",
    "C77_sorted_refuted",
    "C77_unsorted_refuted",
    "C77_fptree_partial",
    "C77_bit_partial",
    "C77_sorted_partial",
    "C77_sorted_stores",
    "C77_unsorted_partial",
    "C77_unsorted_stores"
   ],
   "note": "REFUTED for all four classes: moved entries leave the full leaf before the sibling is linked (C77_fptree_refuted, C77_bit_refuted, C77_sorted_refuted, C77_unsorted_refuted). For FPTree, BitPBPTree and PBPTree the partial theorems give the exact failure points at which nothing is missing from the list, and at every point the two leaves hold exactly the old entries; for UnsortedPBPTree no entry is destroyed."
  },
  {
   "property": "C78",
   "status": "partial",
   "theorems": [
    "C78_insert_refuted",
    "C78_leak_refuted",
    "C78_reuse_refuted",
    "C78_insert_partial",
    "C78_erase_refuted",
    "C78_erase_partial"
   ],
   "note": "REFUTED: entries are lost or listed twice while slots are moved (C78_insert_refuted, C78_erase_refuted, also a read of a slot never written); bitmap and slots can disagree afterwards, so that a later insert writes out of bounds (C78_leak_refuted, wBPTree) or overwrites an entry (C78_reuse_refuted, wHBPTree). The partial theorems give the exact failure points at which every old entry is listed, and what is never lost."
  },
  {
   "property": "C79",
   "status": "partial",
   "theorems": [
    "C79_refuted",
    "C79_partial"
   ],
   "note": "REFUTED: the counter of the full leaf is cut in the second store, the sibling linked in the last but one (C79_refuted). C79_partial: these are the only failure points at which something is missing; nothing is destroyed in the full leaf, and nothing wrong is listed."
  },
  {
   "property": "C80",
   "status": "partial",
   "theorems": [
    "C80_counter_refuted",
    "C80_bit_refuted",
    "C80_fptree_refuted",
    "C80_sorted_partial",
    "C80_unsorted_partial",
    "C80_bit_partial",
    "C80_fptree_partial"
   ],
   "note": "REFUTED: C80_counter_refuted (between the counter and the link the moved entries are listed twice), C80_bit_refuted (listed twice from the first bit on), C80_fptree_refuted (bit before the slot: uninitialised memory is read, an erased key reappears). What holds at every failure point: no entry is lost, the leaves behind stay listed, nothing foreign appears (FPTree: between two entries only), with the exact store numbers."
  },
  {
   "property": "C81",
   "status": "partial",
   "theorems": [
    "C81_sorted_refuted",
    "C81_unsorted_refuted",
    "C81_bit_refuted",
    "C81_fptree_refuted",
    "C81_sorted_right_partial",
    "C81_sorted_left_partial",
    "C81_unsorted_partial",
    "C81_bit_partial",
    "C81_fptree_partial"
   ],
   "note": "REFUTED: C81_sorted_refuted (an entry of the receiver is lost and a key has another key's value), C81_unsorted_refuted (the entry that fills the gap is lost), C81_bit_refuted (an entry is in both leaves), C81_fptree_refuted (bit before the slot: uninitialised memory is read). The _partial theorems say at which failure points what holds: nothing lost at any point for BitPBPTree, FPTree and for PBPTree with the receiver on the left; one key at most affected for UnsortedPBPTree; donor intact until the last store for PBPTree with the receiver on the right."
  },
  {
   "property": "C82",
   "status": "proved",
   "theorems": [
    "C82_reverse",
    "C82_involution",
    "C82_assert"
   ],
   "note": ""
  },
  {
   "property": "C83",
   "status": "proved",
   "theorems": [
    "C83_bits",
    "C83_toString",
    "C83_negative"
   ],
   "note": "C83_negative: what happens for sizes from -7 to -1 (eight bits come out)."
  },
  {
   "property": "C84",
   "status": "partial",
   "theorems": [
    "C84_refuted",
    "C84_partial"
   ],
   "note": "REFUTED: C84_refuted (next ignores the size and writes four bytes; RNGBin allocates one byte). C84_partial says exactly when the two are defined."
  },
  {
   "property": "C85",
   "status": "partial",
   "theorems": [
    "C85_refuted",
    "C85_partial"
   ],
   "note": "REFUTED: C85_refuted (the constructor for CHARACTERS writes through an unassigned pointer). C85_partial: the n-th key for DIGITS is n modulo 2^32 in big endian; the string after a string comes later."
  },
  {
   "property": "C86",
   "status": "partial",
   "theorems": [
    "C86_refuted",
    "C86_partial",
    "C86_exact"
   ],
   "note": "REFUTED: C86_refuted (32-bit counter). C86_partial: every answer is right modulo 2^32; C86_exact: right while the sums are below 2^32."
  },
  {
   "property": "C87",
   "status": "partial",
   "theorems": [
    "C87_refuted",
    "C87_partial",
    "C87_setColumns",
    "C87_counts"
   ],
   "note": "REFUTED: C87_refuted (fewer names than elements: reads behind the list; a name with a NUL is cut). C87_partial: right for the right number of NUL-free names; C87_counts: what happens with other numbers."
  },
  {
   "property": "C88",
   "status": "partial",
   "theorems": [
    "C88_refuted",
    "C88_branch_refuted",
    "C88_duplicate_refuted",
    "C88_root_refuted",
    "C88_pbptree_partial",
    "C88_unsorted_partial"
   ],
   "note": "REFUTED: C88_refuted (entries of the new sibling are not found although the scan lists them), C88_branch_refuted (the same one level up), C88_duplicate_refuted (inserting a hidden key again stores it twice), C88_root_refuted (rootNode stored before depth: a branch node is read as a leaf). The _partial theorems: lookups are right except for one interval of keys, which holds at most M*(N+1)^c entries, and the full scan reports everything with the new entry; PBPTree after any history, UnsortedPBPTree after inserts. Failures inside the update of one node are C17-C19 and C76-C81."
  },
  {
   "property": "C89",
   "status": "proved",
   "theorems": [
    "C89_fptree_lookup",
    "C89_fptree_scan",
    "C89_hpbptree"
   ],
   "note": "FPTree: all sequences of inserts, restarts and interrupted inserts with restart. HPBPTree: one interrupted insert after any insert/erase history, lookups and scan directly after recover() (later histories are false, C11). The update of one node is one step here."
  },
  {
   "property": "C90",
   "status": "partial",
   "theorems": [
    "C90_refuted",
    "C90_balance_refuted",
    "C90_first_partial",
    "C90_hpbptree",
    "C90_hpbptree_first",
    "C90_root_refuted"
   ],
   "note": "REFUTED for PBPTree: C90_refuted (a merged leaf is freed while its parent still points to it: lookup reads freed memory), C90_balance_refuted (moved entries are not found because the separator is old). C90_first_partial: as long as the underflow has not been handled all lookups and later inserts are right. C90_hpbptree, C90_hpbptree_first: the restart of HPBPTree repairs both. C90_root_refuted: an erase that takes away the root and is interrupted before the root pointer is stored."
  },
  {
   "property": "C91",
   "status": "partial",
   "theorems": [
    "C91_refuted",
    "C91_lost_refuted",
    "C91_hpbptree_refuted",
    "C91_hpbptree_lost_refuted",
    "C91_partial",
    "C91_lone"
   ],
   "note": "REFUTED (C91_refuted, C91_lost_refuted; HPBPTree: C91_hpbptree_refuted, C91_hpbptree_lost_refuted): recover() leaves branch nodes of the right edge with too few keys, an erase there hits assert(false) or replaces the whole tree by one leaf. C91_lone: this happens at every restart whose number of leaves is 1 modulo N + 1 (last leaf at its minimum). C91_partial: FPTree is the map over all histories of inserts, erases, restarts and interrupted inserts/erases if no restart leaves a node of the right edge with fewer than two keys (and balancing goes the right way, as in C15)."
  },
  {
   "property": "C92",
   "status": "partial",
   "theorems": [
    "C92_refuted",
    "C92_dead_partial",
    "C92_one_leaf_partial"
   ],
   "note": "REFUTED: C92_refuted (the bit test is the wrong way round as in BitPBPTree; an old value is reported and stored keys are missing). C92_dead_partial and C92_one_leaf_partial as for C49."
  },
  {
   "property": "C93",
   "status": "proved",
   "theorems": [
    "C93_bptree_erase_exact",
    "C93_bptree_erase_any_history",
    "C93_hpbptree_erase_exact",
    "C93_hpbptree_erase_any_history",
    "C93_after_stored"
   ],
   "note": "AbsentSpec: slot_kind decides by the slots of one leaf; with odd N the condition of PathSpec on branch nodes joins in; after lists the possible maps. C93_after_stored: with erases of stored keys only it is the map of C01."
  },
  {
   "property": "C94",
   "status": "proved",
   "theorems": [
    "C94_unsorted_erase_any",
    "C94_loses_stored"
   ],
   "note": "AbsentSpec: uslot_kind decides by the slot behind the last entry of one leaf, ulast is the key that goes; leaf_guard/rm_ok (EraseSpec) and path_ok (PathSpec) are the conditions of C13; loses lists the possible maps. Histories with an erase that frees a linked leaf are excluded (unspoilt). C94_loses_stored: with erases of stored keys only it is the map of C01."
  },
  {
   "property": "C95",
   "status": "proved",
   "theorems": [
    "C95_wbptree_sizes",
    "C95_fptree_sizes",
    "C95_pbptree_sizes",
    "C95_bitpbptree_leaf_size",
    "C95_woPSkiplist_size"
   ],
   "note": "Any key, value and pointer sizes and target sizes (keys of at least one byte). The layouts are stated with paddings as relations, not with the formulas of the code. If nothing fits the template recursion runs below zero (UB)."
  },
  {
   "property": "C96",
   "status": "partial",
   "theorems": [
    "C96_bitpbptree_branch_fits",
    "C96_bitpbptree_branch_largest",
    "C96_bitpbptree_branch_largest_refuted"
   ],
   "note": "REFUTED: C96_bitpbptree_branch_largest_refuted. getBranchKeysBitPBPTree<KEYS> goes on with getBranchKeyswBPTree<KEYS - 1>; with keys of 8 bytes and a target of 2112 bytes it answers 61 although 64 keys fit. Positive: the answer always fits; it is the largest whenever the first candidate is at most 64."
  },
  {
   "property": "C97",
   "status": "partial",
   "theorems": [
    "C97_bench_insert_all",
    "C97_bench_insert_once",
    "C97_bench_insert_leaf_once",
    "C97_bench_insert_once_refuted",
    "C97_bench_insert_once_iff"
   ],
   "note": "REFUTED for exactly once: C97_bench_insert_once_refuted (depth 2, and C97_leaf_ex for a single leaf with an odd number of keys). Positive for any numbers and depths: the loops end and exactly the keys 1..ELEMENTS are inserted; once each with depth 1 and with depth 0 and an even number. Measuring and output are not modelled; ELEMENTS is taken to fit an int.  C97_bench_insert_once_iff: exactly when no key is inserted twice (never from depth 2 on)."
  },
  {
   "property": "C98",
   "status": "proved",
   "theorems": [
    "C98_ipow",
    "C98_hibit_pos",
    "C98_points"
   ],
   "note": "ipow for any base and exponent, modulo 2^64; hibit_pos with >> rounding down, a negative argument loops for ever; createPointVector for any size."
  },
  {
   "property": "C99",
   "status": "partial",
   "theorems": [
    "C99_bench_tree_partial",
    "C99_bench_depth_refuted"
   ],
   "note": "REFUTED: C99_bench_depth_refuted. With the values in the file (leaves of 18, branch nodes of 14 keys, TARGET_DEPTH 1) the tree has depth 2 and two half-full leaves. Positive for any capacities and depths: the tree maps exactly the keys 1..ELEMENTS to their tuples, has at least the wanted depth, and if it has the wanted depth all its nodes are full. Examples with odd leaf capacities have the wanted depth; not proved in general."
  }
 ]
}
