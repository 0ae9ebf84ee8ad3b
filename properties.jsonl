{"id": "C01", "title": "PBPTree behaves like an ordered map", "statement": "For a PBPTree with leaf capacity M >= 2 and even branch capacity N >= 6, after any sequence of insert(k,v) and erase(k) calls in which erase is only called for keys that are currently stored, every lookup(k) returns true with the value of the most recent insert of k not followed by an erase of k, and false otherwise; erase returns true; no call reads or writes outside a node array, dereferences a null or freed node, or reads an uninitialised slot.", "quantifier": "every M >= 2, every even N >= 6, every finite history of insert/lookup/erase with arbitrary keys and values (erase on present keys), every intermediate state", "why_tests_cant": "the number of histories, fan-outs and tree shapes (splits, borrow-left, borrow-right, merges at several levels) is unbounded; unit tests fix N, M and a few key orders", "anchors": ["/repo/src/pbptrees/PBPTree.hpp: insert, lookup, erase, insertInLeafNode, splitLeafNode, insertInBranchNode, splitBranchNode, eraseFromBranchNode, underflowAtLeafLevel, underflowAtBranchLevel, mergeLeafNodes, mergeBranchNodes, balanceLeafNodes, balanceBranchNodes"]}
{"id": "C02", "title": "PBPTree full scan", "statement": "After any such history scan(func) calls func exactly once for each stored entry, in strictly ascending key order, with the current value, and terminates.", "quantifier": "every history as in C01, every tree shape", "why_tests_cant": "depends on the leaf chain built by all previous splits and merges", "anchors": ["/repo/src/pbptrees/PBPTree.hpp: scan(ScanFunc), splitLeafNode, mergeLeafNodes"]}
{"id": "C03", "title": "PBPTree range scan", "statement": "After any such history scan(lo,hi,func) calls func exactly for the stored entries with lo <= key <= hi, once each, in ascending key order; also for empty ranges and lo > hi.", "quantifier": "every history as in C01, every pair of bounds", "why_tests_cant": "bounds may fall inside, between, before or after any leaf; tests use a handful of bounds", "anchors": ["/repo/src/pbptrees/PBPTree.hpp: scan(minKey,maxKey,func), findLeafNode"]}
{"id": "C04", "title": "PBPTree erase of an absent key", "statement": "erase(k) for a key that is not stored returns false and changes nothing.", "quantifier": "every history of insert/erase/lookup, every absent key", "why_tests_cant": "whether an absent key hits a leftover slot depends on the exact history", "anchors": ["/repo/src/pbptrees/PBPTree.hpp: eraseFromLeafNode, eraseFromLeafNodeAtPosition"]}
{"id": "C05", "title": "PBPTree works for every branch capacity its static_assert admits", "statement": "The ordered-map behaviour of C01 holds for every N accepted by the class (even N > 2), in particular N = 4.", "quantifier": "every admitted N, every history", "why_tests_cant": "tests use a few fixed capacities", "anchors": ["/repo/src/pbptrees/PBPTree.hpp: static_assert, splitBranchNode, underflowAtLeafLevel, underflowAtBranchLevel"]}
{"id": "C06", "title": "PBPTree height and occupancy", "statement": "After any history as in C01 all leaves are at the same distance from the root, every node except the root holds at least M/2 entries (leaf) or N/2-1 keys (branch), no node exceeds its capacity, so a tree of height d >= 1 stores at least 2*(N/2)^(d-1)*(M/2) entries: height is logarithmic in the number of entries.", "quantifier": "every history as in C01, every even N >= 6, M >= 2", "why_tests_cant": "worst-case occupancy only shows under adversarial interleavings of inserts and erases", "anchors": ["/repo/src/pbptrees/PBPTree.hpp: splitLeafNode, splitBranchNode, underflowAtLeafLevel, underflowAtBranchLevel, balanceLeafNodes, balanceBranchNodes"]}
{"id": "C07", "title": "PBPTree iterator enumerates the tree", "statement": "Iterating from begin() to end() yields exactly the stored entries in ascending key order; on an empty tree begin() == end().", "quantifier": "every history as in C01", "why_tests_cant": "iteration over all tree shapes, including emptied trees", "anchors": ["/repo/src/pbptrees/PBPTree.hpp: iterator, begin, end"]}
{"id": "C08", "title": "BPTree (volatile) behaves like an ordered map", "statement": "For a BPTree with M >= 2 and even N >= 6 the behaviour of C01-C03 holds (insert, lookup, erase of present keys, scan, range scan).", "quantifier": "every M >= 2, even N >= 6, every history", "why_tests_cant": "no unit test exists for BPTree; unbounded histories and shapes", "anchors": ["/repo/src/pbptrees/BPTree.hpp: insert, lookup, erase, scan, insertInLeafNode, insertInBranchNode, eraseFromBranchNode, underflowAtLeafLevel, underflowAtBranchLevel"]}
{"id": "C09", "title": "BPTree with odd branch capacity", "statement": "BPTree admits odd N (static_assert N > 2); no operation writes past the end of a branch node.", "quantifier": "every admitted N, every history", "why_tests_cant": "the overflow needs a particular merge after a particular split pattern", "anchors": ["/repo/src/pbptrees/BPTree.hpp: mergeBranchNodes, underflowAtBranchLevel, splitBranchNode"]}
{"id": "C10", "title": "HPBPTree behaves like an ordered map", "statement": "For a freshly created HPBPTree with M >= 2 and even N >= 6 the behaviour of C01-C03 holds as long as recover() is not called.", "quantifier": "every M >= 2, even N >= 6, every history", "why_tests_cant": "unbounded histories and shapes", "anchors": ["/repo/src/pbptrees/HPBPTree.hpp: insert, lookup, erase, scan, insertInLeafNode, insertInBranchNode, eraseFromBranchNode"]}
{"id": "C11", "title": "HPBPTree recovery keeps the data usable", "statement": "After recover() rebuilt the volatile branch nodes from the persistent leaf list, every entry is still found, and further inserts do not make any entry disappear.", "quantifier": "every leaf list reachable by a history, every subsequent insert history", "why_tests_cant": "requires reasoning over all leaf lists and all later operations", "anchors": ["/repo/src/pbptrees/HPBPTree.hpp: recover, recoveryInsert, insertInBranchNode"]}
{"id": "C12", "title": "UnsortedPBPTree insert and lookup", "statement": "For an UnsortedPBPTree with M >= 2 and even N >= 4, after any sequence of inserts every lookup(k) returns the value of the last insert of k and false for keys never inserted; scan reports each entry exactly once, leaves in ascending ranges; no out-of-bounds or uninitialised access.", "quantifier": "every M >= 2, even N >= 4, every insert history", "why_tests_cant": "unsorted leaves make the split depend on the arrival order: M! orders per leaf", "anchors": ["/repo/src/pbptrees/UnsortedPBPTree.hpp: insert, lookup, scan, insertInLeafNode, splitLeafNode, insertInBranchNode, splitBranchNode"]}
{"id": "C13", "title": "UnsortedPBPTree erase is memory safe", "statement": "erase of a present key never frees a node that is still linked into the tree.", "quantifier": "every history of insert and erase of present keys", "why_tests_cant": "needs a right-merge underflow with a following leaf, and freed persistent memory often still reads back the old bytes", "anchors": ["/repo/src/pbptrees/UnsortedPBPTree.hpp: underflowAtLeafLevel, mergeLeafNodes, deleteLeafNode"]}
{"id": "C14", "title": "FPTree insert and lookup", "statement": "For an FPTree with M >= 2 and even N >= 4, after any sequence of inserts every lookup(k) returns the value of the last insert of k and false for keys never inserted, whatever the fingerprint collisions; scan reports each stored entry exactly once.", "quantifier": "every M >= 2, even N >= 4, every insert history, every fingerprint function", "why_tests_cant": "fingerprint collisions and unsorted leaves with bitmaps give unboundedly many leaf layouts", "anchors": ["/repo/src/pbptrees/FPTree.hpp: insert, lookup, scan, insertInLeafNode, splitLeafNode, lookupPositionInLeafNode, insertInBranchNode, splitBranchNode"]}
{"id": "C15", "title": "FPTree erase keeps all other entries", "statement": "erase(k) of a present key removes exactly k: every other key is still found afterwards.", "quantifier": "every history of insert and erase of present keys", "why_tests_cant": "the leaf rebalancing direction depends on stale slots left by earlier erases", "anchors": ["/repo/src/pbptrees/FPTree.hpp: eraseFromLeafNode, underflowAtLeafLevel, balanceLeafNodes"]}
{"id": "C16", "title": "FPTree recovery preserves the contents", "statement": "For any persistent leaf list reachable by inserts, recover() builds volatile branch nodes such that lookup finds exactly the entries stored in the leaves, and inserts and lookups after the recovery again behave like a map.", "quantifier": "every number of leaves, every leaf contents, every later insert history", "why_tests_cant": "tree shape after bulk rebuild depends on the number of leaves; tests recover one or two sizes", "anchors": ["/repo/src/pbptrees/FPTree.hpp: recover, recoveryInsertInBranchNode, recoveryInsert"]}
{"id": "C17", "title": "Leaf insert is failure-atomic in bitmap leaves", "statement": "If power fails between any two stores of inserting a new key into a non-full BitPBPTree or UnsortedPBPTree leaf (stores becoming durable in program order), the leaf contains either exactly the old entries or exactly the old entries plus the new one.", "quantifier": "every leaf state, every key, every crash point (store prefix)", "why_tests_cant": "crash points cannot be enumerated by running the program", "anchors": ["/repo/src/pbptrees/BitPBPTree.hpp: insertInLeafNodeAtPosition", "/repo/src/pbptrees/UnsortedPBPTree.hpp: insertInLeafNodeAtLastPosition"]}
{"id": "C18", "title": "Leaf insert is failure-atomic in sorted leaves", "statement": "If power fails between any two stores of inserting a new key into a non-full PBPTree leaf, the leaf contains either exactly the old entries or the old entries plus the new one.", "quantifier": "every leaf state, every key, every crash point", "why_tests_cant": "crash points cannot be enumerated by running the program", "anchors": ["/repo/src/pbptrees/PBPTree.hpp: insertInLeafNodeAtPosition"]}
{"id": "C19", "title": "Leaf insert is failure-atomic in FPTree", "statement": "If power fails between any two stores of inserting a new key into a non-full FPTree leaf, lookup on the surviving leaf answers either as before or as after the insert for every key, and lookup agrees with scan.", "quantifier": "every leaf state, every key, every crash point", "why_tests_cant": "crash points cannot be enumerated by running the program", "anchors": ["/repo/src/pbptrees/FPTree.hpp: insertInLeafNodeAtPosition"]}
{"id": "C20", "title": "Bitmap operations", "statement": "For a Bitmap<n>, n not a multiple of 64: after any sequence of set/reset/flip operations on valid positions test(i) reports exactly the last written state of bit i, count() equals the number of set bits, all() is true iff all n bits are set; bits beyond n never become visible.", "quantifier": "every n, every operation sequence, every 64-bit word value", "why_tests_cant": "2^n states; the SWAR population count and masking must be right for all words", "anchors": ["/repo/src/utils/Bitmap.hpp: set, reset, flip, test, count, all, sanitize"]}
{"id": "C21", "title": "Bitmap free-slot search", "statement": "getFreeZero() returns the smallest clear position, or n if there is none; getFirstSet() returns the smallest set position, or n if there is none.", "quantifier": "every n, every bitmap contents", "why_tests_cant": "2^n states; relies on a de Bruijn multiplication being injective on all 64 bit positions", "anchors": ["/repo/src/utils/Bitmap.hpp: getFreeZero, getFirstSet, tab64"]}
{"id": "C22", "title": "Bitmap set()/flip() for sizes that are multiples of 64", "statement": "set() on Bitmap<64k> sets all bits and flip() inverts all bits.", "quantifier": "every n that is a multiple of 64", "why_tests_cant": "no unit test covers Bitmap; needs the boundary size", "anchors": ["/repo/src/utils/Bitmap.hpp: set, flip, sanitize"]}
{"id": "C23", "title": "Random generator range", "statement": "For every seed, every value returned by Next() lies in [1, 2^31-2], Uniform(n) in [0,n), OneIn never fails; the generator never gets stuck at 0, and Next() equals multiplication by 16807 modulo 2^31-1.", "quantifier": "every 32-bit seed, every number of draws", "why_tests_cant": "2^31 seeds and arbitrarily long streams", "anchors": ["/repo/src/utils/Random.hpp: Random, Next, Uniform, Skewed"]}
{"id": "C24", "title": "Binary search", "statement": "On a strictly ascending array prefix of any length, binarySearch<false> returns the number of keys smaller than the searched key, binarySearch<true> the number of keys less than or equal to it; it only reads positions inside the prefix.", "quantifier": "every array, every prefix length including 0, every key", "why_tests_cant": "all lengths and positions", "anchors": ["/repo/src/utils/SearchFunctions.hpp: binarySearch"]}
{"id": "C25", "title": "Slot-array binary search", "statement": "On a node whose slot array lists its entries in strictly ascending key order, the slot variant of binarySearch returns the insertion point.", "quantifier": "every key array, slot array and prefix length", "why_tests_cant": "all permutations of slots", "anchors": ["/repo/src/utils/SearchFunctions.hpp: binarySearch (slots)", "/repo/src/pbptrees/wBPTree.hpp: lookupPositionInLeafNode"]}
{"id": "C26", "title": "Rank selection", "statement": "elementOfRankK(k, data, 0, n) terminates and returns the k-th smallest element for every array of n >= k >= 1 distinct non-negative keys; findSplitKey marks exactly the keys smaller than the median and returns the median's position.", "quantifier": "every array length and permutation", "why_tests_cant": "n! permutations", "anchors": ["/repo/src/utils/SearchFunctions.hpp: elementOfRankK, findMedian, partition, findSplitKey"]}
{"id": "C27", "title": "Rank selection with negative keys", "statement": "findSplitKey marks exactly the keys smaller than the median also when keys may be negative.", "quantifier": "every array of signed keys", "why_tests_cant": "tests only use non-negative keys", "anchors": ["/repo/src/utils/SearchFunctions.hpp: elementOfRankK, findSplitKey"]}
{"id": "C28", "title": "Min/max key search in nodes", "statement": "findMinKeyPos/findMaxKeyPos return a live position holding the minimum/maximum live key of a non-empty node; findMinKeyPosGreaterThan returns the position of the smallest live key greater than the argument and N if there is none, provided no live key equals the type's maximum.", "quantifier": "every node contents, every bitmap", "why_tests_cant": "2^N bitmaps times all key orders", "anchors": ["/repo/src/utils/SearchFunctions.hpp: findMinKeyPos, findMaxKeyPos, findMinKeyPosGreaterThan, findMaxKeyPosSmallerThan"]}
{"id": "C29", "title": "simplePSkiplist behaves like a map", "statement": "After any sequence of inserts of keys strictly between the head and tail sentinels, search(k) finds k with the latest value iff it was inserted; insert returns true iff the key is new; for every outcome of the random levels.", "quantifier": "every insert history, every sequence of random levels", "why_tests_cant": "randomised levels: the number of shapes is exponential", "anchors": ["/repo/src/pskiplists/simplePSkiplist.hpp: insert, search, getRandomLevel, initList"]}
{"id": "C30", "title": "simplePSkiplist accepts every key", "statement": "insert(k,v) followed by search(k) finds v for every key of the key type, including its smallest value.", "quantifier": "every key of the type", "why_tests_cant": "boundary key only", "anchors": ["/repo/src/pskiplists/simplePSkiplist.hpp: insert, search"]}
{"id": "C31", "title": "simplePSkiplist insert is failure-atomic", "statement": "If power fails between any two stores of an insert of a new key (in program order), search on the surviving list finds exactly the old keys, or the old keys plus the new one.", "quantifier": "every list, every key, every level, every crash point", "why_tests_cant": "crash points cannot be enumerated by running the program", "anchors": ["/repo/src/pskiplists/simplePSkiplist.hpp: insert"]}
{"id": "C32", "title": "woPSkiplist behaves like a map", "statement": "For a woPSkiplist with at least two slots per node, after any sequence of inserts of non-negative keys, search finds a key iff it was inserted, for every outcome of the random levels and every split.", "quantifier": "every insert history, every sequence of random levels, every node capacity", "why_tests_cant": "node splits interact with the unsorted slots and random levels", "anchors": ["/repo/src/pskiplists/woPSkiplist.hpp: insert, search, searchNode, splitNode, insertInNode"]}
{"id": "C33", "title": "woPSkiplist with negative keys", "statement": "The map behaviour also holds for signed key types with negative keys.", "quantifier": "every insert history", "why_tests_cant": "needs a split of a node with mixed signs", "anchors": ["/repo/src/pskiplists/woPSkiplist.hpp: splitNode", "/repo/src/utils/SearchFunctions.hpp: findSplitKey"]}
{"id": "C34", "title": "BaseTrie insert and lookup", "statement": "After any sequence of insert(key,value) calls with keys shorter than 256 bytes, lookup(key) returns the value of the last insert of that key, and false for keys never inserted.", "quantifier": "every insert history, every byte-string key of length < 256", "why_tests_cant": "all byte strings and shared-prefix patterns", "anchors": ["/repo/src/ptries/BaseTrie.hpp: insert, lookup", "/repo/src/ptries/PTreeNode.hpp: setChild, setKey"]}
{"id": "C35", "title": "BaseTrie long keys", "statement": "The lookup guarantee holds for keys of any length.", "quantifier": "every key length", "why_tests_cant": "needs keys longer than 255 bytes", "anchors": ["/repo/src/ptries/BaseTrie.hpp: lookup"]}
{"id": "C36", "title": "BaseTrie remove", "statement": "remove(key) makes key disappear and leaves every other key untouched.", "quantifier": "every history", "why_tests_cant": "prefix relations between removed and remaining keys", "anchors": ["/repo/src/ptries/BaseTrie.hpp: remove", "/repo/src/ptries/PTreeNode.hpp: unsetChild, deleteAllNode"]}
{"id": "C37", "title": "Patricia trie insert and lookup", "statement": "After any sequence of inserts lookup(key) is true exactly for the inserted keys and yields their values.", "quantifier": "every insert history, every byte-string key", "why_tests_cant": "all byte strings and shared bit-prefix patterns", "anchors": ["/repo/src/ptries/Patricia.hpp: insert, branchNode, lookup, MATCH_KEY"]}
{"id": "C38", "title": "Patricia trie remove", "statement": "remove(key) makes key disappear and leaves every other key untouched.", "quantifier": "every history", "why_tests_cant": "prefix relations between removed and remaining keys", "anchors": ["/repo/src/ptries/Patricia.hpp: remove, deleteNode"]}
{"id": "C39", "title": "Tuple serialisation round trip", "statement": "For every value built from fixed-width integers, strings, vectors and tuples (nested arbitrarily), deserialising the bytes produced by serialize returns the same value and consumes exactly the bytes written; get_size equals the number of bytes written; consecutive values in one buffer do not interfere.", "quantifier": "every value of every such type, every byte suffix following it", "why_tests_cant": "unbounded nesting and lengths", "anchors": ["/repo/src/ptable/core/serialize.hpp: get_size, serialize, deserialize"]}
{"id": "C40", "title": "BDCC masks", "statement": "For dimensions with bit widths summing to at most 32, the masks derived for the clustering key are pairwise disjoint, together cover exactly the low-order sum-of-widths bits, and each has exactly its dimension's width bits set.", "quantifier": "every number of dimensions, all widths with sum <= 32", "why_tests_cant": "all width combinations", "anchors": ["/repo/src/ptable/core/BDCCInfo.hpp: BDCCInfo, deriveMasks"]}
{"id": "C41", "title": "BDCC value range", "statement": "The clustering value computed for a tuple is below 2^(number of bins), so a block accepting it always exists: initially and after every block split the block ranges partition [0, 2^bins-1].", "quantifier": "every tuple, every sequence of block splits", "why_tests_cant": "all tuples and split histories", "anchors": ["/repo/src/ptable/PTable.hpp: getBDCCFromTuple, insert, splitBlock, init"]}
{"id": "C42", "title": "Minipage layout fits the block", "statement": "The sizes computed for the minipages of a block are all within the payload and their sum never exceeds it, for every column layout.", "quantifier": "every list of column types", "why_tests_cant": "all column layouts", "anchors": ["/repo/src/ptable/PTable.hpp: calcMinipageSizes, initBlock"]}
{"id": "C43", "title": "SMA-based block pruning is sound", "statement": "A block is skipped during a range scan only if none of its tuples can satisfy the range predicate: the min/max kept per integer column always bound every stored value.", "quantifier": "every insertion history, every predicate", "why_tests_cant": "all data distributions", "anchors": ["/repo/src/ptable/PTable.hpp: insertTuple, getCandidateBlocks, isPTupleinRange"]}
{"id": "C44", "title": "Block split keeps every row reachable by key", "statement": "When inserting a row splits a block, every row already stored is still returned by getByKey for its key.", "quantifier": "every key value of the key type, every table content", "why_tests_cant": "needs large keys and enough rows to split a 32 KiB block", "anchors": ["/repo/src/ptable/PTable.hpp: splitBlock, insert, getByKey"]}
{"id": "C45", "title": "Row count", "statement": "count() equals the number of distinct keys inserted and not deleted.", "quantifier": "every history of insert/deleteByKey, including duplicate keys", "why_tests_cant": "all histories", "anchors": ["/repo/src/ptable/PTable.hpp: insert, deleteByKey, count"]}
{"id": "C46", "title": "Deleted rows are not scanned", "statement": "A row deleted with deleteByKey is not produced by a later rangeScan.", "quantifier": "every history, every predicate", "why_tests_cant": "all histories", "anchors": ["/repo/src/ptable/PTable.hpp: deleteByKey, rangeScan, BlockIterator"]}
{"id": "C47", "title": "wBPTree insert keeps all entries", "statement": "After any sequence of inserts into a wBPTree every inserted key is found.", "quantifier": "every insert history", "why_tests_cant": "slot-array splits depend on arrival order", "anchors": ["/repo/src/pbptrees/wBPTree.hpp: insertInLeafNode, splitLeafNode, findLeafNode"]}
{"id": "C48", "title": "wBPTree leaf insert keeps the slot order", "statement": "Inserting into a non-full wBPTree leaf keeps the slot array a duplicate-free enumeration of exactly the used positions in ascending key order.", "quantifier": "every leaf state, every key", "why_tests_cant": "all slot permutations", "anchors": ["/repo/src/pbptrees/wBPTree.hpp: insertInLeafNodeAtPosition, lookupPositionInLeafNode"]}
{"id": "C49", "title": "BitPBPTree range scan", "statement": "scan(lo,hi,func) reports exactly the stored entries within the range.", "quantifier": "every history, every range", "why_tests_cant": "all histories and ranges", "anchors": ["/repo/src/pbptrees/BitPBPTree.hpp: scan(minKey,maxKey,func)", "/repo/src/pbptrees/BitHPBPTree.hpp: scan(minKey,maxKey,func)"]}
{"id": "C50", "title": "PString stores and returns any C string", "statement": "Assigning a string without embedded NUL and reading it back yields the same characters, for lengths below and above the inline buffer, and after any sequence of reassignments.", "quantifier": "every string length and contents, every assignment history", "why_tests_cant": "all lengths around the inline/heap switch", "anchors": ["/repo/src/ptable/core/PString.hpp: PString, set, reset, data"]}
{"id": "C51", "title": "BitPBPTree full scan", "statement": "scan(func) reports every entry stored by a history of inserts exactly once.", "quantifier": "every insert history, all N and M", "why_tests_cant": "the bundled tests insert ascending keys only, for which the leftmost leaf never splits twice", "anchors": ["/repo/src/pbptrees/BitPBPTree.hpp: scan(func)", "/repo/src/pbptrees/BitPBPTree.hpp: insertInBranchNode"]}
{"id": "C52", "title": "BitPBPTree insert and lookup form a map", "statement": "After any history of inserts, lookup(k) returns the value of the last insert of k, or nothing if k was never inserted.", "quantifier": "every insert history over the key type, all N and M", "why_tests_cant": "histories are unbounded; the tests use small non-negative keys", "anchors": ["/repo/src/pbptrees/BitPBPTree.hpp: insert", "/repo/src/pbptrees/BitPBPTree.hpp: splitBranchNode", "/repo/src/pbptrees/BitPBPTree.hpp: findLeafNode"]}
{"id": "C53", "title": "rangeScan returns the matching rows", "statement": "rangeScan with a list of predicates produces exactly the stored rows whose attributes lie within all predicates, each once, and ends without reading outside of its candidate list.", "quantifier": "every insertion history, every predicate list", "why_tests_cant": "all histories and predicates", "anchors": ["/repo/src/ptable/PTable.hpp: rangeScan, getCandidateBlocks, BlockIterator"]}
{"id": "C54", "title": "Minipages hold their summary values", "statement": "For every list of column types, the minipage of each column has room for the minimum and maximum kept at its beginning.", "quantifier": "every list of column types", "why_tests_cant": "all column layouts", "anchors": ["/repo/src/ptable/PTable.hpp: calcMinipageSizes, initBlock"]}
{"id": "C55", "title": "deleteByKey marks the right row", "statement": "After deleteByKey(k) the row k stays deleted when its block is split later.", "quantifier": "every table layout, every history", "why_tests_cant": "needs a split after a deletion, for each position of string columns", "anchors": ["/repo/src/ptable/PTable.hpp: deleteByKey, splitBlock"]}
{"id": "C56", "title": "Inserting an oversized row is reported", "statement": "Inserting a row that does not fit into an empty block is rejected without undefined behaviour.", "quantifier": "every row", "why_tests_cant": "all row sizes", "anchors": ["/repo/src/ptable/PTable.hpp: insert, findInsertNodeOrSplit, splitBlock; /repo/src/ptable/core/DataNode.hpp: calcAverageBDCC"]}
{"id": "C57", "title": "simplePSkiplist printList shows the map", "statement": "After any sequence of inserts, printList shows the number of entries, its bottom level lists exactly the entries in ascending key order, every level is ascending and every entry shown on a level is also shown on the level below.", "quantifier": "every insert history, every sequence of random levels", "why_tests_cant": "the number of shapes is exponential in the number of inserts", "anchors": ["/repo/src/pskiplists/simplePSkiplist.hpp: printList, insert"]}
{"id": "C58", "title": "Random number generator", "statement": "For every seed the generator's state stays in 1..2^31-2 and each step multiplies it by 16807 modulo 2^31-1; Uniform(n) lies in 0..n-1, OneIn(n) is true iff n divides the drawn value, Skewed(m) lies below 2^m for m < 31.", "quantifier": "every 32-bit seed, every number of steps, every n", "why_tests_cant": "2^31 states and every divisor", "anchors": ["/repo/src/utils/Random.hpp: Random, Next, Uniform, OneIn, Skewed"]}
{"id": "C59", "title": "woPSkiplist insert under power failure", "statement": "If power fails at any store of an insert of a non-negative key, the list afterwards holds either the old or the new entries as far as search can tell.", "quantifier": "every insert history, every sequence of random levels, every store of the interrupted insert", "why_tests_cant": "needs an interruption at one particular store of a node split", "anchors": ["/repo/src/pskiplists/woPSkiplist.hpp: insert, insertInNode, splitNode"]}
{"id": "C60", "title": "woPSkiplist printList shows the map", "statement": "After any sequence of inserts of non-negative keys, the bottom row of printList shows exactly the inserted keys, each once, in nodes that are ascending and disjoint; each node's printed bounds are its least and greatest key and its printed count is its number of keys, at most N.", "quantifier": "every insert history, every sequence of random levels, every node capacity", "why_tests_cant": "the number of shapes is exponential in the number of inserts", "anchors": ["/repo/src/pskiplists/woPSkiplist.hpp: printList, printNode, insert"]}
{"id": "C61", "title": "BaseTrie subNodes counts the prefixes of the stored keys", "statement": "After any sequence of inserts and removes, subNodes() is the number of distinct prefixes of the stored keys, the empty prefix included; no node is leaked or counted twice.", "quantifier": "every history of inserts and removes, every byte-string key", "why_tests_cant": "the sharing patterns of the prefixes are unbounded", "anchors": ["/repo/src/ptries/BaseTrie.hpp: subNodes, insert, remove"]}
{"id": "C62", "title": "BaseTrie operations survive power failures", "statement": "If power fails between any two transactions of an insert or remove, the operation has either taken effect or not, every other key is untouched, and later operations work on the trie as left behind.", "quantifier": "every history with power failures at any transaction boundary", "why_tests_cant": "needs a power failure at every transaction boundary of every history", "anchors": ["/repo/src/ptries/BaseTrie.hpp: insert, remove"]}
{"id": "C63", "title": "Patricia trie getCount", "statement": "getCount() is the number of distinct keys stored.", "quantifier": "every history of inserts and removes", "why_tests_cant": "depends on every key and value stored in any order", "anchors": ["/repo/src/ptries/Patricia.hpp: insert, remove, getCount"]}
{"id": "C64", "title": "wBPTree scan", "statement": "scan(func) calls func once for every entry, in ascending key order.", "quantifier": "every history", "why_tests_cant": "depends on which leaf was split", "anchors": ["/repo/src/pbptrees/wBPTree.hpp: scan, insertInBranchNode"]}
{"id": "C65", "title": "wBPTree leaf erase", "statement": "eraseFromLeafNode removes exactly the given key, keeps the slot array an ordered enumeration of the used positions and reports whether the key was there.", "quantifier": "every leaf state, every key", "why_tests_cant": "full leaves and keys beyond the largest one are special; the effects of stale slots depend on history", "anchors": ["/repo/src/pbptrees/wBPTree.hpp: eraseFromLeafNode, eraseFromLeafNodeAtPosition"]}
{"id": "C66", "title": "wBPTree leaf split", "statement": "Inserting into a full leaf distributes all entries over two well-formed leaves that are separated by the split key.", "quantifier": "every full leaf, every new key", "why_tests_cant": "only one rank of the new key goes wrong", "anchors": ["/repo/src/pbptrees/wBPTree.hpp: insertInLeafNode, splitLeafNode"]}
{"id": "C67", "title": "wBPTree leaf merge and balance", "statement": "mergeLeafNodes and balanceLeafNodes keep every entry, leave well-formed leaves and, for balancing, sizes that differ by at most one.", "quantifier": "every pair of neighbouring leaves", "why_tests_cant": "all bitmap and slot states", "anchors": ["/repo/src/pbptrees/wBPTree.hpp: mergeLeafNodes, balanceLeafNodes"]}
{"id": "C68", "title": "BitHPBPTree insert, lookup and scan", "statement": "After any sequence of inserts, lookup returns for every key the entry of the abstract map, and scan reports every entry once.", "quantifier": "every sequence of inserts of representable keys, every N, M", "why_tests_cant": "goes wrong for negative keys, for capacities that are multiples of 64 and for orders that split the leftmost leaf", "anchors": ["/repo/src/pbptrees/BitHPBPTree.hpp: insert, lookup, scan, insertInLeafNode, splitLeafNode, splitBranchNode, insertInBranchNode"]}
{"id": "C69", "title": "BitHPBPTree recovery", "statement": "After recover() the tree holds the same map: lookups, scans and later inserts behave as if there had been no restart.", "quantifier": "every history of inserts and restarts", "why_tests_cant": "depends on the digits of the number of leaves in base N + 1", "anchors": ["/repo/src/pbptrees/BitHPBPTree.hpp: recover, recoveryInsert, recoveryInsertInBranchNode, lookupPositionInBranchNode"]}
{"id": "C70", "title": "Erase of BitPBPTree and BitHPBPTree", "statement": "After any sequence of inserts and erases, erase removes exactly the given key and returns whether it was there, and lookup returns for every key the entry of the abstract map.", "quantifier": "every sequence of inserts and erases of representable keys, every N, M", "why_tests_cant": "which leafs and nodes are repaired how depends on the order of the slots and the fill of the neighbours; the tests erase in one order", "anchors": ["/repo/src/pbptrees/BitPBPTree.hpp: erase, eraseFromBranchNode, underflowAtLeafLevel, mergeLeafNodes, balanceLeafNodes, underflowAtBranchLevel, mergeBranchNodes, balanceBranchNodes", "/repo/src/pbptrees/BitHPBPTree.hpp: the same functions"]}
{"id": "C71", "title": "Iterators over unsorted leaves", "statement": "Iterating from begin() to end() over an UnsortedPBPTree, FPTree, BitPBPTree, BitHPBPTree or wBPTree visits every stored entry exactly once and then ends.", "quantifier": "every history of operations, every N, M", "why_tests_cant": "which slots are in use and which leaf is the first depends on the whole history; the tests iterate after ascending inserts", "anchors": ["/repo/src/pbptrees/FPTree.hpp: iterator, begin, end", "/repo/src/pbptrees/UnsortedPBPTree.hpp: iterator", "/repo/src/pbptrees/BitPBPTree.hpp: iterator", "/repo/src/pbptrees/BitHPBPTree.hpp: iterator", "/repo/src/pbptrees/wBPTree.hpp: iterator"]}
{"id": "C72", "title": "Erase of wBPTree", "statement": "After any sequence of inserts and erases, erase removes exactly the given key and returns whether it was there, and every other key is where insert and erase look for it.", "quantifier": "every sequence of inserts and erases, every even N > 2 and M >= 3", "why_tests_cant": "which separator is updated and which slot is given back depends on the position of the leaf below its node and on the fill of the neighbours", "anchors": ["/repo/src/pbptrees/wBPTree.hpp: erase, eraseFromBranchNode, eraseFromLeafNode, underflowAtLeafLevel, underflowAtBranchLevel, balanceLeafNodes, mergeLeafNodes, balanceBranchNodes, mergeBranchNodes"]}
{"id": "C73", "title": "Scans of wHBPTree", "statement": "scan() visits every stored entry exactly once, leaf by leaf, and scan(min, max) visits exactly the entries with keys in the range.", "quantifier": "every history of inserts and restarts, every N >= 2 and M >= 2", "why_tests_cant": "which leaf a scan starts from depends on the positions that the keys of branch nodes got, which depends on the order of the inserts; the tests insert in ascending order", "anchors": ["/repo/src/pbptrees/wHBPTree.hpp: scan (both), insert, findLeafNode, recover"]}
{"id": "C74", "title": "Recovery of wHBPTree", "statement": "After recover() every entry of the abstract map is found where insert and erase look for it and in a scan, and further inserts work, as if there had been no restart.", "quantifier": "every history of inserts and restarts, every N >= 2 and M >= 3", "why_tests_cant": "it depends on the number of leaves at the restart: some digit of it in base N + 1 being zero goes wrong, which small trees of the tests do not reach", "anchors": ["/repo/src/pbptrees/wHBPTree.hpp: recover, recoveryInsert, recoveryInsertInBranchNode, insert, lookup"]}
{"id": "C75", "title": "Erase of wHBPTree", "statement": "After any sequence of inserts and erases, erase removes exactly the given key and returns whether it was there, and every other key is where insert and erase look for it.", "quantifier": "every sequence of inserts and erases, every even N > 2 and M >= 3", "why_tests_cant": "the new separator is read from a position that happens to be right when slots and positions agree, as they do in the histories of the tests", "anchors": ["/repo/src/pbptrees/wHBPTree.hpp: erase, eraseFromBranchNode, eraseFromLeafNode, underflowAtLeafLevel, underflowAtBranchLevel, balanceLeafNodes, mergeLeafNodes, balanceBranchNodes, mergeBranchNodes"]}
{"id": "C76", "title": "Power failure during a leaf erase", "statement": "A power failure during eraseFromLeafNode leaves the leaf with its old entries or with its old entries except the erased one, each key with its own value.", "quantifier": "every leaf reachable by leaf operations, every key in it, every failure point", "why_tests_cant": "the tests do not interrupt an operation between two stores", "anchors": ["/repo/src/pbptrees/PBPTree.hpp: eraseFromLeafNode", "/repo/src/pbptrees/UnsortedPBPTree.hpp: eraseFromLeafNode", "/repo/src/pbptrees/BitPBPTree.hpp: eraseFromLeafNode", "/repo/src/pbptrees/FPTree.hpp: eraseFromLeafNode"]}
{"id": "C77", "title": "Power failure during a leaf split", "statement": "A power failure during splitLeafNode leaves every entry of the full leaf reachable through the leaf list, once and with its value, and the leaves behind it stay in the list.", "quantifier": "every full leaf, every failure point", "why_tests_cant": "the tests do not interrupt an operation between two stores", "anchors": ["/repo/src/pbptrees/PBPTree.hpp: splitLeafNode", "/repo/src/pbptrees/UnsortedPBPTree.hpp: splitLeafNode", "/repo/src/pbptrees/BitPBPTree.hpp: splitLeafNode", "/repo/src/pbptrees/FPTree.hpp: splitLeafNode"]}
{"id": "C78", "title": "Power failure during a leaf insert or erase of wBPTree and wHBPTree", "statement": "A power failure during insertInLeafNodeAtPosition or eraseFromLeafNodeAtPosition leaves a leaf whose slot array lists the old entries or the new ones, and which later operations can work with.", "quantifier": "every leaf with consistent bitmap and slots, every key and position, every failure point", "why_tests_cant": "the tests do not interrupt an operation between two stores", "anchors": ["/repo/src/pbptrees/wBPTree.hpp: insertInLeafNodeAtPosition, eraseFromLeafNodeAtPosition", "/repo/src/pbptrees/wHBPTree.hpp: insertInLeafNodeAtPosition, eraseFromLeafNodeAtPosition"]}
{"id": "C79", "title": "Power failure during a leaf split of wBPTree and wHBPTree", "statement": "A power failure during splitLeafNode leaves every entry of the full leaf listed by the leaves of the leaf list, once, and the leaves behind it stay in the list.", "quantifier": "every full leaf, every failure point", "why_tests_cant": "the tests do not interrupt an operation between two stores", "anchors": ["/repo/src/pbptrees/wBPTree.hpp: splitLeafNode", "/repo/src/pbptrees/wHBPTree.hpp: splitLeafNode"]}
{"id": "C80", "title": "Power failure during the merge of two leaves", "statement": "A power failure while two underfull neighbouring leaves are merged leaves every entry of the two leaves in the leaf list, once, adds nothing to it, and keeps the leaves behind them in the list.", "quantifier": "every pair of neighbouring leaves that share no key, every failure point", "why_tests_cant": "the tests do not interrupt an operation between two stores", "anchors": ["/repo/src/pbptrees/PBPTree.hpp: mergeLeafNodes", "/repo/src/pbptrees/UnsortedPBPTree.hpp: mergeLeafNodes", "/repo/src/pbptrees/BitPBPTree.hpp: mergeLeafNodes", "/repo/src/pbptrees/FPTree.hpp: mergeLeafNodes"]}
{"id": "C81", "title": "Power failure while entries move between neighbouring leaves", "statement": "A power failure while an underfull leaf takes entries from its neighbour leaves every entry of the two leaves in one of them, once, with its value, and adds nothing.", "quantifier": "every pair of neighbouring leaves that share no key, every failure point", "why_tests_cant": "the tests do not interrupt an operation between two stores", "anchors": ["/repo/src/pbptrees/PBPTree.hpp: balanceLeafNodes", "/repo/src/pbptrees/UnsortedPBPTree.hpp: balanceLeafNodes", "/repo/src/pbptrees/BitPBPTree.hpp: balanceLeafNodes", "/repo/src/pbptrees/FPTree.hpp: balanceLeafNodes"]}
{"id": "C82", "title": "reverse mirrors the bits", "statement": "reverse(n, b) is the number whose bit i is bit b-1-i of n and whose bits from b on are zero; applying it twice gives back the lowest b bits of n.", "quantifier": "every integer type, every n, every b up to the number of value bits", "why_tests_cant": "no test calls it", "anchors": ["/repo/src/utils/PatriciaUtils.hpp: reverse"]}
{"id": "C83", "title": "Bits and bytes as strings", "statement": "toBinaryString(in, size) is the string of the first size bits, most significant bit of each byte first, and reads no byte behind them; toString is the string of the first size bytes.", "quantifier": "every buffer, every size not negative that the buffer holds", "why_tests_cant": "only printed output uses it", "anchors": ["/repo/src/utils/PatriciaUtils.hpp: toBinaryString", "/repo/src/utils/PatriciaUtils.hpp: toString"]}
{"id": "C84", "title": "The key generators write inside of their buffers", "statement": "RNG::next writes no more than the size it is given and RNGBin::next no more than it allocates.", "quantifier": "every size, every random number", "why_tests_cant": "writing behind a heap block usually goes unnoticed", "anchors": ["/repo/src/utils/PatriciaUtils.hpp: RNG::next", "/repo/src/utils/PatriciaUtils.hpp: RNGBin::next"]}
{"id": "C85", "title": "Incremental keys ascend", "statement": "RNG with INCREMENTAL delivers ascending keys without repetition.", "quantifier": "every number of calls", "why_tests_cant": "the wrap-around needs 2^32 calls; the constructor for letters writes through an unassigned pointer", "anchors": ["/repo/src/utils/PatriciaUtils.hpp: RNG::RNG", "/repo/src/utils/PatriciaUtils.hpp: RNG::next", "/repo/src/utils/PatriciaUtils.hpp: RNG::reset"]}
{"id": "C86", "title": "Bytes written", "statement": "getBytesWritten returns the sum of what was passed to writeBytes since the previous call.", "quantifier": "every sequence of calls", "why_tests_cant": "the overflow needs 4 GB of writes between two calls", "anchors": ["/repo/src/utils/PersistEmulation.hpp: getBytesWritten", "/repo/src/utils/PersistEmulation.hpp: writeBytes"]}
{"id": "C87", "title": "Table descriptions", "statement": "A PTableInfo has the table name, the column names and the column types it was made from, in order, and findColumnByName returns the position of the first column with the name or -1.", "quantifier": "every tuple type, every list of names", "why_tests_cant": "reading behind the list of names is undefined; the tests pass as many names as the tuple has elements", "anchors": ["/repo/src/ptable/core/PTableInfo.hpp: PTableInfo", "/repo/src/ptable/core/PTableInfo.hpp: findColumnByName", "/repo/src/ptable/core/PTableInfo.cpp: PColumnInfo", "/repo/src/ptable/core/VTableInfo.hpp: VTableInfo", "/repo/src/ptable/core/VTableInfo.hpp: ColumnsConstructor"]}
{"id": "C88", "title": "Insert interrupted between two levels (persistent trees)", "statement": "After a power failure between the updates of two nodes of an insert, every entry that was in the tree is still found.", "quantifier": "every history of inserts and erases, every key and value, every level at which the failure falls", "why_tests_cant": "tests cannot fail the power between two stores, and the number of shapes of the tree is unbounded", "anchors": ["/repo/src/pbptrees/PBPTree.hpp: insert", "/repo/src/pbptrees/PBPTree.hpp: insertInBranchNode", "/repo/src/pbptrees/PBPTree.hpp: insertInLeafNode", "/repo/src/pbptrees/UnsortedPBPTree.hpp: insertInBranchNode"]}
{"id": "C89", "title": "Recovery after an interrupted insert (hybrid trees)", "statement": "After an insert that was interrupted between the updates of two nodes and the following restart, the tree contains what it contained before and the new entry.", "quantifier": "FPTree: every sequence of inserts, restarts and interrupted inserts; HPBPTree: every history of inserts and erases before one interrupted insert; every level at which the failure falls", "why_tests_cant": "tests cannot fail the power between two stores", "anchors": ["/repo/src/pbptrees/FPTree.hpp: recover", "/repo/src/pbptrees/FPTree.hpp: insertInBranchNode", "/repo/src/pbptrees/HPBPTree.hpp: recover", "/repo/src/pbptrees/HPBPTree.hpp: insertInBranchNode"]}
{"id": "C90", "title": "Erase interrupted between two levels", "statement": "After a power failure between the updates of two nodes of an erase, every entry other than the erased one is still found; in the hybrid tree after the restart.", "quantifier": "every history, every erased key, every level at which the failure falls", "why_tests_cant": "tests cannot fail the power between two stores", "anchors": ["/repo/src/pbptrees/PBPTree.hpp: eraseFromBranchNode", "/repo/src/pbptrees/PBPTree.hpp: underflowAtLeafLevel", "/repo/src/pbptrees/HPBPTree.hpp: eraseFromBranchNode", "/repo/src/pbptrees/HPBPTree.hpp: recover"]}
{"id": "C91", "title": "Erase after a restart", "statement": "After a restart of a hybrid tree, erases keep working as without the restart: the erased entry is gone, every other entry is still found.", "quantifier": "every history of inserts, erases, restarts and interrupted operations of any length", "why_tests_cant": "tests erase from one tree built by inserts alone and never after recover(); the fault depends on the number of leaves at the restart", "anchors": ["/repo/src/pbptrees/FPTree.hpp: recover", "/repo/src/pbptrees/FPTree.hpp: recoveryInsert", "/repo/src/pbptrees/FPTree.hpp: eraseFromBranchNode", "/repo/src/pbptrees/FPTree.hpp: underflowAtLeafLevel", "/repo/src/pbptrees/HPBPTree.hpp: recover"]}
{"id": "C92", "title": "Range scan of BitHPBPTree", "statement": "After any sequence of inserts, scan(minKey, maxKey, func) reports exactly the entries of the abstract map whose keys lie in the range, each once, with their current values.", "quantifier": "every sequence of inserts of representable keys, every range, every N, M", "why_tests_cant": "which unused slots are read depends on the fill of every leaf and on the splits before; unwritten slots may happen to hold harmless values", "anchors": ["/repo/src/pbptrees/BitHPBPTree.hpp: scan(minKey, maxKey, func)"]}
{"id": "C93", "title": "Erases of any keys in BPTree and HPBPTree", "statement": "For M >= 2 and N >= 5, any sequence of inserts and erases of any keys, stored or not, is undefined or leaves a tree holding a map in which every insert and every erase of a stored key took effect and every erase of a key that was not stored changed nothing or took the largest stored key below it. Which of the three happens is decided by the slot behind the last entry of the leaf that the key belongs to and, for odd N, by the condition on branch nodes of C09.", "quantifier": "every M >= 2, N >= 5, every sequence of inserts and erases of any keys", "why_tests_cant": "what the slot behind the last entry holds depends on the splits, merges and moves before; a slot that was never written may happen to hold a harmless value", "anchors": ["/repo/src/pbptrees/BPTree.hpp: erase, eraseFromLeafNode, eraseFromBranchNode", "/repo/src/pbptrees/HPBPTree.hpp: erase, eraseFromLeafNode, eraseFromBranchNode"]}
{"id": "C94", "title": "Erases of any keys in UnsortedPBPTree", "statement": "For M >= 2 and N >= 5, after any sequence of inserts and erases of any keys none of whose erases freed a linked leaf (C13), an erase of a key that is not stored is undefined, changes nothing, or acts as an erase of the key in the last slot of the leaf the key belongs to. The slot behind the last entry of that leaf decides which; the two conditions of C13 decide as for a stored key whether the tree is right afterwards, a stored key is lost, or the behaviour is undefined.", "quantifier": "every M >= 2, N >= 5, every integral key type, every sequence of inserts and erases of any keys", "why_tests_cant": "the slot behind the last entry depends on the splits, merges and moves before, and the entry taken depends on the order of the inserts; a freed leaf often still reads back the old bytes", "anchors": ["/repo/src/pbptrees/UnsortedPBPTree.hpp: erase, eraseFromLeafNode, eraseFromLeafNodeAtPosition, eraseFromBranchNode, underflowAtLeafLevel"]}
{"id": "C95", "title": "Node capacities of the benchmarks", "statement": "The capacities computed for the nodes of wBPTree, FPTree, PBPTree, the leaves of BitPBPTree and the nodes of woPSkiplist are the largest numbers of keys for which the node, with its padded header, fits into the target size.", "quantifier": "every size of keys, values and pointers, every level count, every target size", "why_tests_cant": "a benchmark is compiled for one key type and one target size; the formulas step down one key at a time and depend on the rounding of three header parts", "anchors": ["/repo/bench/trees/common.hpp: getBranchKeyswBPTree, getLeafKeyswBPTree, getBranchKeysPBPTree, getLeafKeysPBPTree, getBranchKeysFPTree, getLeafKeysFPTree, getLeafKeysBitPBPTree", "/repo/bench/pskiplists/common.hpp: getNodeKeys"]}
{"id": "C96", "title": "Capacity of the inner nodes of BitPBPTree in the benchmarks", "statement": "The capacity computed for the inner nodes of BitPBPTree is the largest number of keys for which bitmap, keys and children fit into the target size.", "quantifier": "every size of keys and pointers, every target size", "why_tests_cant": "the wrong branch of the recursion is only instantiated if the first candidate needs more than one bitmap word", "anchors": ["/repo/bench/trees/common.hpp: getBranchKeysBitPBPTree"]}
{"id": "C97", "title": "The tree benchmark inserts every key", "statement": "For any leaf capacity, branch capacity and depth, the nested loops of insert end and insert each of the keys 1 to ELEMENTS exactly once and no other key.", "quantifier": "every leaf capacity, every even or odd branch capacity, every depth", "why_tests_cant": "the loops visit halves of nodes level by level; whether halves overlap or leave gaps depends on the parities of both capacities and the depth, and a duplicate insert only overwrites", "anchors": ["/repo/bench/trees/common.hpp: insert, insertLoopLeaf, insertLoopBranch, insertLoopOtherHalf"]}
{"id": "C98", "title": "Arithmetic helpers of the benchmarks", "statement": "ipow(b, e) is b to the e modulo 2^64 (1 for negative e); hibit_pos(n) is the position of the highest set bit of n >= 1, 0 for 0, and does not return for negative n; createPointVector appends, in ascending order, exactly the rows (s, s/2) for s = SIZE, SIZE/10, ... as long as s >= 100.", "quantifier": "every base, exponent, number and size", "why_tests_cant": "the domains are unbounded; non-termination for negative numbers cannot be observed by a test", "anchors": ["/repo/bench/trees/common.hpp: ipow", "/repo/bench/ptable/common.hpp: hibit_pos, createPointVector"]}
{"id": "C99", "title": "The tree benchmark builds a completely filled tree of the wanted depth", "statement": "Running the inserts of the benchmark's fill loops on a PBPTree leaves a tree that maps exactly the keys 1 to ELEMENTS to their tuples, has depth TARGET_DEPTH and has all its nodes full.", "quantifier": "every leaf capacity of at least 2, every branch capacity of at least 3, every depth", "why_tests_cant": "the shape depends on how the order of inserts meets the split points, for any capacities and depths; the benchmark only prints, it does not check", "anchors": ["/repo/bench/trees/common.hpp: insert, LEAFKEYS, BRANCHKEYS, TARGET_DEPTH", "/repo/src/pbptrees/PBPTree.hpp: insert, splitLeafNode, splitBranchNode"]}
{"id": "C100", "title": "The split benchmark leaves memory as it was", "statement": "After every round of the split benchmark the split leaf is full again with its old contents, and the leaf that the split allocated has been freed.", "quantifier": "every leaf capacity of at least 2, every number of leaves and every sequence of chosen leaves", "why_tests_cant": "the benchmark checks nothing, a lost leaf has no effect until the pool is full, and the choice of leaves is random", "anchors": ["/repo/bench/trees/tree_split.cpp: benchmark lambda and reset (97-172), prepare", "/repo/src/pbptrees/PBPTree.hpp: splitLeafNode, deleteLeafNode, LeafNode"]}
{"id": "C101", "title": "The merge benchmark produces a sorted leaf", "statement": "The merged leaf of the merge benchmark holds the keys 1 to LEAFKEYS-1 in ascending order and finds each of them.", "quantifier": "every leaf capacity", "why_tests_cant": "the benchmark never looks at the merged leaf", "anchors": ["/repo/bench/trees/tree_merge.cpp: prepare, benchmark lambda", "/repo/src/pbptrees/PBPTree.hpp: mergeLeafNodes"]}
{"id": "C102", "title": "The balance and erase benchmarks measure what they say", "statement": "The prepare functions fill the leaves without a split; balancing in either direction leaves sorted leaves with all keys, with Balanced keys in the donor and SortedMoves in the receiver; erasing KEYPOS leaves all other keys in order.", "quantifier": "every leaf capacity of at least 3 (erase: 2), every key of the leaf, both directions", "why_tests_cant": "the benchmarks check nothing; the counts are formulas over any capacity with roundings of both parities", "anchors": ["/repo/bench/trees/tree_balance.cpp: prepare, Balanced, SortedMoves", "/repo/bench/trees/tree_erase.cpp: prepare, KEYPOS", "/repo/src/pbptrees/PBPTree.hpp: balanceLeafNodes, eraseFromLeafNodeAtPosition"]}
{"id": "C103", "title": "The benchmarks flush everything the operation wrote", "statement": "Every slot of the key and value arrays whose content an operation of the leaf benchmarks has changed lies in a range that the benchmark flushes afterwards.", "quantifier": "every leaf capacity, every sizes of keys and values, every erased key", "why_tests_cant": "missing flushes have no effect without a power failure at the right moment; the ranges are formulas over any capacity", "anchors": ["/repo/bench/trees/tree_erase.cpp: 113-114", "/repo/bench/trees/tree_split.cpp: 120-121", "/repo/bench/trees/tree_balance.cpp: 130-131", "/repo/bench/trees/tree_merge.cpp: 120-121"]}
{"id": "C104", "title": "The insert benchmark inserts a missing key into a nearly full leaf", "statement": "For KEYPOS first, middle or last the prepared leaf holds LEAFKEYS-1 keys without KEYPOS, the measured insert leaves a full sorted leaf, and the flushed ranges cover what was written and stay inside the arrays of the leaf.", "quantifier": "every leaf capacity of at least 2, every ELEMENTS of at least LEAFKEYS, every element size", "why_tests_cant": "the benchmark checks nothing; ELEMENTS and LEAFKEYS agree only for depth 0", "anchors": ["/repo/bench/trees/tree_insert.cpp: prepare, benchmark lambda, flushes", "/repo/src/pbptrees/PBPTree.hpp: insertInLeafNodeAtPosition, lookupPositionInLeafNode"]}
{"id": "C105", "title": "Every round of the skip list insert benchmark measures the same insert", "statement": "For every TARGET_KEY from 1 to NODEKEYS, prepare leaves one node with all other keys; the measured insertInNode adds the missing key to a copy without a split and touches nothing else; the reset restores the state before the round, for any number of rounds on any copies.", "quantifier": "every node capacity of at least 3, every height, every TARGET_KEY, every sequence of rounds", "why_tests_cant": "the benchmark checks nothing; random choice of copies; a constant fixes the key", "anchors": ["/repo/bench/pskiplists/pskip_insert.cpp: 75-148, 167-187", "/repo/src/pskiplists/woPSkiplist.hpp: insert, insertInNode"]}
{"id": "C106", "title": "The skip list get benchmark finds its key", "statement": "After the fill loop the list is one node, and searchInNode on every copy of it finds every key from 1 to NODEKEYS with its value and no other key.", "quantifier": "every node capacity of at least 2, every height, every copy, every key", "why_tests_cant": "the result of the measured search is thrown away", "anchors": ["/repo/bench/pskiplists/pskip_get.cpp: 56-92", "/repo/src/pskiplists/woPSkiplist.hpp: searchInNode"]}
{"id": "C107", "title": "The get benchmark looks up a key of a full leaf", "statement": "insert(tree, 0) leaves a tree that is one full leaf with the keys 1 to LEAFKEYS, and the measured lookupPositionInLeafNode returns the position of KEYPOS.", "quantifier": "every leaf capacity of at least 2, every ELEMENTS of at least LEAFKEYS, every key", "why_tests_cant": "the result of the lookup is thrown away; for odd capacities the fill loop inserts one key twice", "anchors": ["/repo/bench/trees/tree_get.cpp: 104-175", "/repo/bench/trees/common.hpp: 251-265, 300-303"]}
{"id": "C108", "title": "The scan benchmark visits all elements in order", "statement": "The scan of the filled tree calls the callback with the keys 1 to ELEMENTS in ascending order, each once and with its tuple; the key kept at the end is ELEMENTS.", "quantifier": "every leaf and branch capacity, every depth", "why_tests_cant": "the callback only keeps the last key, and the benchmark does not check it", "anchors": ["/repo/bench/trees/tree_scan.cpp: 70-100", "/repo/src/pbptrees/PBPTree.hpp: scan"]}
{"id": "C109", "title": "The traverse benchmark touches one node per level", "statement": "prepare builds TARGET_DEPTH levels of distinct copies of the root, linked by child 0, without changing the tree; the measured loop from copy pos of the top level touches copy pos of every level and nothing else.", "quantifier": "every number of copies, every depth of at least 1, every start position, every tree with a branch node as root", "why_tests_cant": "the compiled depth is a constant, the position is random, nothing is checked", "anchors": ["/repo/bench/trees/tree_traverse.cpp: 91-105, 115-146"]}
{"id": "C110", "title": "performance_test inserts each key once and deletes only present keys", "statement": "Whatever rand() returns, the insert phase inserts every key from 1 to TEST_SIZE exactly once, every lookup finds its key, the delete phase deletes TEST_SIZE-1 different present keys, and one row is left.", "quantifier": "every TEST_SIZE of at least 1, every sequence of random numbers", "why_tests_cant": "random choice seeded by the time; the keys are permuted in place", "anchors": ["/repo/bench/performance_test.cpp: 82-106, 116-131, 140-157"]}
{"id": "C111", "title": "Derived parameters of the table benchmarks", "statement": "hibit_pos returns the position of the highest set bit; with ALIGNMENT derived from it the 10 clustering bits of every key are its highest bits; createPointVector lists NUM_TUPLES and its tenths down to 100, for which the progress test of insert does not divide by zero.", "quantifier": "every positive int, every NUM_TUPLES from 512 to 2^30, every key", "why_tests_cant": "NUM_TUPLES is a constant; other values are only reached by editing the file", "anchors": ["/repo/bench/ptable/common.hpp: 48-53, 109-125, 153", "/repo/src/ptable/PTable.hpp: getBDCCFromTuple"]}
{"id": "C112", "title": "The range scan benchmarks select the stated share of rows", "statement": "For every argument of KEY_RANGES and NON_KEY_RANGES and every start the distribution can return, the scan selects as many rows as the window size, the percentage noted beside the argument.", "quantifier": "every NUM_TUPLES, every argument, every start position", "why_tests_cant": "the selected rows are not counted; start positions are random", "anchors": ["/repo/bench/ptable/common.hpp: 66-75, 94-108", "/repo/bench/ptable/scan.cpp: 46, 83-84, 123, 159-162"]}
{"id": "C113", "title": "print draws the tree", "statement": "print writes the root first and unindented, every node of the tree exactly once, each below its parent in the order of the child pointers and indented by its depth, one line more below a branch line than it has keys; the keys shown in the leaves from top to bottom are those reported by scan.", "quantifier": "every history of inserts (and, for the classes with sorted leaves, of erases of present keys), every N and M in the stated ranges", "why_tests_cant": "the output goes to stdout and is never compared; depth and fan-out of the trees printed in tests are fixed", "anchors": ["/repo/src/pbptrees/PBPTree.hpp: 307-310, 823-845, 871-883", "/repo/src/pbptrees/BPTree.hpp: 258-266, 723-740, 763-771", "/repo/src/pbptrees/HPBPTree.hpp: 364-369, 1179-1216", "/repo/src/pbptrees/UnsortedPBPTree.hpp: 294-297, 804-826, 852-864", "/repo/src/pbptrees/FPTree.hpp: 412-415, 1269-1304"]}
{"id": "C114", "title": "printLeafList shows every leaf once", "statement": "From the first leaf on, printLeafList writes one unindented line for every leaf that print shows, in the same order, with the keys that scan reports.", "quantifier": "every history (HPBPTree: inserts and erases of present keys; FPTree: inserts), every N and M in the stated ranges", "why_tests_cant": "private debugging function whose output is never compared", "anchors": ["/repo/src/pbptrees/HPBPTree.hpp: 1206-1224", "/repo/src/pbptrees/FPTree.hpp: 1295-1312"]}
{"id": "C115", "title": "PTable::print describes the table", "statement": "print shows every block once; the ranges shown cover all clustering values in order; the tuple count of a block is the number of rows of the table stored in it (never a wrapped difference), and their clustering values lie in its range; header, summary values, stored rows (deleted ones included) and free space add up to the block; for a block that stores rows each column is shown with its least and greatest stored value and the bytes free in its minipage.", "quantifier": "every table layout with at most 800 columns and every history of inserts of absent keys and deletes", "why_tests_cant": "the output goes to stdout and is never compared; the tables printed in tests have few blocks", "anchors": ["/repo/src/ptable/PTable.hpp: 545-618", "/repo/src/ptable/core/VTableInfo.hpp: 55-66, 82-93, 109-120, 138-159"]}
{"id": "C116", "title": "print of a wBPTree shows the tree", "statement": "print shows every node of the tree once, below its parent, with the children of a branch node in the order of its slots; the keys shown in the leaves are exactly the stored keys in ascending order, each with its bit set.", "quantifier": "every capacity and every history of inserts", "why_tests_cant": "the output goes to stdout and is never compared", "anchors": ["/repo/src/pbptrees/wBPTree.hpp: 400-405, 1286-1330"]}
{"id": "C117", "title": "print of a wHBPTree shows the tree", "statement": "print shows every node of the tree once, below its parent, with the children of a branch node in the order of its slots; the keys shown in the leaves are exactly the stored keys in ascending order, each with its bit set; also after a restart.", "quantifier": "every capacity and every history of inserts, erases and restarts", "why_tests_cant": "the output goes to stdout and is never compared; the trees in tests do not meet the leaf counts after which recovery leaves a branch node without keys", "anchors": ["/repo/src/pbptrees/wHBPTree.hpp: 427-430, 1330-1371"]}
{"id": "C118", "title": "print of a BitPBPTree shows the tree", "statement": "print shows every node of the tree once, below its parent, with the children of a branch node in the order of their positions; the keys shown with bit 1 in the leaves are exactly the stored keys.", "quantifier": "every key type, capacity and history of inserts", "why_tests_cant": "the output goes to stdout and is never compared", "anchors": ["/repo/src/pbptrees/BitPBPTree.hpp: 351-356, 1152-1190"]}
{"id": "C119", "title": "print of a BitHPBPTree shows the tree", "statement": "print shows every node of the tree once, below its parent, with the children of a branch node in the order of their positions; the keys shown with bit 1 in the leaves are exactly the stored keys; also after a restart.", "quantifier": "every key type, capacity and history of inserts and restarts", "why_tests_cant": "the output goes to stdout and is never compared; leaf counts after which recovery leaves a branch node without keys are not met in tests", "anchors": ["/repo/src/pbptrees/BitHPBPTree.hpp: 417-422, 1267-1305"]}
