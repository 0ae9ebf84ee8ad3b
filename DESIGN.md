# PMem_DS: formal model and proofs (Rocq / Coq 8.16.1)

The C++ sources in `/repo/src` are modelled by hand as small executable Gallina
functions; theorems are proved about the model.  The tie between model and code is
the citation (file, lines) on every definition.  Each `Prop*.v` file holds the theorems
about one class, their `Print Assumptions`, and an `Example` with a concrete case that
meets the hypotheses.

## Trusted base

* Coq's kernel (and `vm_compute`).
* Axioms: every theorem in the `Prop*.v` files is "Closed under the global context".  The
  standard library modules that are loaded contain axioms (seven of them the rewriting
  interface `Coq.ssr.ssrunder`), none of which a theorem uses.
* The reading of the C++ code recorded in the comments of the model files.
* Assumptions about the platform that the model builds in:
  - allocation always succeeds and returns a fresh address; PMDK transactions
    around allocation/free are not modelled beyond "the node exists / no longer exists";
  - keys are mathematical integers (`Z`) under `<`; the element type is any type
    whose `<`/`==` is such a total order.  Where numeric limits, unsigned
    conversion or truncation matter (`findSplitKey`, min/max search, `splitBlock`,
    skip-list sentinels, `Bitmap`, `Random`, the trie's loop index), the limit or the wrap
    is written into the model;
  - for the crash properties: stores become durable in program order, each store
    of a word is atomic, and a PMDK transaction is atomic (the code issues no flushes
    outside transactions; this is the most favourable reading for the code);
  - asserts are compiled out (`NDEBUG`, the default Release build), except where a model
    says that a failed assertion counts as undefined.

Undefined behaviour (out-of-range index, null / freed / wrong-kind node, reading an
uninitialised array slot) is an explicit outcome `UB` of the model; every positive
theorem says the outcome is `Ok`, so it includes the absence of UB.  Loops whose end is
not obvious run on fuel with the outcome `NoFuel`, which the theorems exclude as well.

A property that does not hold for the code is marked "partial" in `MANIFEST.json` with a
note that starts with "REFUTED"; a theorem `..._refuted : exists ..., ...` gives the
counterexample by computation, and the theorems next to it say under which conditions the
claim does hold.

## Model layout (theories/)

| code | model | specification | proofs | theorems |
|---|---|---|---|---|
| node searches, rank selection, bitmap (`utils/*.hpp`) | `SearchModel`, `RankModel`, `BitmapModel` | `UtilSpec` | `SearchProofs`, `RankProofs`, `BitmapProofs`, `PopcountProofs` | `PropUtils` |
| branch nodes and leaf chain of five B+-tree classes | `BTreeModel` (parameter: leaf operations) | `MapSpec`, `BTreeSpec`, `EraseSpec` | `BTreeBranch`, `BTreeGhost`, `BTreeInsert`, `BTreeErase`, `BTreeHist`, `BTreeMain`, `EraseG` | – |
| leaves of `PBPTree`, `BPTree`, `HPBPTree`; iterators | `SLeafModel`, `SIterModel` | `MapSpec` | `SLeafProofs`, `SIterProofs` | `PropPBPTree`, `PropBPTree` |
| trees with sorted leaves, any N | `BTreeModel`, `SLeafModel` | `PathSpec`, `FewSpec` | `BTreeErase`, `PathProofs`, `PathG`, `PathX` | `PropPath`, `PropPathG`, `PropPathX` |
| trees with sorted leaves, erases of absent keys | `BTreeModel`, `SLeafModel` | `AbsentSpec` | `AbsentProofs` | `PropAbsentX` |
| UnsortedPBPTree, erases of absent keys | `BTreeModel`, `ULeafModel` | `AbsentSpec`, `EraseSpec`, `PathSpec` | `UAbsentProofs` | `PropUAbsent` |
| printing of the trees | `PrintModel` | `PrintSpec` | `PrintProofs` | `PropPrint` |
| computations of the benchmarks (`bench/*/common.hpp`) | `BenchModel` | `BenchSpec` | `BenchProofs` | `PropBench` |
| leaves of `UnsortedPBPTree` | `ULeafModel` | `MapSpec` | `ULeafProofs`, `UTreeProofs`, `EraseX` | `PropUnsorted`, `PropEraseX` |
| leaves of `FPTree` | `FLeafModel` | `MapSpec` | `FLeafProofs`, `FTreeProofs`, `FEraseX`, `FSlotX` | `PropFPTree`, `PropFEraseX` |
| iterators over unsorted leaves | `BIterModel`, `SIterModel` | `MapSpec` | `BIterProofs`, `BIterMain` | `PropIter` |
| `recover()` | `RecoverModel` | `BTreeSpec` | `RecoverProofs` | `PropRecover` |
| stores of a leaf insert and erase | `CrashModel` | `CrashSpec` | `CrashProofs`, `CrashEProofs` | `PropCrash`, `PropCrashE` |
| stores of a leaf split | `CrashSModel` | `CrashSSpec` | `CrashSProofs`, `CrashTProofs`, `CrashUProofs` | `PropCrashS` |
| stores of a leaf merge | `CrashMModel` | `CrashSpec`, `CrashMSpec` | `CrashMProofs` | `PropCrashM` |
| stores of leaf balancing | `CrashBModel` | `CrashSpec`, `CrashMSpec`, `CrashBSpec` | `CrashBProofs`, `CrashDProofs` | `PropCrashB` |
| insert and erase interrupted between levels | `CutModel` (and `BTreeModel`, `RecoverModel`) | `CutSpec` | `CutProofs`, `CutEProofs` | `PropCut` |
| erase after a restart of the hybrid trees | `RecEModel` (and `BTreeModel`, `RecoverModel`, `CutModel`) | `RecESpec` | `RecEProofs` | `PropRecE` |
| stores of the leaf operations of `wBPTree`, `wHBPTree` | `CrashWModel` | `WbSpec`, `CrashWSpec` | `CrashWProofs`, `CrashXProofs` | `PropCrashW` |
| `BitPBPTree` | `BitTreeModel` | `MapSpec`, `InsSpec` | `XTree`, `BitProofs`, `BitRProofs` | `PropBit`, `PropBitR` |
| `BitHPBPTree` | `BitHModel` | `MapSpec`, `RecSpec` | `BitHProofs`, `BitHRec`, `BitRProofs` | `PropBitH`, `PropBitR` |
| `simplePSkiplist`, `Random` | `SkipModel`, `RandomModel` | `SkipSpec` | `SkipProofs`, `RandomProofs`, `SkipMain` | `PropSkip` |
| `woPSkiplist` | `WoModel` | `SkipSpec` | `WoNode`, `WoProofs`, `WoInsert`, `WoMain` | `PropWo` |
| `BaseTrie` | `TrieModel` | `TrieSpec` | `TrieProofs`, `TrieMain` | `PropTrie` |
| `Patricia`, `PTreeNode` | `PatModel` | `PatSpec` | `PatBits`, `PatProofs`, `PatMain` | `PropPatricia` |
| `wBPTree` | `WbModel`, `WbEModel` | `WbSpec`, `WbESpec` | `WbProofs`, `WbMove`, `WbMain`, `WbLeaf`, `WbBranch`, `WbTree`, `WbEBranch`, `WbEBalance`, `WbEProofs` | `PropWb`, `PropWbE` |
| `wHBPTree` | `WhModel` (and `WbModel`, `WbEModel`) | `WhESpec`, `RecSpec` | `WhRec`, `WhTree`, `WhErase`, `WhHist` | `PropWh` |
| `serialize.hpp` | `SerModel` | in `PropSer` | `SerProofs` | `PropSer` |
| `PString` | `PStrModel` | `PStrSpec` | `PStrProofs` | `PropPStr` |
| `PatriciaUtils`, `PersistEmulation` | `PUtilModel` | `PUtilSpec` | `PUtilProofs` | `PropUtil` |
| `PTableInfo`, `VTableInfo` | `TabInfoModel` | `TabInfoSpec` | `TabInfoProofs` | `PropUtil` |
| `BDCCInfo` | `BdccModel` | `BdccSpec` | `BdccProofs` | `PropBdcc` |
| blocks and minipages | `BlockModel` | `BlockSpec` | `LayoutProofs`, `BlockBytes`, `ColProofs`, `InsColProofs`, `BlockProofs`, `InitProofs` | `PropLayout` |
| `PTable` | `PTableModel` | `TableSpec` | `SplitProofs`, `TableProofs`, `InsertProofs`, `RunProofs`, `ScanProofs`, `TableTop` | `PropTable`, `PropPTable` |

`Base` holds the outcome monad, bounded arrays with uninitialised cells and counted loops;
`ArrLemmas`, `SortedList` and `SlotLemmas` are general lemmas; `BTreeLaws` lists what the tree
proofs need from the leaf code of a class, and each class proves it.

## Per property

* **C01–C03, C06, C07 (PBPTree), C08 (BPTree), C10 (HPBPTree).**  Node heap: node ids, per-node
  arrays with stale and uninitialised cells, leaf links as pointers of their own.  A ghost tree
  (`BTreeGhost`) says what the heap holds; every operation keeps such a tree and does the
  corresponding thing to a sorted association list; induction over the history gives the
  theorems in terms of the abstract map.  The classes differ only in the leaf code and the
  position search, so they are instances.  C07 is false on the empty tree.
* **C94** UnsortedPBPTree, erases of absent keys.  The leaf does not do exactly what an erase of its last key does (a stale copy is
  written as well), so `UAbsentProofs` swaps the leaf operation: the tree with the real leaf erase and key k equals the tree whose leaf
  erase does for the last key p what the real one does for k.  That operation meets the laws of an erase of p, so the theorems about
  erases of stored keys (EraseX, PathX) apply to it.
* **C95-C98** benchmarks (`bench/trees/common.hpp`, `bench/pskiplists/common.hpp`, `bench/ptable/common.hpp`).  Template recursion is
  recursion over numbers, a wrap-around is UB.  The capacities are searched downwards from a first candidate; the proof shows that the
  candidate is an upper bound and that the size formula agrees with the relational layout of `BenchSpec`.  C96 is refuted (the search
  goes on with another layout).  The fill loops (C97) are run as lists of keys: by induction over the levels every piece of a level is
  visited by a first or second half; exactly once follows by counting for depth 1, and fails in general.  Not modelled: measuring,
  output, the pool set-up, the classes of the benchmarked structures (they are modelled themselves).
* **C99** runs the inserts of the fill loops on the PBPTree model.  C97 and the balance theorem (C05) give the contents and a shape with
  known depth; counting then shows that a tree of depth d has at most M (N+1)^d keys, with equality only if all nodes are full.  The
  depth itself is refuted for the committed parameters (an even leaf capacity).
* **C100-C104** benchmarks of single leaves (`tree_split`, `tree_merge`, `tree_balance`, `tree_erase`, `tree_insert`).  `BenchLModel` runs the prepare
  loops and one operation on the leaf model of the PBPTree; for the split benchmark leaves live in a small memory with nextLeaf, so that
  lost leaves are visible.  Contents are stated on the arrays (`BenchLSpec.holds`), changed slots by comparing the arrays before and
  after.  C100, C101 and parts of C103 and C104 are refuted.  Not modelled: timing, counters, the reset of leaves by assignment except in the
  split benchmark, reopening of an existing pool.
* **C105-C106** skip list benchmarks (`pskip_insert`, `pskip_get`).  `BenchSModel` builds the list with the operations of `WoModel`, appends copies of
  its first node, and runs the measured `insertInNode` or `searchInNode` and the reset.  `BenchSProofs` shows that the list stays one node and that a
  round changes only its copy, which the reset restores.  C105 is refuted for target keys that the switch in prepare does not list.  Not modelled:
  flushes, timing, counters.
* **C107-C109** tree benchmarks `tree_get`, `tree_scan` and `tree_traverse`.  `BenchGModel` runs the inserts on the PBPTree model; C107 follows the one
  leaf through the fill loop (an odd capacity overwrites one key), C108 compares two sorted lists of the same map (C05, C97), C109 gives the levels of
  copies by their numbers in the heap.  Not modelled: timing, flushes, the array of copies of the leaf in `tree_get` and of trees in `tree_scan`.
* **C110-C112** computations of the table benchmarks and the random choice of keys in `performance_test.cpp` (`BenchPModel`).  C110: the array of
  keys not yet chosen and the chosen ones are a permutation of 1..T; the run is an `hist_ok` history of `MapSpec`.  C111: logarithm and bit field
  arithmetic, and when the progress test is met.  C112: the widths are the stated parts of the rows;
  the scan conditions filter the inserted rows; the selected keys are given exactly, which refutes the stated numbers for two of
  the four benchmarks.  Not modelled: the scans themselves (C43-C46), timing, reuse of an existing pool file.
* **C113-C114** `print` and `printLeafList` of the trees with sorted branch nodes (`PrintModel`).  A printed line is its indentation, node and keys.
  `PrintSpec.drawing` says what an outline of a tree is from the lines alone and the child pointers of the heap; the proof walks the ghost tree of
  the map theorems and compares the keys leaf by leaf with the scan.  Not modelled: the words around the keys, values (BPTree), the tests of
  children for nullptr; the classes with bitmap or slot branch nodes.
* **C115** `PTable::print` without the raw bytes (`TPrintModel`): per block the numbers printed, per column the free space and the two summary values.
  Proved from the table invariant of C41-C45: `texts` (`TPrintSpec`) relates each printed block to the rows stored in it, live and deleted; the live rows of all blocks together are the table.
* **C116** print of the wBPTree (`WPrintModel`): leaf slots with bit and key, branch keys and children in slot order. The bits printed with branch keys are read but not kept.
  `wdrawing` (`WPrintSpec`) uses `drawing` of C113 on branch nodes rearranged by slot (`in_order`). Proved for outward and ascending histories by comparison with the tree printing of C113 on the ghost heap; refuted for other histories with the witness of C47.
* **C117** print of the wHBPTree has the statements of wBPTree's, so `wt_print` serves for both. Proved for the restarts of C74 and the erases of C75 (`WhPrint`), refuted for restarts that leave a branch node without keys.
* **C118-C119** print of BitPBPTree and BitHPBPTree (`BPrintModel`): the used positions of a branch node from left to right, then position N.
  `bdrawing` (`BPrintSpec`) uses `drawing` of C113 on the branch nodes listed by position (`by_position`). The proof rearranges the ghost tree by position, so keys come out as a permutation of the stored ones. Positions printed with bit 0 are left out of branch lines. Histories with erases are covered under the guard of C70 (`BePrint`).
* **C04, C93** C04 is false (stale slot); true where the compared slot is harmless.  For PBPTree, BPTree and HPBPTree with N >= 5
  `AbsentProofs` gives the complete description: an erase of an absent key does nothing, does exactly what the erase of the largest
  key below does (the leaf cannot tell the two apart, hence nor can the tree), or is undefined; one slot of one leaf decides,
  with odd N together with the condition on branch nodes (`PathSpec`).  **C05** false for N = 4,
  **C09** false for odd N; both true without erase.  For every N >= 3 both are true for histories whose erases
  meet a condition on the nodes they pass (`PathSpec`: a node that gets too small has a neighbour that can lend,
  or the merged node fits), in particular while there are fewer than 2*ceil(N/2)*floor(M/2) entries.  From N = 5
  on the condition is exact: an erase that does not meet it is undefined (`PathProofs`).
* **C11** false (first leaf registered twice); lookups directly after `recover()` are right after any history, and
  with the registration repaired every later history is right.  **C16** `recover()` as a fold over
  the leaf list re-establishes the ghost tree, so all later histories follow.
* **C12, C14** instances with unsorted leaves.  **C13, C15** erase is false; the generic
  erase proof is parameterised by a condition on the leaf that gets too few entries, so that it is
  true for every history whose erases meet it (`EraseSpec`, `EraseG`), as well as within one leaf.
  For C13 the condition is exact: the erase is compared step by step with the one that frees the right leaf
  (`EraseX`), and the leaf freed instead turns out to be one a stored key is routed to.  For C15 likewise
  (`FEraseX`): the run is compared with one that moves the entries in the right direction; the two trees differ in two
  leaves and in one separator key, at whatever level it ends up, and a lookup in the second leaf is routed alike in both.
  The condition is always decided (`FSlotX`): every non-empty leaf has had its slot 0 written.
  With odd N the condition on branch nodes (`PathSpec`) joins in; `PathX`, `FEraseX` show that it too is always decided and
  exact: where it fails, the two branch nodes do not fit into one and the merge writes past the key array.
* **C17–C19, C31, C59, C62** stores (or transactions) as an explicit list; a power failure leaves a
  prefix.  C18, C19 and C59 are false; the guarded theorems say at which stores they hold.
* **C76 (erase), C77 (split)** the same for the other leaf operations.  A bitmap erase is one store.  In a split the
  entries leave the full leaf before the sibling is linked, so they are unreachable in between; the theorems give
  the exact store numbers, and that no entry is destroyed.  **C78, C79** the same for wBPTree and wHBPTree, whose slot
  array is moved store by store; a failure can also leave slots and bitmap in disagreement, which later inserts
  turn into lost entries or writes out of bounds (witnesses).  **C80 (merge)** nothing is lost at any failure point; entries
  appear twice for a while, and in FPTree the slot being written shows what was in it before.  **C81 (balancing)** per store:
  PBPTree loses receiver entries while it makes room at the front, UnsortedPBPTree the entry that fills the
  donor's gap; the bitmap trees lose nothing.
* **C88, C90 (persistent trees), C89 (hybrid trees)** insert and erase are no transactions, so a power failure between
  the updates of two levels leaves new children under old parents.  False for the persistent trees; the insert proof says which
  entries are hidden (an interval, with a bound on its entries) and that the leaf list is always complete.  From
  that `recover()` of the hybrid trees, which reads only the leaf list, restores everything.
* **C91 (erase after a restart of FPTree, HPBPTree)** refuted.  recover() builds the tree by appending leaves at the
  right edge, so the branch nodes of that edge can have 0 or 1 key.  With 0 keys, a leaf underflow finds no neighbour
  (`assert(false)`; without assertions the root becomes nullptr), `C91_refuted`; with 1 key the code for an underflow
  below the *root* runs one level too low and the tree is replaced by one leaf, `C91_lost_refuted`.  `C91_lone` shows
  for all reachable states that the first fault comes at every restart whose number of leaves is 1 modulo N + 1.
  `C91_partial`: histories of inserts, erases, restarts and inserts/erases interrupted between levels are the map if at
  each restart all digits of (leaves - 1) in base N + 1 but the leading one are at least 2 (`restart_ok`), and erases meet
  the condition of C15.  The proof shows that the rebuilt tree then has at least two keys in every inner branch node, which
  is all that the proof of erase needs.
* **C20–C28** words as numbers below 2^64; the parallel bit count, the de Bruijn table and rank
  selection are followed literally.  C21, C22, C27, C28 are false at their edges.
* **C23, C58** the generator is multiplication by 16807 modulo 2^31 - 1.
* **C29, C30, C57** array of nodes with per-level forward pointers; levels are arbitrary, and
  C29 is also stated for the levels drawn by the modelled generator.  **C32, C33, C60** the same
  with up to N entries per node.
* **C34–C36, C61** a node is a function from bytes to children.  Removing is described exactly.
* **C37, C38, C63** nodes with bit-compressed keys; keys as bit lists; invariant: the key of a child
  extends its parent's by the bit of the link.  The model has a parameter for the room behind
  an allocation since setKey writes past it.
* **C82, C83** bits of numbers and of byte strings, most significant first; loops as written, with the conversions of `int`
  to `size_t`.  **C84, C85** buffers are arrays with a length; the random engine is an argument.  **C86** counter
  modulo 2^32.  **C87** names as NUL-terminated arrays; an exception is an outcome of its own.
* **C39** deep embedding of the serialisable types, round trip by induction.
* **C40, C41** bitsets as numbers.  **C42, C54** layout arithmetic.  **C43–C46, C53, C55, C56** blocks as
  byte maps at the real block size; a block means a list of rows; a table means a map.
* **C49, C92 (range scans)** test the bit the wrong way round; for one leaf the result is given exactly (nothing, or a read of
  an unwritten slot), for any tree it is shown that only slots not in use are reported.
* **C49, C51, C52 (BitPBPTree)** false; witnesses by computation on the heap model.  `XTree` is the insertion
  proof for branch nodes known only by laws; the unsorted branch node of this class satisfies them for
  keys from 0 below the largest value and N not a multiple of 64 (there flip() of C22 loses the sibling's
  bits), which gives C52 there, and C51 for ascending histories.
* **C68, C69 (BitHPBPTree)** the same tree functions over leaves with a copying split.  recover() is compared
  step by step with the recovery of FPTree (same shape of nodes, sorted); a node with one child keeps it at
  children[0] while the search goes to children[N], so the tree works exactly if no digit of
  (leaves - 1) in base N + 1 is zero.
* **C70 (erase of both)** `BitEModel` has all of the erase functions.  Most of the repairs are wrong (four
  witnesses).  `BitESpec` is the same erase with a check in front of every repair; as long as it gets through,
  the real erase does the same and the tree means the abstract map.  Proved with the ghost heap of `XTree`.
* **C47, C48, C64–C67 (wBPTree)** the bitmap, slot, key and value arrays as they are; a leaf means a
  sorted association list held at the positions the slots name.  The leaf functions are proved
  from a cell-by-cell description of leaves; insert, lookup and scan of whole trees are modelled and
  refuted beyond one leaf; its branch nodes satisfy the laws of `XTree`, so ascending (C64) and outward
  (C47) histories are right in trees of any depth as far as findLeafNode is not involved.
* **C72 (erase of wBPTree)** `WbEModel` has all of the erase functions; seven witnesses, one per defect.  `WbESpec`
  decides before each operation whether its repairs are of the kinds that work; for histories that keep to these, the
  tree means the abstract map (same ghost heap as C70).  `WbEBalance`: what balanceBranchNodes and mergeBranchNodes
  leave behind, against a cell-by-cell description of a branch node (`branch_holds`); the position the donor loses
  is part of the statement.
* **C73–C75 (wHBPTree)** the nodes and most functions are those of wBPTree statement by statement, so its models are
  used; `WhModel` has what differs: both scans, recovery, the repair of leaves.  Recovery is proved by a
  simulation with the recovery of FPTree (`WhRec`), whose result is the same ghost tree; `rec_fits` says for which
  leaf counts its nodes are also where insert and erase look.  Erase (`WhErase`) is shown equal to that of wBPTree
  where the position read for the separator is the right one (`WhESpec`).
* **C71 (iterators)** the loop from begin() to end() is compared with the scan along the leaf chain, leaf by leaf, in
  any state whose leaves are not empty; the invariants of the map theorems say that none is empty unless the tree
  is.  On an empty tree begin() is out of bounds (witness).
* **C50** heap model of the inline/heap string.

Nothing in the list is marked inexpressible.

## Mutation testing

`seeded/LOG.jsonl` has one line per edit of the model made in a scratch copy: the definition, the
edit, the claim it breaks and the theorems that no longer compile.  Edits that no theorem noticed
led to the theorems named in the last field.

## Notes on the code that are not properties

* FPTree's insert stores `rootNode.branch = root` without updating the tag of the union.
* The three-argument constructor of `PTableInfo` that `PTable` calls does not exist, and `keyColumn`
  is never initialised; the model takes the key column as a parameter.
