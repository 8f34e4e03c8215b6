# Formal model of henderiw/idxtable in Rocq (Coq 8.16.1)

`/repo` is read as text; nothing of it is built or run. Build the proofs in
`/verif/rocq` with `coq_makefile -f _CoqProject -o Makefile && make -j4`.

## 1. Layout (rocq/theories)

For every package there is one family of files:

* `XModel.v` – the code, function by function, as executable Gallina without
  proofs. Every definition cites the file and lines it models. A wrong edit of a
  model still compiles; only the proofs stop.
* `XSpec.v` – the vocabulary of the statements (maps, sets, prefixes, histories,
  executions). It does not use helper functions of the model.
* `XProofs.v` and others – lemmas.
* `XFinal.v` – one lemma `Cnn_name_pf` per theorem.
* `Props_X.v` – generated from `XFinal.v` and `tools/examples/X.in` by
  `tools/gen.sh`: every theorem in full, closed by `exact`, with
  `Print Assumptions` and an `Example` that meets its hypotheses.

| family | code |
|---|---|
| `GoBase`, `TreeEntry` | Go integers, results, pkg/tree/entry.go |
| `IdxTable*` | pkg/idxtable: table.go, iterator.go, entry.go |
| `TableN*` | pkg/table/table16, table32, table64 |
| `IPTable*` | pkg/iptable, and what it uses of net/netip and netipx |
| `Id*` | pkg/tree/id16, id32, id64: ids, masks, ranges, ParseRange, String |
| `IdSet*` | the same packages: mergeRanges, IDSetBuilder, IDSet, RemoveFreePrefix |
| `Tree*` | pkg/tree: tree.go, node.go, tree_manual.go |
| `GTree*` | pkg/tree/tree16, tree32, tree64, pkg/tree/gtree |
| `Tree64*`, `GTree64Proofs`, `TreeSim` | the same model over 64-bit ids |
| `Conc*` | goroutines and sync.RWMutex, independent of the package |
| `IdxConc*`, `TableConc*`, `TableLinProofs`, `ConcFinal` | the tables used from several goroutines |
| `GTreeConc*` | the trees used from several goroutines |
| `Clone*` | Clone of the trees, with their arrays and maps at addresses in memory |
| `Label*` | label sets as shared Go maps, over the models of the tables and trees |
| `Main*` | test/main.go: main, handleId, GetLabelSelector |
| `RepoTests` | the cases of the repository's eight `_test.go` files, run in the model |

Inside `Tree*`: `TreeBits` (prefixes as bit lists), `TreeGhost` (the array and
capacity), `TreeHeap` (node array to abstract trie), `TreeAdd`, `TreeIns`
(insertion), `TreeInv` (invariant), `TreeDel`, `TreeDelete` (deletion),
`TreeIter` (iterator), `TreeMain` (refinement to a map of prefixes). `TreeSim`
simulates the tree over 64-bit ids, whose prefixes share one value, by the tree
of the same ids with values of type unit. `TreeShape` simulates every tree, with
any number of values, by a tree of marks: its nodes are the same and each holds
one mark or none. So the statements about nodes need no bound on the values; the
bound on node indices in `TreeHeap` (class `kbound`) depends on the value type,
the keys of marks being irrelevant because all marks are equal. `TreeShapeIter`
uses it for the iterator.
Inside `Conc*`: `ConcProofs` (lock discipline, mutual exclusion, no deadlock, no
race, linearizability of locked methods), `ConcRuns` (what holds at every step
of every execution), `ConcLin` (linearizability of calls that make several
method calls), `ConcLocks` (no deadlock with unlocked accesses; executions
without writers), `ConcStable` (executions in which something about the data
stays true), `ConcTimed` (what one call reads, and at which moments), `ConcPrune`
(calls that differ only where a method returns what it never returns).

`tools/props.py` writes properties.jsonl, `tools/manifest.py` writes
MANIFEST.json from the theorem names and `tools/status.json`.

## 2. Modelling conventions

* Go unsigned integers are `N`; wherever an operation can wrap, the wrap
  (`mod 2^w`) is in the model. `uint`/`int` are 64-bit. `int` counters that only
  count stored values are unbounded.
* Errors are values (`Err e`), panics are values (`Panic`), nil interfaces are `None`.
* Go maps are std++ `gmap`; iteration order does not matter because every use in
  the code sorts the keys (`merge_sort`) or only counts them.
* `sort.Slice` is `merge_sort`. The comparisons used are strict total orders
  (C20 for ranges), so every sorting algorithm gives the same list.
* Loops are structural recursion or recursion on explicit fuel. Running out of
  fuel is `Panic`, which the theorems exclude.
* Labels are an abstract type with their string (`labels.Set.String()`); a
  selector is an arbitrary predicate on labels. For C71 the type is instantiated
  with references to label maps in a heap (`LabelModel`), as Go maps are; histories
  of the trees leave the strings of the labels free at every call, so they cover
  label maps that change between calls. For C76 the string is that of
  labels.Set (k8s.io/apimachinery): key=value, sorted, joined with commas. For
  C91 a selector is a conjunction of requirements key=value; which pairs
  labels.NewRequirement accepts is a parameter.
* Ids are values. The code compares ids as interfaces, and some of its functions
  return pointers to ids (`IDs()` of a range): a caller who passes such a pointer
  to `SetFrom` or `SetTo` gets a range whose bounds equal no other id. This is not
  modelled. Entries copy the id (`NewEntry`), so it does not concern the trees.
* The packages that differ only in their width are one program over a record of
  constants (`tn_cfg`, `idcfg`, `gcfg`), filled with the literal constants of
  each package, including the wrong ones (mask tables entry by entry).
* Slices with spare capacity and pointers into them: the radix tree keeps
  pointers into `nodes` during an insertion. The model counts the appends that
  move the array (`t_gen`), and C34 shows there are none while a pointer is live.
* Trees are values in `Tree*` and `GTree*`. `Clone*` puts the two arrays and the
  map of each tree at addresses, and a call reads and writes at the addresses of
  its tree; it is one step, and one that panics may leave any contents there.

## 3. Concurrency

A goroutine is a list of calls; a call is a program of steps: lock operations,
reads and writes of the shared data, and reads outside any lock. One machine step
is one step of one goroutine; a schedule is an arbitrary list of goroutine
numbers; the history records starts and ends of calls with their results. An
announced writer keeps new readers out (documentation of RWMutex). C64 proves
that a call with no other call around does exactly what the sequential model
does, which ties the two descriptions of each method together.

Simplifications:
* The order in which blocked goroutines wake up is left open (more executions).
* Going through all keys of a Go map (`Iterate` of idxtable) is one read.
* One `Next` and one `Entry` of an iterator of the radix tree are one read each;
  the loop is bounded by the number of nodes when the iterator is made.
* A modification of the radix tree is one read (does it panic) and one write; a
  modification that panics leaves the tree as it was.
* A panic releases the lock (the code uses defer).
* Go's fatal "concurrent map" errors are not modelled as crashes; the states in
  which they can happen are those C62 calls racing.

## 4. Properties and how they are proved

| id | plan |
|---|---|
| C01-C11 | refinement of the table to a finite map, by induction over histories; characterisation of the loops over the sorted free keys |
| C12-C16 | index translation over C01, including the wrap-arounds |
| C17-C19, C56, C81, C82 | 128-bit arithmetic with the 64-bit truncations written out |
| C20-C26, C68-C70 | bit-level lemmas, recursion on the highest differing bit, strings |
| C27-C30, C57, C58, C86, C87 | ranges as sets of `N`, canonical lists of intervals, induction over the builder's calls |
| C31-C36, C72, C88 | representation predicate from node array to an inductive trie, trie to a map of prefixes; for C88 the keys in use, call by call |
| C36, C60 (independence) | invariant: no two trees share an address; induction over the calls and clones |
| C37-C49, C59, C60, C77, C79 | calls of the trees as a refinement of a finite map of prefixes, over C31-C35 and the id-set theorems |
| C32-C35 | simulation by a tree of marks, for every sequence of calls and every width |
| C73, C74 | simulation by a tree of unit values, over the refinement of C31-C35; induction over the calls |
| C75 | positions of the iterator, over C08 |
| C71, C76 | references and a heap, over C12, C14, C37, C41-C44, C49; strings |
| C89-C91 | the loops as runs of calls, over C37, C41, C42, C44, C59, C79 |
| C78 | hindsight linearization: a ReleaseID that finds nothing to delete is placed before the claim or release that overtook it |
| C50-C55, C61-C67, C80, C83-C85 | invariants of the machine over all schedules; linearization points; deadlocks, races, crashes as explicit schedules |

A property that is false of the code has a theorem `_refuted` with a witness (or
for all states, where that is true), and the part that holds as `_partial` or as
a characterisation. The MANIFEST then says `partial` with a note.

## 5. Findings (all proved as theorems)

idxtable
* `NewTable(0)` accepts every uint64: `size-1` wraps (C03).
* `ClaimRange` claims another id when the last requested one is in use, claims
  two for a request of one, refuses a free last slot, accepts size 0 (C07).
* `GetAll` read-locks twice; with a waiting writer both block forever (C51, C65).
* The iterator's `Value` reads the live map without the lock (C11, C62).

table16/32/64, iptable
* A table over the full range never finds a free id (size wraps to 0) (C13).
* `Get` returns an entry whose id is the offset, not the id (C15).
* Label sets are stored by reference: a later change of the caller's map changes
  the entry, in the tables and in the trees (C71).
* `Entry.Equal` compares the texts of the labels, which a comma in a value can
  make equal (C76).
* table16's `GetAll` and `GetByLabel` build ids of length 32 (C14).
* iptable identifies addresses 2^64 apart; FindFree fails on a /64 (C17-C19, C82).
* iptable.New accepts bounds that are no range, or have a zone; FindFree then returns an address that Claim refuses (C81).
* `ClaimFree` checks and claims in two steps and can fail though ids are free (C53).
* `GetByLabel` reads the live map: crash with a concurrent Release (C55, C62,
  C83). In iptable it looks an address up twice, so that with an Update in between it
  returns data that do not match the selector (C84).

id16/32/64
* `Next` of the largest value is 1 (C21). In id64 `Prev` works on 32 bits (C21),
  `Mask` stops at 32 (C22), `mask6[0]` is wrong (C22, C24).
* `IDs()` of a reversed range is not empty (C25), and `ClaimRange("20-9")`
  is not refused: it claims 0-9 and 20-31 (C77).
* id64: removing a range that starts at 2^32 or above inside of an added one loses
  ids (C27).
* Adding [1,x] to a set with the largest value merges wrongly (C27; C86 says what
  is lost).
* `AddId`/`RemoveId` panic on ids longer than the width (C29).
* id64: IDs, IDSets and RemoveFreePrefix are wrong or panic (C24, C28-C30, C57, C58). IDs of a set is right exactly if no range has the shape `id64_bad_range`; RemoveFreePrefix of a length above 32 panics exactly if there is a block to return. With a length of 0 to 32 it finds a block, and loses the value before it exactly if the block starts inside a range. Of a set with a range of that shape it can take a prefix that is not in the set (C30_id64_bad_range_refuted, C58_id64_refuted).
* `OverlapsStartOf`/`OverlapsEndOf` hold for disjoint ranges (C69).

tree, tree16/32/64
* The value key `index << width` is 64 bits: all nodes of an id64 tree share
  their values, and in an id16 tree the 65537th value of a prefix overwrites a
  value of another (C31, C48).
* `Clone` drops the length and the bit function; the copy answers wrongly or
  panics (C36, C60). It is independent of the original, though: no calls on one
  of them change the other, whatever is cloned from either.
* `ClaimID` overwrites claimed ids (C38); `ClaimRange` does not check the size,
  does not lock and overwrites (C39, C62).
* `Parents` returns every comparable entry shorter than the width (C44).
* `ClaimFree` ignores an entry that covers the whole tree (C45); in tree32 the
  root prefix has the wrong length, so trees longer than 16 hand out only the ids
  below 2^(32-n), and shorter ones fail after a ClaimRange above their size (C46);
  in tree64 it always panics (C47).
* tree64 remembers one entry for all its prefixes: a claim hides the ones before
  it, and after a release of the last one every read panics (C48, C74). By the model
  the repository's own tree64 test, which claims two ids and gets both, fails
  (`tree64_TestClaim` in `RepoTests`).
* `ClaimID` of an id longer than the width makes `ClaimFree` panic (C59).
* Get, Children, Parents, ClaimFree and ReleaseID read-lock twice: deadlock with
  any writer (C61). Two concurrent ClaimFree return the same id (C54); apart from
  that the locked calls behave as if one after another, with ClaimFree as a
  ClaimID of the id it returned (C78).
* GetAll, GetByLabel, Size and ReleaseByLabel iterate without the lock: data race
  (C62), and a crash if a ClaimID or ReleaseID that adds or removes an id comes in
  between; claims of stored ids do no harm (C67).

## 6. Trusted base

* Coq 8.16.1's kernel, with `vm_compute` (used in examples, witnesses and
  checks over the mask tables).
* `Print Assumptions` says "Closed under the global context" for every theorem in
  MANIFEST.json. No axioms are added. The checker also lists the fields of
  `Coq.ssr.ssrunder` (a module type of the standard library that is loaded);
  no theorem depends on them.
* Libraries: Coq's standard library and std++ (gmap, lists, tactics).
* The reading of the Go source: that the definitions in `*Model.v` say what the
  cited lines do, with the simplifications above and in their comments.

Modelled: all functions of pkg/idxtable, pkg/table/*, pkg/iptable, pkg/tree,
pkg/tree/gtree, pkg/tree/id*, pkg/tree/tree*, and of test/main.go, except the ones below. Of the
libraries: strconv.ParseUint, strings.IndexByte, math/bits, net/netip.Addr and
netipx.IPRange as far as used; netip.ParseAddr is an arbitrary function.

Not modelled: the text of printed lines (which lines `PrintNodes` and
`PrintValues` print is modelled), the texts of errors, the JSON tags, the test functions
(their cases are run in `RepoTests`); labels and
selectors of k8s.io/apimachinery beyond what section 2 says; memory exhaustion
and slice lengths beyond 2^63; goroutine scheduling beyond arbitrary interleaving.

## 7. Tests of the theorems

`seeded/LOG.jsonl` lists edits of the models that imitate realistic bugs, made in
a scratch copy, with the theorems whose proofs then fail. Where an edit survived,
a theorem was added or tightened (field `theorems_tightened`), or the edit does
not change the program (field `note`).

How to read `theorems_failed`: after an edit each proof that no longer goes through
is replaced, in the scratch copy, by a stub, and a theorem is listed when its proof
rests on at least one stub. So a listed theorem is one the old proof no longer
establishes; that it has become false is not shown for each of them. An edit that
keeps the behaviour but breaks an invariant of the memory layout lists theorems too
(for instance the last `delete_node` edit, whose `claim_broken` says that it has no
effect on the API). An edit with an empty list is evidence against the theorems, an
edit with a long list is only weak evidence for them.
