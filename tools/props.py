import json
P=[]
def p(title, statement, quantifier, why, anchors):
    P.append(dict(id="C%02d"%(len(P)+1), title=title, statement=statement, quantifier=quantifier, why_tests_cant=why, anchors=anchors))
T="pkg/idxtable/table.go"
# ---- idxtable
p("idxtable: single-id operations behave like a bounded map",
  "For a Table created with NewTable(size), size >= 1, every sequence of Claim, Update, Release, Get, Has, IsFree and Size calls returns exactly what a plain finite map from ids in [0,size) to data would return: Claim inserts only into a free in-range id, Update overwrites only a claimed in-range id, Release removes an in-range id, Get returns the last data written, and every failing call leaves the table unchanged.",
  "every size >= 1, every finite sequence of operations with arbitrary ids and data",
  "the claim is about all operation histories; tests run a handful of short ones",
  [T+": Get, Claim, Release, Update, Has, IsFree, Size, add, update, delete, validate"])
p("idxtable: an id is never handed out twice",
  "In any history of operations on one table, between two successful claims (by Claim, ClaimDynamic, ClaimRange or ClaimSize) that cover the same id there is a Release of that id; and no claim ever changes the data of an id that is already claimed.",
  "every table size, every finite operation history, every id",
  "double allocation depends on the history; it cannot be excluded by sampling histories",
  [T+": Claim, ClaimDynamic, ClaimRange, ClaimSize, add"])
p("idxtable: claimed ids stay inside the table",
  "In every reachable state of a table created with NewTable(size), every claimed id is smaller than size (so Size() never exceeds size).",
  "every size, every finite operation history",
  "an invariant over all reachable states, including the size = 0 corner where size-1 wraps around",
  [T+": validate, NewTable"])
p("idxtable: ClaimDynamic takes the lowest free id",
  "ClaimDynamic succeeds exactly when some id in [0,size) is unclaimed; it then claims the smallest such id with the given data, returns an entry with that id and data, and changes nothing else. FindFree reports that same id without claiming it.",
  "every table size, every reachable table state, every data value",
  "must hold in every occupancy pattern of the table",
  [T+": ClaimDynamic, FindFree, iterateFree", "pkg/idxtable/iterator.go: Next, ID"])
p("idxtable: ClaimSize takes the n lowest free ids or nothing",
  "ClaimSize(n), n >= 1, succeeds exactly when at least n ids are free; it then claims exactly the n smallest free ids, returns their entries in ascending order, and touches no other id. Otherwise it returns an error and the table is unchanged. ClaimSize(0) is an error that changes nothing.",
  "every table size, every reachable state, every n",
  "quantifies over all occupancy patterns and sizes, and over failure in the middle of the loop",
  [T+": ClaimSize, FindFreeSize, findFreeSize"])
p("idxtable: bulk claims are all-or-nothing",
  "When ClaimRange or ClaimSize returns an error the table is exactly as before; when they succeed, every id they claimed was free before, lies in [0,size), and every other id keeps its entry.",
  "every table size, every reachable state, every start, size (including wrap-around of start+size-1) and data",
  "partial application could occur at any element of the loop in any state",
  [T+": ClaimRange, ClaimSize, findFreeRange, add"])
p("idxtable: ClaimRange claims exactly the requested ids",
  "ClaimRange(start,n) succeeds exactly when n >= 1, start+n <= size and all of start..start+n-1 are free; on success exactly the ids start..start+n-1 become claimed. FindFreeRange(start,n) returns exactly those ids.",
  "every table size, every reachable state, every start and n",
  "depends on the occupancy just outside and at the edges of the requested range, for every state",
  [T+": ClaimRange, FindFreeRange, findFreeRange", "pkg/idxtable/iterator.go: IsConsecutive"])
p("idxtable: iterators enumerate each id exactly once in ascending order",
  "Iterate yields exactly the claimed ids in strictly ascending order with their current data, and then Next returns false; IterateFree yields exactly the unclaimed ids of [0,size) in strictly ascending order; GetAll returns the entries of Iterate in the same order.",
  "every table size and every reachable state",
  "order and completeness must hold for all key sets, while map iteration order is random",
  [T+": Iterate, IterateFree, GetAll, iterate, iterateFree", "pkg/idxtable/iterator.go: Next, ID, Value"])
p("idxtable: claimed plus free is the whole table",
  "In every reachable state of a table with size >= 1, Size() plus the number of ids yielded by IterateFree equals size, and an id in [0,size) is yielded by exactly one of Iterate and IterateFree.",
  "every size >= 1, every finite history",
  "a conservation law over all reachable states",
  [T+": Size, Iterate, IterateFree"])
p("idxtable: a released id can be claimed again",
  "After Release(id) of an in-range id, IsFree(id) holds, Claim(id,d) succeeds and Get(id) then returns d; releasing an unclaimed in-range id succeeds and changes nothing; Claim followed by Release of a previously free id restores the table exactly.",
  "every table size >= 1, every reachable state, every in-range id and data",
  "must hold in every state, not only in those a test builds",
  [T+": Release, Claim, delete"])
p("idxtable: an open iterator reads the live table over a fixed key list",
  "The ids an iterator yields are those claimed when it was created, whatever happens later; Value() returns the entry stored at the time of the Value() call, hence nil for an id released meanwhile.",
  "every table state at creation, every later sequence of operations",
  "the effect appears only when mutations fall between creation and use of the iterator, at any point of any history",
  [T+": Iterate, iterate", "pkg/idxtable/iterator.go: Value"])
# ---- tables
t16="pkg/table/table16/table16.go"; t32="pkg/table/table32/table32.go"; t64="pkg/table/table64/table64.go"
p("table16/32/64: a table over [start,end] behaves like a map over exactly that interval",
  "For New(start,end) with start <= end, Claim, Update, Release, Get, Has, IsFree and Size behave like a finite map keyed by the external ids in [start,end]: ids outside are rejected by every call and never change anything, distinct ids never interfere, and Claim succeeds exactly on unclaimed ids of the interval.",
  "every start <= end of the width, every operation history, every uint64 id, all three widths",
  "the index arithmetic wraps at the width and must be injective for all bounds and ids",
  [t16+": New, validateID, calculateIndex", t32+": same", t64+": same"])
p("table16/32/64: ClaimFree hands out the lowest unclaimed id of the interval",
  "For New(start,end) with start <= end, FindFree and ClaimFree succeed exactly when some id of [start,end] is unclaimed; they return the smallest such id, and ClaimFree claims it with the given labels and nothing else.",
  "every start <= end (including the full range of the width), every reachable state, all three widths",
  "must hold for every bound pair, including the one where end-start+1 wraps to zero",
  [t16+": ClaimFree, FindFree, calculateIDFromIndex", t32+": same", t64+": same"])
p("table16/32/64: GetAll and GetByLabel report external ids",
  "GetAll returns one entry per claimed id, in ascending order, carrying the external id and the labels last written; GetByLabel(sel) returns exactly the entries of GetAll whose labels match sel, in the same order.",
  "every start <= end, every reachable state, every selector",
  "the remapping index -> id must be right for all bounds and all claimed sets",
  [t16+": GetAll, GetByLabel", t32+": same", t64+": same"])
p("table16/32/64: Get returns an entry that carries the id asked for",
  "If Get(id) succeeds, the returned entry's ID().ID() equals id and its labels are those last claimed or updated for id.",
  "every start <= end, every reachable state, every id",
  "holds for start = 0 in any test, so only a statement over all bounds settles it",
  [t16+": Get, Claim, Update", t32+": same", t64+": same"])
p("table16/32/64: a table with start > end is inert",
  "For New(start,end) with start > end, every Claim, Update, Release and Get returns an error, Has and IsFree return false, ClaimFree never succeeds and the table stays empty.",
  "every start > end, every operation history, all three widths",
  "the constructor's subtraction wraps, so the claim concerns all wrapped sizes",
  [t16+": New, validateID, ClaimFree", t32+": same", t64+": same"])
# ---- iptable
ip="pkg/iptable/iptable.go"
p("iptable: addresses and indexes correspond one to one",
  "For an address range [from,to] of one family, calculating the index of an address of the range and converting back gives the address, with its family; distinct addresses of the range get distinct indexes; index 0 is from.",
  "every pair of IPv4 or IPv6 bounds, every address of the range",
  "128-bit arithmetic truncated to 64 bits; only a proof covers all ranges",
  [ip+": calculateIndex, calculateIPFromIndex, ipToInt, numIPs"])
p("iptable: the table behaves like a map over the addresses of the range",
  "Claim, Update, Release, Get, Has, IsFree and Size on New(from,to) behave like a finite map keyed by the addresses in [from,to]: addresses outside the range or unparsable strings are rejected, distinct addresses never interfere, and Claim succeeds exactly on unclaimed addresses of the range.",
  "every valid range, every operation history, every address string",
  "independence of distinct addresses must hold for all ranges, including ones wider than 2^64",
  [ip+": Claim, Get, Update, Release, Has, IsFree, validateIP, New"])
p("iptable: FindFree returns the lowest unclaimed address",
  "FindFree succeeds exactly when some address of the range is unclaimed and then returns the lowest one, which lies in the range, and the following Claim of it succeeds.",
  "every valid range and reachable state",
  "quantifies over all ranges and occupancy patterns",
  [ip+": FindFree, calculateIPFromIndex, numIPs"])
# ---- ids
i16="pkg/tree/id16"; i32="pkg/tree/id32"; i64="pkg/tree/id64"
p("ids: Compare is a total order and Less agrees with it",
  "Compare is antisymmetric and transitive, returns 0 only for identical ids, orders by length and then by value, and Less(a,b) holds exactly when Compare(a,b) = -1. Range.Less is a strict total order on ranges.",
  "all ids (value, length) of the width",
  "algebraic laws over all pairs and triples",
  [i16+"/id16.go: Compare, Less", i32+"/id32.go: same", i64+"/id64.go: same"])
p("ids: Next and Prev step by one",
  "Next(id) has value id+1 and the same length, and is the zero ID when id is the largest value; Prev(id) has value id-1 and the same length, and is the zero ID when id is 0; Prev(Next(id)) = id and Next(Prev(id)) = id away from the ends.",
  "all ids of each width",
  "borrow/carry and truncation bugs hide at single values out of 2^64",
  [i16+"/id16.go: Next, Prev", i16+"/myuint16.go: addOne, subOne, Sub16, Add16", i32+"/myuint32.go: addOne, subOne", i64+"/myuint64.go: addOne, subOne"])
p("ids: masking and prefix ranges",
  "Mask(l) keeps exactly the l leading bits and clears the rest, for 0 <= l <= width, and reports an error for larger l; RangeOfID(id) is the interval of exactly those values whose leading id.Length() bits agree with id.",
  "all values and lengths of each width",
  "table-driven masks: a single wrong entry out of 65 is not found by sampling",
  [i16+"/range16.go: RangeOfID, LastID", i16+"/id16.go: Mask, Masked", i32+": same", i64+": same", i64+"/myuint64.go: mask6"])
p("ids: Overlaps decides intersection of prefixes",
  "For ids of length at most the width, a.Overlaps(b) holds exactly when the value sets of the prefixes a and b intersect, equivalently when one contains the other.",
  "all pairs of ids of each width",
  "quantifies over all pairs",
  [i16+"/id16.go: Overlaps", i32+": same", i64+": same"])
p("ranges: IDs decomposes a range into exactly its prefixes",
  "For from <= to, Range.IDs() returns prefixes in ascending order, pairwise disjoint, canonical (no bits set beyond the length), whose union is exactly [from,to], and no shorter list of prefixes has that union.",
  "all pairs from <= to of each width",
  "recursion over bit patterns; 2^64 input pairs even for the smallest width",
  [i16+"/range16.go: IDs, appendRangeIDs, compareIDs", i32+": same", i64+": same"])
p("ranges: a reversed range denotes no ids",
  "For from > to, Range.IsValid() is false and Range.IDs() covers no id.",
  "all pairs from > to of each width",
  "quantifies over all pairs",
  [i16+"/range16.go: IsValid, IDs", i16+"/range16.go: ParseRange"])
p("ranges: ParseRange accepts exactly decimal pairs that fit",
  "ParseRange(s) succeeds exactly when s is two non-empty strings of decimal digits separated by the first hyphen, each denoting a value below 2^width, and returns those bounds; in particular ParseRange(r.String()) = r.",
  "all byte strings",
  "infinitely many inputs; overflow handling of ParseUint at the width",
  [i16+"/range16.go: ParseRange, String", i32+": same", i64+": same"])
p("id sets: the builder computes set union and difference",
  "After any sequence of AddId, AddRange, AddSet, RemoveId, RemoveRange with valid arguments, IPSet() returns no error and a set whose members are exactly the ids obtained by performing the same unions and differences in order on mathematical sets.",
  "all finite sequences of builder calls, all valid arguments of each width",
  "lazily merged interval lists; correctness depends on all overlap patterns",
  [i16+"/idset.go: AddRange, RemoveRange, normalize, IPSet", i16+"/range16.go: mergeRanges", i32+": same", i64+": same"])
p("id sets: Ranges is the unique minimal sorted representation",
  "Ranges() of a built set lists valid ranges in ascending order, pairwise disjoint and not adjacent; two built sets with the same members have the same Ranges().",
  "all finite sequences of builder calls",
  "canonical form must hold for all interval configurations",
  [i16+"/idset.go: Ranges, normalize", i16+"/range16.go: mergeRanges", i32+": same"])
p("id sets: building never panics",
  "No sequence of builder calls with ids of any length and valid ranges panics; an invalid range or an id of excessive length is reported through the error of IPSet() instead.",
  "all finite sequences of builder calls, all ids including lengths above the width",
  "the panics sit behind 'cannot happen' branches of a case analysis over overlaps",
  [i16+"/idset.go: normalize, AddId, RemoveId", i16+"/range16.go: RangeOfID", i32+": same", i64+": same"])
p("id sets: RemoveFreePrefix takes a contained prefix or reports that none exists",
  "RemoveFreePrefix(l), l <= width, returns ok exactly when the set contains some full prefix of length l; the returned id has length l, all its values are in the set, and the returned set is the original minus exactly those values.",
  "all built sets, all lengths",
  "completeness ('none exists') ranges over all prefixes",
  [i16+"/idset.go: RemoveFreePrefix", i32+": same", i64+": same"])
# ---- tree
tr="pkg/tree/tree.go"
p("tree: the radix tree is a map from prefixes to values",
  "After any sequence of Set, Add and Delete with ids of length at most the width, the tree holds for every prefix exactly the values a plain map from prefixes (leading Length() bits) to value lists would hold; Set, Add and Delete return the counts that map gives.",
  "all finite operation sequences, all ids of the width, all values",
  "path compression, node splitting and merging depend on the whole history of prefixes",
  [tr+": Set, Add, add, Delete, DeleteWithBuffer, deleteNode, addVal, deleteVal, moveTags", "pkg/tree/node.go", "pkg/tree/tree_manual.go: newNode, MergeID16, MergeID32, MergeID64"])
p("tree: internal panics are unreachable",
  "No sequence of Set, Add, Delete and Iterate on a tree of any width with ids of length at most the width reaches any of the tree's panics or an out-of-range access.",
  "all finite operation sequences with ids of length at most the width",
  "'should be impossible' branches need an invariant over all reachable shapes",
  [tr+": add (panics), Next (unexpected state)", "pkg/tree/node.go: MergeFromNodes"])
p("tree: the iterator visits every stored prefix exactly once and stops",
  "Iterating over a tree that is not modified meanwhile terminates, visits every prefix that holds values exactly once, a prefix before its extensions and bit 0 before bit 1, yields the values stored there (those a Delete of the prefix would compare with), and then Next returns false.",
  "all reachable trees",
  "termination and completeness of a stateful traversal over all shapes",
  [tr+": Iterate, Next, Vals, ValsWithBuffer"])
p("tree: no pointer into the node array goes stale during an insertion",
  "During one Set or Add the node array is never reallocated after the initial capacity check, so the node pointers the insertion keeps across newNode stay valid.",
  "all reachable trees, all ids",
  "a stale pointer loses an update only at particular length/capacity/free-list combinations",
  [tr+": add (capacity check)", "pkg/tree/tree_manual.go: newNode"])
p("tree: memory stays proportional to the stored prefixes",
  "In every reachable tree the number of node slots is at most twice the maximum number of prefixes that have held values at the same time plus two; deleted slots are reused before the array grows, and a node without values other than the root always has two children.",
  "all finite operation sequences",
  "a leak shows up only over long histories",
  [tr+": deleteNode", "pkg/tree/tree_manual.go: newNode"])
p("tree: Clone is an independent identical copy",
  "Clone() returns a tree on which every query answers as on the original, and later changes to either do not affect the other.",
  "all reachable trees, all later operation sequences",
  "quantifies over all trees and continuations",
  [tr+": Clone", "pkg/tree/tree16/tree16.go: Clone", "pkg/tree/tree32/tree32.go: Clone", "pkg/tree/tree64/tree64.go: Clone"])
g16="pkg/tree/tree16/tree16.go"; g32="pkg/tree/tree32/tree32.go"; g64="pkg/tree/tree64/tree64.go"
p("gtree: Get returns what was last claimed",
  "After ClaimID or Update of a prefix with labels l succeeded and until that prefix is claimed, updated or released again, Get of it returns an entry with that id and labels l, whatever is done to other prefixes; Get of a prefix never claimed, or released, is an error.",
  "all operation histories, all canonical ids, widths 16, 32 and 64",
  "values are found by path through a shared node array; interference needs particular histories",
  [g16+": Get, ClaimID, Update, set", g32+": same", g64+": same", tr+": addVal (key)"])
p("gtree: ClaimID refuses an id that is already claimed",
  "ClaimID of an id that is currently claimed returns an error and leaves the existing entry unchanged.",
  "all reachable trees, all ids and labels",
  "must hold in every state",
  [g16+": ClaimID", g32+": ClaimID", g64+": ClaimID"])
p("gtree: claimed ids stay inside the configured size",
  "In a tree created with New(name, length), every claim of an id above 2^length - 1 is refused, so every stored entry's id is at most 2^length - 1.",
  "all lengths up to the width, all operation histories",
  "an invariant over all histories, including range claims",
  [g16+": New, validate, ClaimID, ClaimRange", g32+": same", g64+": same"])
p("gtree: ReleaseID removes exactly one prefix",
  "ReleaseID of a claimed id makes Get of it fail and leaves every other prefix's entry in place; ReleaseID of an unclaimed id succeeds and changes nothing.",
  "all reachable trees, all canonical ids",
  "deletion merges nodes; interference depends on tree shape",
  [g16+": ReleaseID, del", g32+": same", tr+": DeleteWithBuffer, deleteNode"])
p("gtree: ReleaseByLabel removes exactly the matching entries",
  "After ReleaseByLabel(sel) the stored entries are exactly those of before whose labels do not match sel; GetByLabel(sel) is then empty.",
  "all reachable trees, all selectors",
  "many deletions in one call, over all shapes",
  [g16+": ReleaseByLabel, GetByLabel, del", g32+": same"])
p("gtree: GetAll, GetByLabel and Size agree with the stored entries",
  "GetAll lists every stored entry exactly once in prefix order, Size() is its length, and GetByLabel(sel) is the sublist whose labels match.",
  "all reachable trees, all selectors",
  "completeness over all shapes",
  [g16+": GetAll, GetByLabel, Size", g32+": same"])
p("gtree: Children returns exactly the more specific entries",
  "Children(id) returns exactly the stored entries whose prefix is a strict extension of id's prefix.",
  "all reachable trees, all ids of length at most the width",
  "quantifies over all trees and ids",
  [g16+": Children", g32+": Children"])
p("gtree: Parents returns exactly the less specific entries",
  "Parents(id) returns exactly the stored entries whose prefix is a strict prefix of id's.",
  "all reachable trees, all ids of length at most the width",
  "quantifies over all trees and ids",
  [g16+": Parents", g32+": Parents"])
p("tree16: ClaimFree hands out an id no entry covers, and fails only when none is left",
  "On a tree16 created with length n, ClaimFree returns an id in [0,2^n) that is not covered by any stored entry, stores it, and returns an error only if every id of [0,2^n) is covered.",
  "all lengths up to 16, all reachable trees",
  "depends on the whole set of stored prefixes",
  [g16+": ClaimFree, findFree", i16+"/idset.go", i16+"/range16.go"])
p("tree32: ClaimFree hands out an id no entry covers, and fails only when none is left",
  "On a tree32 created with length n, ClaimFree returns an id in [0,2^n) that is not covered by any stored entry, stores it, and returns an error only if every id of [0,2^n) is covered.",
  "all lengths up to 32, all reachable trees",
  "depends on the configured length and the whole set of stored prefixes",
  [g32+": ClaimFree, findFree", i32+"/idset.go", i32+"/range32.go"])
p("tree64: ClaimFree hands out an id no entry covers, and fails only when none is left",
  "On a tree64 created with length n, ClaimFree returns an id in [0,2^n) that is not covered by any stored entry, stores it, and returns an error only if every id of [0,2^n) is covered.",
  "all lengths up to 64, all reachable trees",
  "depends on the configured length and the whole set of stored prefixes",
  [g64+": ClaimFree, findFree", i64+"/id64.go: Mask", i64+"/idset.go"])
p("tree64: entries of different prefixes do not share storage",
  "On a tree64, claiming one prefix does not change what Get returns for another prefix.",
  "all reachable trees, all pairs of distinct prefixes",
  "depends on node indexes assigned by the history",
  [tr+": addVal, valsForNode (key = nodeIndex << length)", g64+": New"])
p("gtree: ClaimRange claims exactly the ids of the range",
  "After ClaimRange(s,labels) with s = 'a-b', a <= b, an id is covered by an entry carrying these labels, created by this call, exactly when it lies in [a,b]; entries of other prefixes are unchanged; a malformed s is an error that changes nothing.",
  "all range strings, all reachable trees",
  "quantifies over all ranges and trees",
  [g16+": ClaimRange", g32+": ClaimRange", i16+"/range16.go: ParseRange, IDs"])
# ---- concurrency
p("idxtable under concurrency: operations are linearizable",
  "For any number of goroutines calling any Table methods concurrently under any schedule, the results of the completed calls and the final table are those of executing the calls one after another in some order consistent with real time.",
  "any number of goroutines, any programs, any interleaving of lock operations and table accesses",
  "a race shows only under particular schedules",
  [T+": all methods (r.m.Lock / r.m.RLock)"])
p("idxtable under concurrency: every call returns",
  "No schedule of concurrent Table calls ends in a deadlock: as long as calls are pending, some goroutine can make progress.",
  "any number of goroutines, any interleaving, sync.RWMutex semantics with waiting writers blocking new readers",
  "needs one specific schedule between two lock acquisitions",
  [T+": GetAll (RLock, then Iterate's RLock)", g16+": Get, Children, Parents (RLock, then Iterate's RLock)"])
p("table16/32/64 under concurrency: an id is claimed by at most one caller",
  "When any number of goroutines call Claim and ClaimFree concurrently under any schedule, with no Release, each id is returned as successfully claimed at most once, and a successful claim's labels are never overwritten by another claim.",
  "any number of goroutines, any interleaving of the underlying table calls",
  "check-then-act across two lock regions; the bad schedule is rare",
  [t16+": Claim, ClaimFree", t32+": same", t64+": same"])
p("table16/32/64 under concurrency: ClaimFree fails only when the table is full",
  "A concurrent ClaimFree returns an error only if at some moment during the call no id of the interval was free.",
  "any number of goroutines, any interleaving",
  "needs two claimers to interleave between FindFree and Claim",
  [t16+": ClaimFree", t32+": same", t64+": same"])
p("gtree under concurrency: two ClaimFree calls never return the same id",
  "Concurrent ClaimFree calls on one tree, with no release, return pairwise different ids.",
  "any number of goroutines, any interleaving of lock regions",
  "needs two claimers to interleave between findFree and set",
  [g16+": ClaimFree, findFree", g32+": same"])
p("tables under concurrency: listing by label never crashes",
  "A GetByLabel call on a table running concurrently with Release calls does not panic.",
  "any number of goroutines, any interleaving",
  "the iterator reads the live map without the lock; needs a Release between Next and Value",
  [t16+": GetByLabel", t32+": same", t64+": same", ip+": GetByLabel"])
p("iptable: GetAll and GetByLabel list every claimed address once, in ascending order",
  "GetAll returns the data of every claimed address exactly once, ordered by address; GetByLabel returns the data whose labels match, in the same order. Neither changes the table or crashes.",
  "every range of at most 2^64 addresses, every reachable state, every selector",
  "must hold for every occupancy pattern",
  [ip+": GetAll, GetByLabel"])
p("IDSet.IDs() is the minimum sorted list of prefixes covering the set",
  "For every id set built with the set builder, IDs() returns canonical prefixes in ascending order, pairwise disjoint, whose union is the set, and no list of fewer prefixes has that union.",
  "every canonical id set (any number of ranges)",
  "minimality compares against every other list of prefixes",
  ["pkg/tree/id16/idset.go: IDs", "pkg/tree/id32/idset.go: IDs", "pkg/tree/id64/idset.go: IDs"])
p("RemoveFreePrefix cuts from a smallest free block that fits",
  "When RemoveFreePrefix(l) succeeds, the prefix it returns starts at the start of a maximal free aligned block of size at least that of a length-l prefix, and every other such block is larger, or equally large and not lower.",
  "every canonical id set, every length up to the width",
  "the best fit depends on the whole decomposition of the set",
  ["pkg/tree/id16/idset.go: RemoveFreePrefix", "pkg/tree/id32/idset.go: RemoveFreePrefix", "pkg/tree/id64/idset.go: RemoveFreePrefix"])
p("gtree: every call on ids of the width returns, with a determined result",
  "After any history of calls, ClaimID, Update and ReleaseID fail exactly for ids above 2^length - 1; ReleaseByLabel succeeds; ClaimRange fails exactly on a malformed range; ClaimFree picks the lowest id of the smallest maximal aligned block of open ids (the lowest of several), and reports that none is free exactly when there is none. No call panics.",
  "every package tree16/32/64, every length, every history, every id of the width",
  "the outcome depends on the whole history through the radix tree and the id set",
  [g16+": New, ClaimID, Update, ReleaseID, ReleaseByLabel, ClaimRange, ClaimFree", g32+": same", "pkg/tree/tree64/tree64.go: same"])
p("gtree: Clone is an equal, independent copy",
  "Clone returns a tree on which every call answers as on the original, and on which modifying calls do not affect the original.",
  "every reachable tree, every call",
  "needs a comparison of every call on both trees",
  [g16+": Clone", g32+": Clone", "pkg/tree/tree64/tree64.go: Clone"])
p("gtree under concurrency: every call returns",
  "Calls on one tree from any number of goroutines all return: no execution reaches a state where some call has not returned and no goroutine can go on, and no execution is endless.",
  "every package, every tree, any number of goroutines and calls, every interleaving of lock operations and accesses",
  "a deadlock needs a writer to announce itself between two read locks of one call",
  [g16+": Get, Children, Parents, Iterate, ClaimFree, ReleaseID", g32+": same", "pkg/tree/tree64/tree64.go: same"])
p("no data race",
  "In no execution of calls on one table or tree is one goroutine about to write the shared map or tree while another is about to read or write it.",
  "idxtable, table16/32/64, iptable, tree16/32/64; any number of goroutines and calls, every interleaving",
  "the race detector sees only the interleavings that happen",
  [T+": all methods", t16+": GetByLabel", ip+": GetByLabel", g16+": all methods", g32+": same", "pkg/tree/tree64/tree64.go: same"])
p("gtree: Get, Update, ClaimID, Children and Parents are atomic",
  "Every concurrent execution of Get, Update, ClaimID, Children and Parents calls on one tree gives the results and the final tree of the calls executed one after another, in an order that keeps the order of calls that do not overlap.",
  "every package, every tree, any number of goroutines and calls, every interleaving",
  "quantifies over all interleavings",
  [g16+": Get, Update, ClaimID, Children, Parents", g32+": same", "pkg/tree/tree64/tree64.go: same"])
p("a call without others around behaves as the sequential model says",
  "A call during which no other call on the same table or tree is running returns the result, and leaves the contents, that the sequential description of the call (the one all other properties speak about) gives.",
  "every call of table16/32/64, iptable and tree16/32/64, every state, every argument",
  "ties two descriptions of the same code together for every state",
  [t16+": all methods", t32+": same", t64+": same", ip+": all methods", g16+": all methods", g32+": same", "pkg/tree/tree64/tree64.go: same"])
p("tables under concurrency: every call returns",
  "Calls on one table16/32/64 or iptable from any number of goroutines all return: no execution reaches a state where some call has not returned and no goroutine can go on.",
  "every table, any number of goroutines and calls, every interleaving of lock operations and accesses",
  "a deadlock needs a writer to announce itself between two read locks of one call",
  [t16+": all methods", t32+": same", t64+": same", ip+": all methods"])
p("tables: concurrent calls are equivalent to a sequence of calls",
  "Every concurrent execution of calls other than ClaimFree and GetByLabel on one table16/32/64 or iptable gives the results (up to which error) and the final contents of the calls executed one after another, in an order that keeps the order of calls that do not overlap.",
  "every table, any number of goroutines and calls, every interleaving",
  "Claim and Update check and act in two locked regions; quantifies over all interleavings",
  [t16+": Get, Claim, Release, Update, Size, Has, IsFree, FindFree, GetAll", t32+": same", t64+": same", ip+": same"])
p("gtree: listing the tree never crashes, whatever other calls do meanwhile",
  "GetAll, GetByLabel, Size and ReleaseByLabel return without panicking while other calls on the same tree are running, and an iterator got from Iterate can be used to the end while the tree is changed.",
  "every package, every tree, any number of goroutines and calls, every interleaving",
  "the crash needs a change between two steps of the loop",
  [g16+": GetAll, GetByLabel, Size, ReleaseByLabel, Iterate", g32+": same", "pkg/tree/tree64/tree64.go: same", "pkg/tree/tree.go: Next"])
p("ids: ShiftLeft, IsLeftBitSet and Matches work on the bits from the left",
  "ShiftLeft(s) moves the bits s places to the left, fills with zeros and takes s off the length (s up to the length); IsLeftBitSet reports the first bit, as a method and as a function; Matches(v) is the number of leading bits on which the id and v agree.",
  "every package, every id, every shift, every uint64 value",
  "must hold for every bit of every value; the radix tree relies on it at every node",
  ["pkg/tree/id16/id16.go: ShiftLeft, IsLeftBitSet, Matches", "pkg/tree/id32/id32.go: same", "pkg/tree/id64/id64.go: same"])
p("ranges: EntirelyBefore, CoveredBy, InMiddleOf, OverlapsStartOf, OverlapsEndOf decide the set relation they name",
  "For valid ranges with bounds of the same length: EntirelyBefore holds iff every value of r is below every value of the other range; CoveredBy iff r is a subset; InMiddleOf iff r is a subset that does not touch the edges; OverlapsStartOf (OverlapsEndOf) iff r contains the first (last) value of the other range but not all of it. IsValid holds iff the lengths agree and the bounds are not reversed.",
  "every package, every pair of ranges",
  "set-theoretic relations over all values of both ranges",
  ["pkg/tree/id16/range16.go: EntirelyBefore, CoveredBy, InMiddleOf, OverlapsStartOf, OverlapsEndOf, IsValid", "pkg/tree/id32/range32.go: same", "pkg/tree/id64/range64.go: same"])
p("String identifies ids and ranges",
  "String() of an id is its value, a slash and its length; String() of a range is its two bounds with a hyphen in between; all in decimal without leading zeros. Two ids with the same String() are equal, and so are two ranges with bounds of full length.",
  "every id, every range of every package",
  "injectivity over all values",
  ["pkg/tree/id16/id16.go: String", "pkg/tree/id32/id32.go: String", "pkg/tree/id64/id64.go: String", "pkg/tree/id32/range32.go: String"])
p("the labels of an entry are those of the last Claim or Update, whatever the caller does with its map",
  "The labels Get, GetAll and GetByLabel report for an id, and by which ReleaseByLabel selects it, are the contents of the label set passed to the last successful Claim, ClaimFree, ClaimRange or Update of the id at the time of that call.",
  "every table16/32/64, tree16 and tree32, every history, every later change of a label set by its holder",
  "aliasing: needs a change of the caller's map after the call",
  ["pkg/tree/entry.go: NewEntry, Labels", t16+": Claim, Update, Get, GetAll, GetByLabel", g16+": ClaimID, ClaimRange, Update, ReleaseByLabel"])
p("tree: MergeID16/32/64 join two prefixes",
  "MergeID(left, leftLength, right, rightLength) returns the first leftLength bits of left followed by the first rightLength bits of right, cut at the width, zeros behind, and the sum of the lengths; it panics exactly when a length is above the width.",
  "every width, every pair of values and lengths",
  "must hold for every bit; deleting nodes of the radix tree relies on it",
  ["pkg/tree/tree_manual.go: MergeID16, MergeID32, MergeID64, initBuildLeftMasks"])
p("tree over 64-bit ids: Set and Delete keep the set of prefixes, and one value for all of them",
  "A sequence of Set and Delete calls on a new tree over 64-bit ids reports added, the count and the number deleted as follows: added iff the id's prefix was not in the set of prefixes; a Delete removes the id's prefix iff it is in the set and the match function accepts the value of the last Set (whatever its id). Iterating lists, once per prefix, the value of the last Set, or the zero value after a Delete that removed a prefix. No call panics.",
  "every type of values, every sequence of Set and Delete calls, every match function",
  "quantifies over all histories; the wrong value shows only with two or more prefixes",
  ["pkg/tree/tree.go: NewTree, Set, Delete, Iterate, Next", "pkg/tree/id64/id64.go: all methods"])
p("tree64: what every sequence of calls returns",
  "A tree64 of any length behaves as a set of prefixes with a single entry: ClaimID, Update and ClaimRange add prefixes and replace the entry for all of them; Get finds an id iff it is the one claimed last; GetAll lists that entry once for each prefix, GetByLabel, Children and Parents list it once for each prefix or not at all; ReleaseID and ReleaseByLabel remove at most the prefix claimed last, and from then on, as long as other prefixes remain and nothing is claimed, every call that reads an entry panics; ClaimFree always panics.",
  "every length up to 64, every sequence of calls, every id, label and selector",
  "quantifies over all histories, including those that panic",
  ["pkg/tree/tree64/tree64.go: all methods"])
p("idxtable: IsConsecutive tells whether the id before the current one belongs to the iteration",
  "On an iterator of Iterate (IterateFree), after a Next that returned true, IsConsecutive returns true iff the id one below the current one is claimed (unclaimed) too. Next returns true once for each such id. Before the first Next, and after a Next that returned false on a non-empty iteration, IsConsecutive panics; on an empty iteration it returns false after the first Next.",
  "every table, every position of both iterators",
  "quantifies over all sets of ids and all positions, including those before the start and after the end",
  ["pkg/idxtable/iterator.go: IsConsecutive, Next, ID", "pkg/idxtable/table.go: Iterate, IterateFree"])
p("Entry.Equal and Entry.String tell entries apart",
  "Two entries are Equal iff they have the same id, the same length and the same labels, and iff their String() is the same. The text is \"id: {value length}, labels: \" and the pairs key=value, each once, sorted as strings and separated by commas.",
  "every id, every length, every pair of label sets",
  "injectivity of the text of a map, over all keys and values",
  ["pkg/tree/entry.go: Equal, String, NewEntry"])
p("gtree: ClaimRange refuses a reversed range",
  "ClaimRange(s,labels) with s = 'a-b', a > b, returns an error and changes nothing.",
  "all range strings with a > b, all reachable trees",
  "quantifies over all ranges and trees",
  ["pkg/tree/tree16/tree16.go: ClaimRange", "pkg/tree/tree32/tree32.go: same", "pkg/tree/tree64/tree64.go: same", "pkg/tree/id16/range16.go: ParseRange, IDs, appendRangeIDs"])
p("gtree: calls at the same time behave as if one after another, ReleaseID and ClaimFree included",
  "Get, Update, ClaimID, ReleaseID, ClaimFree, Children and Parents calls made by several goroutines on one tree16 or tree32 return what they return in some order one after another that respects the order of calls that do not overlap, and leave a tree on which every call that reads returns what it returns after that order. In that order a ClaimFree that returned an entry counts as ClaimID of its id (the id may no longer be free, see C54). In particular a ReleaseID that found its id, and whose deletion came after the id was claimed again with other labels, released it before that claim.",
  "every execution of any number of goroutines and calls, every schedule, every reachable tree16 and tree32",
  "quantifies over all interleavings; ReleaseID and ClaimFree lock twice, and their effect depends on what other calls do in between",
  ["pkg/tree/tree16/tree16.go: Get, Update, ClaimID, ReleaseID, ClaimFree, findFree, del, Children, Parents", "pkg/tree/tree32/tree32.go: same", "pkg/tree/entry.go: Equal"])
p("gtree: ClaimFree on a new tree hands out the ids from 0 up",
  "Any number of successive ClaimFree calls on a new tree return the ids 0, 1, 2, ... in this order, each once, each with the labels of its call, until the ids ClaimFree can reach are used up, and from then on every call returns an error. On a tree16 of length n these are the 2^n ids of the tree; on a tree32 of length n only the first 2^min(n,32-n) (see C46).",
  "every length from 1 to 16 of a tree16 and from 0 to 31 of a tree32 (see C45 and C46 for the lengths 0 and 32), every number of calls, every label",
  "quantifies over all lengths and numbers of calls; the search picks the smallest maximal block of unclaimed ids, not the lowest id",
  ["pkg/tree/tree16/tree16.go: New, ClaimFree, findFree", "pkg/tree/tree32/tree32.go: same", "pkg/tree/id32/idset.go: RemoveFreePrefix, findFreePrefix"])
p("tables: calls at the same time behave as if one after another, ClaimFree included",
  "Calls (all but GetByLabel) made by several goroutines on one table16/32/64 return what they return in some order one after another that respects the order of calls that do not overlap, and leave the table of that order. In that order a ClaimFree that returned an entry counts as a Claim of its id with its labels, which succeeds there; one that failed with \"no free entry\" counts as itself; one that failed otherwise has no effect. The error of a Claim that fails may be another one.",
  "every execution of any number of goroutines and calls, every schedule, every table",
  "quantifies over all interleavings; ClaimFree finds and claims an id under two separate locks",
  [t16+": all methods but GetByLabel", t32+": same", t64+": same", "pkg/idxtable/table.go: all methods"])
p("iptable over bounds that are not a range, or have a zone",
  "New accepts any two addresses. If a bound is not set, the bounds are of two families or zones, or the first is above the second, every call that takes an address returns an error (a string that is no address: its own error), Has and IsFree return false, and Size, GetAll and GetByLabel report nothing; FindFree nevertheless always returns the first bound without its zone, unless the distance of the bounds plus 1 is a multiple of 2^64. For an IPv6 range with a zone Claim accepts exactly the unclaimed addresses without a zone above the first bound and not above the last, and FindFree always returns the first bound without its zone, which Claim refuses.",
  "every pair of bounds, every sequence of calls, every string; zoned ranges of fewer than 2^64 addresses",
  "quantifies over all pairs of bounds and all histories",
  ["pkg/iptable/iptable.go: New, validateIP, numIPs, calculateIPFromIndex, FindFree, Claim"])
p("iptable over ranges of any width",
  "Over a range of n addresses the table has n mod 2^64 slots (2^64 if that is 0), and all addresses of the range a multiple of 2^64 apart share a slot. After any sequence of calls, Get, Claim, Update, Release, Has and IsFree on an address act on its slot as on a map, except that an address whose slot does not exist can neither be read, claimed nor released though IsFree reports it free. FindFree returns the first address of the lowest unclaimed slot, and always fails if n is a multiple of 2^64. GetAll and GetByLabel list the slots in ascending order.",
  "every range without zones, of any number of addresses, every sequence of calls, every string and selector",
  "quantifies over all ranges and histories; the ranges concerned have more than 2^64 addresses",
  ["pkg/iptable/iptable.go: all methods", "pkg/idxtable/table.go: validate, Claim, Get, Release"])
p("GetByLabel of table16/32/64 next to other calls",
  "In any execution of concurrent calls, a GetByLabel lists at one moment during the call the ids claimed then, in ascending order, and after that looks them up one after another, each at a moment of its own that is not earlier than the one before. It returns the entries found whose labels match, with their external ids; or it panics, and then one of the listed ids was not claimed at a later moment during the call. So every entry it returns matches the selector and was in the table with these labels at some moment during the call, and an id that has the same matching labels at all moments during the call is among them.",
  "all three packages, all bounds with fewer than 2^64 ids, all reachable tables, any number of goroutines with any lists of calls, all schedules",
  "the result of GetByLabel depends on the interleaving with the other calls; tests run a few interleavings",
  ["pkg/table/table16/table16.go: GetByLabel","pkg/table/table32/table32.go: GetByLabel","pkg/table/table64/table64.go: GetByLabel","pkg/idxtable/iterator.go: Value","pkg/idxtable/table.go: Iterate"])
p("GetByLabel of iptable next to other calls returns only matching data",
  "In any execution of concurrent calls, every datum a GetByLabel of an iptable returns matches its selector. (False: the address is looked up a second time after the selector has matched. What holds: the call lists at one moment the claimed addresses in ascending order; it looks each up at a later moment, and if the data match, looks it up again at a moment not earlier; it returns the data found the second time, or panics, and then one of the listed addresses was not claimed at a later moment during the call.)",
  "all ranges of fewer than 2^64 addresses, all reachable tables, any number of goroutines with any lists of calls, all schedules",
  "the second look-up gives another result only if an Update falls between the two; tests do not hit that",
  ["pkg/iptable/iptable.go: GetByLabel","pkg/idxtable/iterator.go: Value"])
p("An iterator of an idxtable next to other calls",
  "Going through Iterate() with Next and Value while other goroutines call the table: the ids are those claimed at one moment, in ascending order; the value of each is the entry of that id in the table at a moment of its own, not earlier than the one before, and nil if the id is not claimed then.",
  "all table sizes from 1 to 2^64-1, all reachable tables, any number of goroutines with any lists of calls and iterations, all schedules",
  "the values depend on the interleaving; tests iterate over a table nobody else uses",
  ["pkg/idxtable/iterator.go: Next, Value","pkg/idxtable/table.go: Iterate"])
p("id sets: what a builder computes at the wrap-around of the largest id",
  "For id16 and id32 and any sequence of builder calls with ids no longer than the width, and for id64 and any sequence with ids of length 1 to 32 whose removals start below 2^32: the built set is the canonical set of what the held ranges amount to. A list of ranges amounts to its union, unless one range is [0,max] or [1,max] and another starts at 1 and ends below max; then of the ranges that start at 0 only 0 counts and [1,max] counts for nothing. IPSet() and the first addition after a removal replace what is held by the canonical set of what is added minus what is removed. So a union of added ranges is lost exactly when there are two such ranges and some value from 1 up is in no other range.",
  "all sequences of AddId, RemoveId, AddRange, RemoveRange, AddSet and IPSet calls, of any length, reversed ranges included; id16 and id32, and id64 with the condition above",
  "The wrong results need a range that ends at the largest of 2^16 or 2^32 ids together with one that starts at 1; which part of the union disappears depends on every other range in the list.",
  ["pkg/tree/id16/idset.go: IDSetBuilder, mergeRanges, normalize", "pkg/tree/id32/idset.go: IDSetBuilder, mergeRanges, normalize", "pkg/tree/id32/id32.go: Next"])
p("ids: the zero range",
  "RangeOfID(id) never panics. IsZero() of its result is true exactly when Mask refuses the length of the id (above 16, 32 and, for id64, above 32), and AddId and RemoveId of such an id panic in every state of a builder.",
  "all ids of id16, id32 and id64, of any value and length, and all builders",
  "Lengths from 33 to 64 are valid ids of id64 but have no range; tests use ids of few lengths.",
  ["pkg/tree/id16/range16.go: RangeOfID, IsZero", "pkg/tree/id32/range32.go: RangeOfID, IsZero", "pkg/tree/id64/range64.go: RangeOfID, IsZero", "pkg/tree/id64/idset.go: AddId, RemoveId"])
p("tree: no value is left behind",
  "After any sequence of Set, Add and Delete, PrintValues prints one line for each value that a plain map from prefixes to value lists would hold, and no other: values that were overwritten, moved to another node or deleted are gone, and an emptied tree keeps none. PrintNodes prints the nodes 0, 1, 2, ... without a gap, at most two per prefix at the peak plus two, and the keys PrintValues prints are those of the values the printed nodes count. PrintValues of tree16 and tree32 prints exactly the entries GetAll returns.",
  "all finite operation sequences, all ids of the width, all values; for tree16 and tree32 all histories of their calls",
  "A value left under an old key is never read again, so no result shows it; it costs memory only over long histories.",
  ["pkg/tree/tree.go: addVal, moveTags, deleteVal, deleteNode, PrintNodes, PrintValues", "pkg/tree/tree16/tree16.go: PrintNodes, PrintValues", "pkg/tree/tree32/tree32.go: PrintNodes, PrintValues"])
p("test program: handleId",
  "handleId(vt, id) on a tree16 in any state panics exactly if the id is claimed already or not below the size of the tree. Otherwise it claims the id without labels and changes what Get returns for no other prefix, and it prints the error not found and then exactly the entries of the tree, shorter than the id, that contain the id.",
  "all tree16 states reachable by any calls, all 2^16 ids",
  "main calls it with two ids on one tree",
  ["test/main.go: handleId", "pkg/tree/tree16/tree16.go: Get, ClaimID, Parents"])
p("test program: the loops of main and main itself",
  "The loop with ClaimID on a new tree16 of 2^n ids panics exactly if it has more than 2^n turns; otherwise exactly the ids below the number of turns are claimed, each with its own label. The loop with ClaimFree gets the id i in turn i, with its label, and panics exactly after 2^n turns; the one on a tree32 of 2^n ids (n at most 16) does so too, and goes on with errors after 2^n turns. main does not panic, and prints the last id 4095, the ids 0 to 4095 three times in order, and for the ids 1000 and 100, after not found, the parents 1000/13 and none.",
  "all sizes n (from 1 for ClaimFree on a tree16) and all numbers of turns (at most 2^16 for ClaimID); main has no input",
  "main has one size and one number of turns, and prints without checking",
  ["test/main.go: main", "pkg/tree/tree16/tree16.go: ClaimID, ClaimFree, ClaimRange", "pkg/tree/tree32/tree32.go: ClaimFree, ReleaseByLabel"])
p("test program: selectors made from a map of labels",
  "GetLabelSelector(l) fails exactly if some pair of l is no valid requirement. Otherwise its selector matches exactly the label sets that include l: GetByLabel with it returns, in order, exactly the entries whose labels include l, and ReleaseByLabel leaves exactly the others.",
  "all maps of labels, all label sets, all tree16 and tree32 states reachable by any calls",
  "maps with one pair hide whether all pairs have to match",
  ["test/main.go: GetLabelSelector", "pkg/tree/tree16/tree16.go: GetByLabel, ReleaseByLabel", "pkg/tree/tree32/tree32.go: GetByLabel, ReleaseByLabel"])
open('/verif/properties.jsonl','w').write("".join(json.dumps(x)+"\n" for x in P))
print(len(P)); [print(x['id'],x['title']) for x in P]
