{
 "C01": [
  "proved",
  "Refinement of every sequence of single-id calls, from every reachable table of size >= 1, to a bounded map; plus: any failing call leaves the table unchanged and no call crashes. NewTable(0) is characterised separately."
 ],
 "C02": [
  "proved",
  "For all sizes (including 0) and all histories."
 ],
 "C03": [
  "partial",
  "Proved for size >= 1. Refuted for NewTable(0): the check id > size-1 wraps, so every uint64 is accepted."
 ],
 "C04": [
  "proved",
  ""
 ],
 "C05": [
  "proved",
  ""
 ],
 "C06": [
  "proved",
  ""
 ],
 "C07": [
  "partial",
  "False of the code: witnesses in C07_claim_range_refuted (claims another id when the last requested one is in use, a request for one id claims two, a free last slot is refused, size 0 succeeds). The exact behaviour is proved as an equivalence, and the true part (all requested ids free, n >= 2) as _partial theorems."
 ],
 "C08": [
  "proved",
  "For size 0 under the hypothesis that fewer than 2^64 ids are claimed."
 ],
 "C09": [
  "proved",
  ""
 ],
 "C10": [
  "proved",
  ""
 ],
 "C11": [
  "proved",
  ""
 ],
 "C12": [
  "proved",
  "All three widths, including the full range of the width; Get is a separate theorem. Ids in calls range over uint64."
 ],
 "C13": [
  "partial",
  "Proved for every interval that is not the full range of the width. Refuted for the full range: end-start+1 wraps to 0, FindFree and ClaimFree always fail (C13_full_range_never_free) although Claim works."
 ],
 "C14": [
  "proved",
  "Entries of table16 carry length 32 (tn_outlen). For a full-range table64 the statement assumes fewer than 2^64 claimed ids."
 ],
 "C15": [
  "partial",
  "Labels are right, but the returned entry's id is the offset id-start (C15_get_returns_the_offset), so the property holds exactly for start = 0 (_partial) and fails for every start > 0 (_refuted)."
 ],
 "C16": [
  "proved",
  "FindFree is outside the claim; its behaviour is C16_find_free_reports_start."
 ],
 "C17": [
  "partial",
  "Proved for every range of at most 2^64 addresses (all IPv4 ranges qualify: C17_ipv4_ranges_qualify). Refuted for every wider IPv6 range: indexes are the low 64 bits of the distance."
 ],
 "C18": [
  "partial",
  "Proved for every range of at most 2^64 addresses and every parse function. Refuted for every wider range: the address 2^64 further is reported as claimed."
 ],
 "C19": [
  "partial",
  "Proved for every range of fewer than 2^64 addresses. Refuted for exactly 2^64 addresses (an IPv6 /64): the computed size wraps to 0 and FindFree always fails."
 ],
 "C56": [
  "proved",
  "For ranges of at most 2^64 addresses (the wider ones are excluded by C17/C18) and fewer than 2^64 claims."
 ],
 "C20": [
  "proved",
  "All widths (the order does not depend on the width)."
 ],
 "C21": [
  "partial",
  "False of the code for Next of the largest value on every width (it gives 1, C21_next_of_largest_refuted) and for Prev on id64 from 2^32 on. Everything else is proved for id16/id32, and for id64 Prev is characterised exactly (C21_id64_prev_exact): right exactly below 2^32."
 ],
 "C22": [
  "partial",
  "Proved as stated for id16 and id32, for id64 for lengths 1..32. Refuted for id64 on length 0 and on every length 33..64."
 ],
 "C23": [
  "proved",
  "All three widths."
 ],
 "C24": [
  "partial",
  "Proved as stated (including minimality of the list) for id16 and id32. For id64 the exact set of ranges on which it holds is proved (equivalence), with a witness outside it."
 ],
 "C25": [
  "partial",
  "IsValid is false for every reversed range. IDs() covers no id is false: on every width every reversed range covers both its bounds (C25_reversed_ids_refuted), and what IDs() covers is characterised exactly (on id64 some reversed ranges cover everything)."
 ],
 "C26": [
  "proved",
  "All widths, all byte strings; round trip with String()."
 ],
 "C27": [
  "partial",
  "Proved when no interval contains the largest value, or none starts at 1 or ends at 0: for id16/id32, and for id64 for ids of length 1 to 32 and removals that start below 2^32 (additions: any values). Refuted on every width otherwise: adding [1,5] to the full set leaves [0,5], because Next wraps to 1. Refuted on id64 for every removal that starts at 2^32 or above inside of an added range (C27_id64_high_removal_refuted, with the result). C86 says exactly what is computed at the wrap-around."
 ],
 "C28": [
  "partial",
  "Proved for id16 and id32 for every sequence of calls, for id64 for ids of length 1 to 32 and removals that start below 2^32. Uniqueness of the canonical form holds on every width. Refuted for id64 above: a removed interval leaves a reversed range."
 ],
 "C29": [
  "partial",
  "Proved with the exact errors for id16/id32 for ids of length at most the width, for id64 for ids of length 1 to 32 and removals that start below 2^32. False as stated: AddId and RemoveId panic on every longer id on every width, and on id64 valid ranges alone can panic."
 ],
 "C30": [
  "partial",
  "Proved as stated for id16 and id32 for every canonical set. Refuted for id64: for every length above 32 RemoveFreePrefix panics exactly if there is a free block, for instance on a one-element set. For the lengths 0 to 32 of id64 a free block is found exactly if there is one, and the set returned with it is right exactly if the block starts at 0 or where a range of the set starts; otherwise the value before the block is lost (C30_id64_short_prefixes_partial). Of a set that is one of the ranges C24 is wrong for, a prefix is taken that need not be in the set (C30_id64_bad_range_refuted)."
 ],
 "C57": [
  "partial",
  "Proved as stated for id16 and id32; for id64 exactly for the sets without a range of the kind C24 describes. Refuted for id64 otherwise."
 ],
 "C58": [
  "partial",
  "Proved for id16 and id32, including which of several equally large blocks is taken, and for id64 whenever RemoveFreePrefix returns a block, for sets without a range of the kind C24 describes (it panics for lengths above 32, see C30). Refuted for id64 for every set that is one such range: RemoveFreePrefix(0) succeeds although not all ids are free (C58_id64_refuted)."
 ],
 "C31": [
  "partial",
  "Proved for id16 and id32 for every sequence of Set, Add and Delete during which the 64-bit keys do not overflow: at most 2^w values per prefix and fewer than 2^(63-w)-1 prefixes at a time; shown to hold for all short runs, and unconditionally for id16 with Set and Delete. Delete also drops a kept value that matches an earlier kept one (characterised). Refuted with more than 2^16 values at one prefix of an id16 tree (C31_many_values_refuted) and for id64, where all nodes share one key."
 ],
 "C32": [
  "proved",
  "For id16, id32 and id64, every sequence of calls with ids of length at most the width, any values and match functions, and a complete iteration afterwards."
 ],
 "C33": [
  "proved",
  "C33_iteration: id16, id32 and id64, every sequence of calls; the values of a stop are identified as those a Delete of that prefix compares with. C33_values_of_map: on id16 and id32 as long as the keys fit (see C31) they are the values of the map. C33_id64_values: on id64 with Set and Delete only, the one shared value."
 ],
 "C34": [
  "proved",
  "For id16, id32 and id64 and every sequence of calls: the ghost counter of appends that moved the array inside an insertion stays 0."
 ],
 "C35": [
  "proved",
  "All three parts, for id16, id32 and id64 and every sequence of calls."
 ],
 "C36": [
  "partial",
  "Refuted: Clone drops the id length and the bit function, so the copy answers zero values and panics on a Set. Proved what the copy does answer. Proved in full: independence, over trees whose arrays and maps are at addresses in memory, for any number of clones and clones of clones and any calls on them."
 ],
 "C37": [
  "partial",
  "Proved for tree16 and tree32, all lengths, all histories of modifying calls. For tree32, as long as fewer than 2^31 - 2 prefixes are stored (keys of the radix tree); tree16 without condition. Refuted for tree64: two prefixes share one storage place. Proved for tree64: the entry claimed or updated last is returned (C37_tree64_last_claim_partial)."
 ],
 "C38": [
  "partial",
  "Refuted, in every reachable tree16/tree32 state and for every claimed id within the size: ClaimID succeeds and overwrites the entry."
 ],
 "C39": [
  "partial",
  "Proved for tree16/tree32 for histories without ClaimRange; ClaimID and Update above the size are refused in every state. Refuted for ClaimRange, which does not check the size. For tree32, as long as fewer than 2^31 - 2 prefixes are stored (keys of the radix tree); tree16 without condition."
 ],
 "C40": [
  "partial",
  "Proved for tree16 and tree32 for ids of the size (others are refused). For tree32, as long as fewer than 2^31 - 2 prefixes are stored (keys of the radix tree); tree16 without condition. Refuted for tree64: of two claimed ids the first cannot be released (C40_tree64_refuted); see also C48. The exact behaviour of tree64 is C74."
 ],
 "C41": [
  "partial",
  "Proved for tree16 and tree32. For tree32, as long as fewer than 2^31 - 2 prefixes are stored (keys of the radix tree); tree16 without condition. Refuted for tree64: an entry that does not match is lost (C41_tree64_refuted). The exact behaviour of tree64 is C74."
 ],
 "C42": [
  "partial",
  "Proved for tree16 and tree32. For tree32, as long as fewer than 2^31 - 2 prefixes are stored (keys of the radix tree); tree16 without condition. Refuted for tree64: of two entries the last is listed twice, the other never (C42_tree64_refuted). The exact behaviour of tree64 is C74."
 ],
 "C43": [
  "partial",
  "Proved for tree16 and tree32. For tree32, as long as fewer than 2^31 - 2 prefixes are stored (keys of the radix tree); tree16 without condition. Refuted for tree64: the last entry is returned once for every stored prefix (C43_tree64_refuted). The exact behaviour of tree64 is C74."
 ],
 "C44": [
  "partial",
  "Refuted: Parents also returns the entry itself and the more specific ones shorter than the width. Proved exactly what it returns, that it contains all less specific entries, and that it is exact for full-length ids. tree16/tree32. For tree32, as long as fewer than 2^31 - 2 prefixes are stored (keys of the radix tree); tree16 without condition."
 ],
 "C45": [
  "partial",
  "Proved for every length and history unless one entry covers all ids of the tree. Refuted when one does (it is ignored), hence always for length 0: ClaimFree then returns id 0 every time. The exact behaviour, for every length and history, is C45_claim_free_exact."
 ],
 "C46": [
  "partial",
  "Proved for length 16, where the wrong root length is right, and for shorter trees without ClaimRange (refuted with it: C46_range_above_refuted). Refuted for every length from 17 to 31 (fails with ids left) and 32 (returns a claimed id); the exact behaviour from length 16 on is C46_longer_trees_exact."
 ],
 "C47": [
  "partial",
  "Refuted: ClaimFree panics on every tree64 after every sequence of calls (C47_claim_free_always_panics_refuted), so it never claims an id."
 ],
 "C48": [
  "partial",
  "Refuted in general: after two claims of different ids the first cannot be found, and after releasing the second every read panics. C74 gives the exact behaviour."
 ],
 "C49": [
  "partial",
  "Proved for tree16 and tree32: the entries created are the minimum decomposition of [a,b]; a malformed string is an error that changes nothing (all three packages). For tree32, as long as fewer than 2^31 - 2 prefixes are stored (keys of the radix tree); tree16 without condition. tree64: refuted for every range of two or more prefixes, Get finds the last of them only; outside the ranges id64 decomposes wrongly (C24)."
 ],
 "C59": [
  "partial",
  "Proved for tree16 and tree32 for ids no longer than the width, as a refinement of the whole tree by a finite map of prefixes. For tree32, as long as fewer than 2^31 - 2 prefixes are stored (keys of the radix tree); tree16 without condition. Refuted for longer ids: after ClaimID of one, ClaimFree panics. tree64: see C47, C48."
 ],
 "C60": [
  "partial",
  "Refuted: Get and ClaimID on the copy panic, GetAll lists empty entries; in general, for tree16 and tree32 while the tree has fewer than 2^w nodes (claims of k prefixes in all make at most 2k + 2 nodes), GetAll of the copy lists nil entries only and every call that looks at entries panics (C60_clone_reads_characterised); the same for tree64 after every sequence of calls (C60_tree64_clone_reads_characterised). Proved that Size of the copy is right (tree16, tree32). Proved in full: independence, over trees whose arrays and maps are at addresses in memory, for any number of clones and clones of clones and any calls on them."
 ],
 "C50": [
  "proved",
  "For every method of pkg/idxtable, any number of goroutines, calls and schedule. Each read and write of the map and each lock operation is one step; the keys of a map are listed in one step."
 ],
 "C51": [
  "partial",
  "False: GetAll takes the read lock twice, and a writer announced in between blocks both (C51_get_all_deadlocks_refuted, from the initial table). Proved: no execution gets stuck before every call has returned if GetAll is not called, or if nothing writes; and no execution is endless."
 ],
 "C52": [
  "proved",
  "Any other calls except Release may run at the same time (for the labels: except Release and Update)."
 ],
 "C53": [
  "partial",
  "False (C53_claim_free_fails_refuted): of two callers one fails although an id is free at every moment. Proved: it fails only if at some moment during the call no id was free or the id it found was claimed by another call before it could claim it. Tables over the whole range of the package are the second theorem: there every ClaimFree fails (C53_full_range_always_fails), as in C13."
 ],
 "C55": [
  "partial",
  "False for table16/32/64 and iptable (refuted with a Release between listing the keys and reading an entry). Proved: no call other than GetByLabel panics, and none does without Release. A table of 2^64 ids or more (table64 over all ids, wide IPv6 ranges) is covered as long as fewer than 2^64 ids are claimed before or by the calls."
 ],
 "C54": [
  "partial",
  "False for tree16 and tree32 (C54_same_id_refuted): ClaimFree looks for an id and sets it in two locked regions, and two calls at the same time both return id 0. Proved, with no release and no ClaimRange: calls that do not overlap return different ids; the id is in the tree afterwards. Proved, with no ClaimRange and no ReleaseByLabel: the id returned was open at a moment during the call (C54_was_free_partial)."
 ],
 "C61": [
  "partial",
  "False for every tree of every package: a Get and a ClaimID (C61_get_and_claim_deadlock_refuted). Proved for all calls: no execution gets stuck before every call has returned if no call locks for reading twice (Get, Children, Parents, ClaimFree, ReleaseID do) or none locks for writing; no execution is endless."
 ],
 "C62": [
  "partial",
  "Proved for the calls of idxtable; false for its iterator (Value reads the live map). False for table16/32/64 and iptable (GetByLabel reads the map without the lock) and for the trees (GetAll, GetByLabel, Size, ReleaseByLabel and ClaimRange work without the lock); proved for the calls that remain, and for any calls that do not write."
 ],
 "C63": [
  "proved",
  "Any tree of any package. Calls refused because the id is above the size of the tree need no place in the order."
 ],
 "C64": [
  "proved",
  "For the trees the contents agree unless the call fails (a failing ClaimRange or ReleaseByLabel leaves a partly changed tree, and the sequential description stops there)."
 ],
 "C65": [
  "partial",
  "False on every table: a GetAll and a Release. Proved without GetAll, or without calls that write. No execution is endless (C51_no_endless_execution)."
 ],
 "C66": [
  "proved",
  "The result of a Claim, or of an Update of iptable, may be another error than in the sequence."
 ],
 "C67": [
  "partial",
  "False in every package for each of the four calls: one concurrent ClaimID or ReleaseID is enough (C67_listing_crashes_refuted); an open iterator panics after a ClaimID or ReleaseID even without goroutines (C67_open_iterator_refuted). Proved: as long as no call changes the tree, every call returns what it returns alone; and for tree16 and tree32, as long as the calls only overwrite stored ids (ClaimID, Update and also ClaimRange of stored ids) and add or remove none, no call panics and every call returns what it returns alone but for the labels that were replaced (C67_overwriting_partial)."
 ],
 "C68": [
  "proved",
  "Shifted by more than its length an id gets a wrapped length (C68_shift_past_the_end)."
 ],
 "C69": [
  "partial",
  "EntirelyBefore, CoveredBy, InMiddleOf and IsValid proved. OverlapsStartOf and OverlapsEndOf are also true of ranges without a common value, one before the other (refuted); proved when the ranges have a value in common."
 ],
 "C70": [
  "proved",
  ""
 ],
 "C71": [
  "partial",
  "False: label sets are Go maps and are stored by reference. A change of the map after the call shows in the entry (every table16/32/64 and every tree16/tree32 state), all entries of a ClaimRange share one map, and ReleaseByLabel goes by the contents at its own call. Proved: changes of maps of which the table or tree holds no reference do not matter."
 ],
 "C72": [
  "proved",
  "All values and lengths of the three widths, including lengths whose sum is above the width."
 ],
 "C73": [
  "proved",
  "The exact behaviour of the code, which is not that of a map: see C48."
 ],
 "C74": [
  "proved",
  "The exact behaviour of the code: results, panics and contents after every sequence of calls."
 ],
 "C75": [
  "proved",
  "Both iterators, every position. NewTable(0) with fewer than 2^64 claimed ids."
 ],
 "C76": [
  "partial",
  "labels.Set.String joins key=value texts with commas, so label sets with a comma in a value can have the same text as others (C76_equal_refuted). Proved for labels without commas whose keys have no equals sign; the equivalence of Equal and String is proved without condition."
 ],
 "C77": [
  "partial",
  "Refuted on every width: no reversed range is ever refused. For tree16 and tree32 the ids claimed instead are characterised exactly: both bounds and others, also ids outside [b,a]."
 ],
 "C78": [
  "proved",
  "For tree16 and tree32 (16-bit trees of any size, 32-bit trees with fewer than 2^31 - 2 entries and calls together). The equivalence is on results and on everything a later reading call can return; the nodes of the radix tree may differ. For tree64, where the record argument fails (C48), see C63."
 ],
 "C79": [
  "proved",
  "tree16 and tree32. The lengths at which every call returns id 0 (tree16: 0, tree32: 32) are those of C45_length_0_refuted and C46_claim_free_refuted; ClaimFree of tree64 always panics (C47)."
 ],
 "C80": [
  "proved",
  "All calls but GetByLabel, which reads the table many times. Why a ClaimFree fails although ids are free is C53."
 ],
 "C81": [
  "proved",
  "Exact behaviour. It refutes that an address found by FindFree can be claimed (C81_found_is_claimable_refuted); for ranges without zones that is C19."
 ],
 "C82": [
  "proved",
  "Exact behaviour for every range; C17-C19 and C56 are the case of fewer than 2^64 addresses, where every address has its own slot. The listing is for fewer than 2^64 claimed addresses."
 ],
 "C83": [
  "proved",
  "A GetByLabel that returned, described by the moments at which it lists and looks up the ids, and its consequences for the entries returned. Tables with fewer than 2^64 ids."
 ],
 "C84": [
  "partial",
  "Refuted: an Update between the two look-ups of an address makes GetByLabel return data that do not match. Proved: what it returns, by the moments of the look-ups."
 ],
 "C85": [
  "proved",
  "For tables of size 1 to 2^64-1."
 ],
 "C86": [
  "proved",
  "For id16 and id32, all sequences; for id64, sequences with ids of length 1 to 32 and removals that start below 2^32 (others: C27_id64_high_removal_refuted)."
 ],
 "C87": [
  "proved",
  ""
 ],
 "C88": [
  "partial",
  "What PrintNodes prints: proved for every width and every sequence of calls (C88_printed_nodes). The values: proved for id16 and id32 with at most 2^w values at a prefix and fewer than 2^(63-w)-1 prefixes. For the 64-bit ids that is false: all nodes share the same keys (C88_tree64_refuted)."
 ],
 "C89": [
  "proved",
  ""
 ],
 "C90": [
  "proved",
  "What fmt prints is modelled as a list of lines; that labels.NewRequirement accepts range=test is a hypothesis of C90_main."
 ],
 "C91": [
  "proved",
  "Which keys and values labels.NewRequirement accepts is a parameter. For a tree32, with fewer than 2^31-2 prefixes stored."
 ]
}