{
 "claims": [
  {
   "property": "C01",
   "status": "proved",
   "theorems": [
    "C01_single_ops_are_a_bounded_map",
    "C01_size_zero_accepts_every_uint64",
    "C01_failing_call_changes_nothing",
    "C01_no_call_crashes"
   ],
   "note": "Refinement of every sequence of single-id calls, from every reachable table of size >= 1, to a bounded map; plus: any failing call leaves the table unchanged and no call crashes. NewTable(0) is characterised separately."
  },
  {
   "property": "C02",
   "status": "proved",
   "theorems": [
    "C02_claim_takes_a_free_id",
    "C02_claims_never_touch_claimed_ids",
    "C02_id_never_handed_out_twice"
   ],
   "note": "For all sizes (including 0) and all histories."
  },
  {
   "property": "C03",
   "status": "partial",
   "theorems": [
    "C03_claimed_ids_in_range_partial",
    "C03_claimed_ids_in_range_refuted"
   ],
   "note": "Proved for size >= 1. Refuted for NewTable(0): the check id > size-1 wraps, so every uint64 is accepted."
  },
  {
   "property": "C04",
   "status": "proved",
   "theorems": [
    "C04_claim_dynamic_takes_lowest_free"
   ],
   "note": ""
  },
  {
   "property": "C05",
   "status": "proved",
   "theorems": [
    "C05_claim_size_takes_n_lowest",
    "C05_claim_size_zero_is_an_error"
   ],
   "note": ""
  },
  {
   "property": "C06",
   "status": "proved",
   "theorems": [
    "C06_claim_range_all_or_nothing",
    "C06_claim_size_all_or_nothing"
   ],
   "note": ""
  },
  {
   "property": "C07",
   "status": "partial",
   "theorems": [
    "C07_claim_range_exact_behaviour",
    "C07_claim_range_served_exactly_partial",
    "C07_oversized_request_refused_partial",
    "C07_claim_range_refuted"
   ],
   "note": "False of the code: witnesses in C07_claim_range_refuted (claims another id when the last requested one is in use, a request for one id claims two, a free last slot is refused, size 0 succeeds). The exact behaviour is proved as an equivalence, and the true part (all requested ids free, n >= 2) as _partial theorems."
  },
  {
   "property": "C08",
   "status": "proved",
   "theorems": [
    "C08_iterate_enumerates_claimed_ids",
    "C08_iterate_free_enumerates_unclaimed_ids"
   ],
   "note": "For size 0 under the hypothesis that fewer than 2^64 ids are claimed."
  },
  {
   "property": "C09",
   "status": "proved",
   "theorems": [
    "C09_claimed_plus_free_is_everything"
   ],
   "note": ""
  },
  {
   "property": "C10",
   "status": "proved",
   "theorems": [
    "C10_released_id_can_be_claimed_again",
    "C10_claim_then_release_restores"
   ],
   "note": ""
  },
  {
   "property": "C11",
   "status": "proved",
   "theorems": [
    "C11_open_iterator"
   ],
   "note": ""
  },
  {
   "property": "C12",
   "status": "proved",
   "theorems": [
    "C12_tableN_is_a_map_over_the_interval",
    "C12_get_reports_the_labels"
   ],
   "note": "All three widths, including the full range of the width; Get is a separate theorem. Ids in calls range over uint64."
  },
  {
   "property": "C13",
   "status": "partial",
   "theorems": [
    "C13_claim_free_takes_lowest_partial",
    "C13_full_range_never_free",
    "C13_claim_free_refuted"
   ],
   "note": "Proved for every interval that is not the full range of the width. Refuted for the full range: end-start+1 wraps to 0, FindFree and ClaimFree always fail (C13_full_range_never_free) although Claim works."
  },
  {
   "property": "C14",
   "status": "proved",
   "theorems": [
    "C14_get_all_reports_external_ids"
   ],
   "note": "Entries of table16 carry length 32 (tn_outlen). For a full-range table64 the statement assumes fewer than 2^64 claimed ids."
  },
  {
   "property": "C15",
   "status": "partial",
   "theorems": [
    "C15_get_returns_the_offset",
    "C15_get_returns_the_id_partial",
    "C15_get_returns_the_id_refuted"
   ],
   "note": "Labels are right, but the returned entry's id is the offset id-start (C15_get_returns_the_offset), so the property holds exactly for start = 0 (_partial) and fails for every start > 0 (_refuted)."
  },
  {
   "property": "C16",
   "status": "proved",
   "theorems": [
    "C16_reversed_interval_is_inert",
    "C16_find_free_reports_start"
   ],
   "note": "FindFree is outside the claim; its behaviour is C16_find_free_reports_start."
  },
  {
   "property": "C17",
   "status": "partial",
   "theorems": [
    "C17_address_index_bijection_partial",
    "C17_ipv4_ranges_qualify",
    "C17_wide_ranges_refuted"
   ],
   "note": "Proved for every range of at most 2^64 addresses (all IPv4 ranges qualify: C17_ipv4_ranges_qualify). Refuted for every wider IPv6 range: indexes are the low 64 bits of the distance."
  },
  {
   "property": "C18",
   "status": "partial",
   "theorems": [
    "C18_iptable_is_a_map_over_addresses_partial",
    "C18_new_table_is_empty",
    "C18_wide_ranges_refuted"
   ],
   "note": "Proved for every range of at most 2^64 addresses and every parse function. Refuted for every wider range: the address 2^64 further is reported as claimed."
  },
  {
   "property": "C19",
   "status": "partial",
   "theorems": [
    "C19_find_free_lowest_partial",
    "C19_slash64_refuted"
   ],
   "note": "Proved for every range of fewer than 2^64 addresses. Refuted for exactly 2^64 addresses (an IPv6 /64): the computed size wraps to 0 and FindFree always fails."
  },
  {
   "property": "C20",
   "status": "proved",
   "theorems": [
    "C20_compare_is_a_total_order",
    "C20_range_less_is_a_strict_total_order"
   ],
   "note": "All widths (the order does not depend on the width)."
  },
  {
   "property": "C21",
   "status": "partial",
   "theorems": [
    "C21_next_and_prev_step_by_one_partial",
    "C21_next_of_largest_refuted",
    "C21_id64_partial",
    "C21_id64_prev_exact",
    "C21_id64_prev_refuted"
   ],
   "note": "False of the code for Next of the largest value on every width (it gives 1, C21_next_of_largest_refuted) and for Prev on id64 from 2^32 on. Everything else is proved for id16/id32, and for id64 Prev is characterised exactly (C21_id64_prev_exact): right exactly below 2^32."
  },
  {
   "property": "C22",
   "status": "partial",
   "theorems": [
    "C22_mask_and_prefix_range_partial",
    "C22_id64_partial",
    "C22_id64_refuted"
   ],
   "note": "Proved as stated for id16 and id32, for id64 for lengths 1..32. Refuted for id64 on length 0 and on every length 33..64."
  },
  {
   "property": "C23",
   "status": "proved",
   "theorems": [
    "C23_overlaps_decides_intersection"
   ],
   "note": "All three widths."
  },
  {
   "property": "C24",
   "status": "partial",
   "theorems": [
    "C24_ids_decomposes_range_partial",
    "C24_id64_exactly_outside_bad_ranges_partial",
    "C24_id64_refuted"
   ],
   "note": "Proved as stated (including minimality of the list) for id16 and id32. For id64 the exact set of ranges on which it holds is proved (equivalence), with a witness outside it."
  },
  {
   "property": "C25",
   "status": "partial",
   "theorems": [
    "C25_reversed_range_is_invalid_partial",
    "C25_reversed_ids_characterised",
    "C25_id64_characterised",
    "C25_reversed_ids_refuted"
   ],
   "note": "IsValid is false for every reversed range. IDs() covers no id is false: on every width every reversed range covers both its bounds (C25_reversed_ids_refuted), and what IDs() covers is characterised exactly (on id64 some reversed ranges cover everything)."
  },
  {
   "property": "C26",
   "status": "proved",
   "theorems": [
    "C26_parse_range",
    "C26_parse_range_of_string"
   ],
   "note": "All widths, all byte strings; round trip with String()."
  },
  {
   "property": "C27",
   "status": "partial",
   "theorems": [
    "C27_builder_computes_union_and_difference_partial",
    "C27_id64_partial",
    "C27_id64_high_removal_refuted",
    "C27_builder_refuted"
   ],
   "note": "Proved when no interval contains the largest value, or none starts at 1 or ends at 0: for id16/id32, and for id64 for ids of length 1 to 32 and removals that start below 2^32 (additions: any values). Refuted on every width otherwise: adding [1,5] to the full set leaves [0,5], because Next wraps to 1. Refuted on id64 for every removal that starts at 2^32 or above inside of an added range (C27_id64_high_removal_refuted, with the result). C86 says exactly what is computed at the wrap-around."
  },
  {
   "property": "C28",
   "status": "partial",
   "theorems": [
    "C28_ranges_are_canonical_partial",
    "C28_id64_partial",
    "C28_canonical_representation_is_unique",
    "C28_id64_refuted"
   ],
   "note": "Proved for id16 and id32 for every sequence of calls, for id64 for ids of length 1 to 32 and removals that start below 2^32. Uniqueness of the canonical form holds on every width. Refuted for id64 above: a removed interval leaves a reversed range."
  },
  {
   "property": "C29",
   "status": "partial",
   "theorems": [
    "C29_building_never_panics_partial",
    "C29_id64_partial",
    "C29_long_id_panics_refuted",
    "C29_id64_ranges_panic_refuted"
   ],
   "note": "Proved with the exact errors for id16/id32 for ids of length at most the width, for id64 for ids of length 1 to 32 and removals that start below 2^32. False as stated: AddId and RemoveId panic on every longer id on every width, and on id64 valid ranges alone can panic."
  },
  {
   "property": "C30",
   "status": "partial",
   "theorems": [
    "C30_remove_free_prefix_partial",
    "C30_id64_long_prefixes_refuted",
    "C30_id64_short_prefixes_partial",
    "C30_id64_refuted",
    "C30_id64_bad_range_refuted"
   ],
   "note": "Proved as stated for id16 and id32 for every canonical set. Refuted for id64: for every length above 32 RemoveFreePrefix panics exactly if there is a free block, for instance on a one-element set. For the lengths 0 to 32 of id64 a free block is found exactly if there is one, and the set returned with it is right exactly if the block starts at 0 or where a range of the set starts; otherwise the value before the block is lost (C30_id64_short_prefixes_partial). Of a set that is one of the ranges C24 is wrong for, a prefix is taken that need not be in the set (C30_id64_bad_range_refuted)."
  },
  {
   "property": "C31",
   "status": "partial",
   "theorems": [
    "C31_tree_is_a_map_partial",
    "C31_short_runs_are_roomy",
    "C31_tree16_set_delete",
    "C31_delete_is_filter",
    "C31_many_values_refuted",
    "C31_tree64_refuted"
   ],
   "note": "Proved for id16 and id32 for every sequence of Set, Add and Delete during which the 64-bit keys do not overflow: at most 2^w values per prefix and fewer than 2^(63-w)-1 prefixes at a time; shown to hold for all short runs, and unconditionally for id16 with Set and Delete. Delete also drops a kept value that matches an earlier kept one (characterised). Refuted with more than 2^16 values at one prefix of an id16 tree (C31_many_values_refuted) and for id64, where all nodes share one key."
  },
  {
   "property": "C32",
   "status": "proved",
   "theorems": [
    "C32_no_panics"
   ],
   "note": "For id16, id32 and id64, every sequence of calls with ids of length at most the width, any values and match functions, and a complete iteration afterwards."
  },
  {
   "property": "C33",
   "status": "proved",
   "theorems": [
    "C33_values_of_map",
    "C33_id64_values",
    "C33_iteration"
   ],
   "note": "C33_iteration: id16, id32 and id64, every sequence of calls; the values of a stop are identified as those a Delete of that prefix compares with. C33_values_of_map: on id16 and id32 as long as the keys fit (see C31) they are the values of the map. C33_id64_values: on id64 with Set and Delete only, the one shared value."
  },
  {
   "property": "C34",
   "status": "proved",
   "theorems": [
    "C34_no_stale_pointers"
   ],
   "note": "For id16, id32 and id64 and every sequence of calls: the ghost counter of appends that moved the array inside an insertion stays 0."
  },
  {
   "property": "C35",
   "status": "proved",
   "theorems": [
    "C35_memory",
    "C35_reuse_before_growth",
    "C35_no_useless_nodes"
   ],
   "note": "All three parts, for id16, id32 and id64 and every sequence of calls."
  },
  {
   "property": "C36",
   "status": "partial",
   "theorems": [
    "C36_clones_are_independent_partial",
    "C36_clone_copies_partial",
    "C36_clone_refuted",
    "C36_clone_partial"
   ],
   "note": "Refuted: Clone drops the id length and the bit function, so the copy answers zero values and panics on a Set. Proved what the copy does answer. Proved in full: independence, over trees whose arrays and maps are at addresses in memory, for any number of clones and clones of clones and any calls on them."
  },
  {
   "property": "C37",
   "status": "partial",
   "theorems": [
    "C37_get_partial",
    "C37_claim_then_get_partial",
    "C37_other_prefixes_partial",
    "C37_tree64_refuted",
    "C37_tree64_last_claim_partial"
   ],
   "note": "Proved for tree16 and tree32, all lengths, all histories of modifying calls. For tree32, as long as fewer than 2^31 - 2 prefixes are stored (keys of the radix tree); tree16 without condition. Refuted for tree64: two prefixes share one storage place. Proved for tree64: the entry claimed or updated last is returned (C37_tree64_last_claim_partial)."
  },
  {
   "property": "C38",
   "status": "partial",
   "theorems": [
    "C38_claim_of_claimed_refuted"
   ],
   "note": "Refuted, in every reachable tree16/tree32 state and for every claimed id within the size: ClaimID succeeds and overwrites the entry."
  },
  {
   "property": "C39",
   "status": "partial",
   "theorems": [
    "C39_ids_stay_inside_partial",
    "C39_claims_above_refused_partial",
    "C39_claim_range_refuted"
   ],
   "note": "Proved for tree16/tree32 for histories without ClaimRange; ClaimID and Update above the size are refused in every state. Refuted for ClaimRange, which does not check the size. For tree32, as long as fewer than 2^31 - 2 prefixes are stored (keys of the radix tree); tree16 without condition."
  },
  {
   "property": "C40",
   "status": "partial",
   "theorems": [
    "C40_release_partial",
    "C40_tree64_refuted"
   ],
   "note": "Proved for tree16 and tree32 for ids of the size (others are refused). For tree32, as long as fewer than 2^31 - 2 prefixes are stored (keys of the radix tree); tree16 without condition. Refuted for tree64: of two claimed ids the first cannot be released (C40_tree64_refuted); see also C48. The exact behaviour of tree64 is C74."
  },
  {
   "property": "C41",
   "status": "partial",
   "theorems": [
    "C41_release_by_label_partial",
    "C41_tree64_refuted"
   ],
   "note": "Proved for tree16 and tree32. For tree32, as long as fewer than 2^31 - 2 prefixes are stored (keys of the radix tree); tree16 without condition. Refuted for tree64: an entry that does not match is lost (C41_tree64_refuted). The exact behaviour of tree64 is C74."
  },
  {
   "property": "C42",
   "status": "partial",
   "theorems": [
    "C42_listings_partial",
    "C42_tree64_refuted"
   ],
   "note": "Proved for tree16 and tree32. For tree32, as long as fewer than 2^31 - 2 prefixes are stored (keys of the radix tree); tree16 without condition. Refuted for tree64: of two entries the last is listed twice, the other never (C42_tree64_refuted). The exact behaviour of tree64 is C74."
  },
  {
   "property": "C43",
   "status": "partial",
   "theorems": [
    "C43_children_partial",
    "C43_tree64_refuted"
   ],
   "note": "Proved for tree16 and tree32. For tree32, as long as fewer than 2^31 - 2 prefixes are stored (keys of the radix tree); tree16 without condition. Refuted for tree64: the last entry is returned once for every stored prefix (C43_tree64_refuted). The exact behaviour of tree64 is C74."
  },
  {
   "property": "C44",
   "status": "partial",
   "theorems": [
    "C44_parents_characterised",
    "C44_parents_partial",
    "C44_parents_refuted"
   ],
   "note": "Refuted: Parents also returns the entry itself and the more specific ones shorter than the width. Proved exactly what it returns, that it contains all less specific entries, and that it is exact for full-length ids. tree16/tree32. For tree32, as long as fewer than 2^31 - 2 prefixes are stored (keys of the radix tree); tree16 without condition."
  },
  {
   "property": "C45",
   "status": "partial",
   "theorems": [
    "C45_claim_free_partial",
    "C45_covered_id_refuted",
    "C45_length_0_refuted",
    "C45_claim_free_exact"
   ],
   "note": "Proved for every length and history unless one entry covers all ids of the tree. Refuted when one does (it is ignored), hence always for length 0: ClaimFree then returns id 0 every time. The exact behaviour, for every length and history, is C45_claim_free_exact."
  },
  {
   "property": "C46",
   "status": "partial",
   "theorems": [
    "C46_claim_free_length_16_partial",
    "C46_only_low_ids",
    "C46_claim_free_refuted",
    "C46_longer_trees_exact",
    "C46_shorter_trees_partial",
    "C46_longer_trees_refuted",
    "C46_range_above_refuted"
   ],
   "note": "Proved for length 16, where the wrong root length is right, and for shorter trees without ClaimRange (refuted with it: C46_range_above_refuted). Refuted for every length from 17 to 31 (fails with ids left) and 32 (returns a claimed id); the exact behaviour from length 16 on is C46_longer_trees_exact."
  },
  {
   "property": "C47",
   "status": "partial",
   "theorems": [
    "C47_claim_free_refuted",
    "C47_claim_free_panics_refuted",
    "C47_claim_free_always_panics_refuted"
   ],
   "note": "Refuted: ClaimFree panics on every tree64 after every sequence of calls (C47_claim_free_always_panics_refuted), so it never claims an id."
  },
  {
   "property": "C48",
   "status": "partial",
   "theorems": [
    "C48_shared_storage_refuted",
    "C48_earlier_claim_lost_refuted",
    "C48_release_breaks_others_refuted"
   ],
   "note": "Refuted in general: after two claims of different ids the first cannot be found, and after releasing the second every read panics. C74 gives the exact behaviour."
  },
  {
   "property": "C49",
   "status": "partial",
   "theorems": [
    "C49_claim_range_partial",
    "C49_malformed_partial",
    "C49_tree64_only_last_prefix_refuted"
   ],
   "note": "Proved for tree16 and tree32: the entries created are the minimum decomposition of [a,b]; a malformed string is an error that changes nothing (all three packages). For tree32, as long as fewer than 2^31 - 2 prefixes are stored (keys of the radix tree); tree16 without condition. tree64: refuted for every range of two or more prefixes, Get finds the last of them only; outside the ranges id64 decomposes wrongly (C24)."
  },
  {
   "property": "C50",
   "status": "proved",
   "theorems": [
    "C50_linearizable"
   ],
   "note": "For every method of pkg/idxtable, any number of goroutines, calls and schedule. Each read and write of the map and each lock operation is one step; the keys of a map are listed in one step."
  },
  {
   "property": "C51",
   "status": "partial",
   "theorems": [
    "C51_get_all_deadlocks_refuted",
    "C51_every_call_returns_partial",
    "C51_no_endless_execution"
   ],
   "note": "False: GetAll takes the read lock twice, and a writer announced in between blocks both (C51_get_all_deadlocks_refuted, from the initial table). Proved: no execution gets stuck before every call has returned if GetAll is not called, or if nothing writes; and no execution is endless."
  },
  {
   "property": "C52",
   "status": "proved",
   "theorems": [
    "C52_claimed_once",
    "C52_labels_kept"
   ],
   "note": "Any other calls except Release may run at the same time (for the labels: except Release and Update)."
  },
  {
   "property": "C53",
   "status": "partial",
   "theorems": [
    "C53_claim_free_fails_refuted",
    "C53_why_claim_free_fails_partial",
    "C53_full_range_always_fails"
   ],
   "note": "False (C53_claim_free_fails_refuted): of two callers one fails although an id is free at every moment. Proved: it fails only if at some moment during the call no id was free or the id it found was claimed by another call before it could claim it. Tables over the whole range of the package are the second theorem: there every ClaimFree fails (C53_full_range_always_fails), as in C13."
  },
  {
   "property": "C54",
   "status": "partial",
   "theorems": [
    "C54_same_id_refuted",
    "C54_one_after_another_partial",
    "C54_was_free_partial",
    "C54_stays_claimed_partial"
   ],
   "note": "False for tree16 and tree32 (C54_same_id_refuted): ClaimFree looks for an id and sets it in two locked regions, and two calls at the same time both return id 0. Proved, with no release and no ClaimRange: calls that do not overlap return different ids; the id is in the tree afterwards. Proved, with no ClaimRange and no ReleaseByLabel: the id returned was open at a moment during the call (C54_was_free_partial)."
  },
  {
   "property": "C55",
   "status": "partial",
   "theorems": [
    "C55_get_by_label_panics_refuted",
    "C55_iptable_get_by_label_panics_refuted",
    "C55_no_panic_partial",
    "C55_iptable_no_panic_partial"
   ],
   "note": "False for table16/32/64 and iptable (refuted with a Release between listing the keys and reading an entry). Proved: no call other than GetByLabel panics, and none does without Release. A table of 2^64 ids or more (table64 over all ids, wide IPv6 ranges) is covered as long as fewer than 2^64 ids are claimed before or by the calls."
  },
  {
   "property": "C56",
   "status": "proved",
   "theorems": [
    "C56_iptable_listing"
   ],
   "note": "For ranges of at most 2^64 addresses (the wider ones are excluded by C17/C18) and fewer than 2^64 claims."
  },
  {
   "property": "C57",
   "status": "partial",
   "theorems": [
    "C57_ids_of_a_set_partial",
    "C57_id64_exactly_outside_bad_ranges_partial",
    "C57_id64_refuted"
   ],
   "note": "Proved as stated for id16 and id32; for id64 exactly for the sets without a range of the kind C24 describes. Refuted for id64 otherwise."
  },
  {
   "property": "C58",
   "status": "partial",
   "theorems": [
    "C58_remove_free_prefix_is_best_fit_partial",
    "C58_id64_is_best_fit_partial",
    "C58_id64_refuted"
   ],
   "note": "Proved for id16 and id32, including which of several equally large blocks is taken, and for id64 whenever RemoveFreePrefix returns a block, for sets without a range of the kind C24 describes (it panics for lengths above 32, see C30). Refuted for id64 for every set that is one such range: RemoveFreePrefix(0) succeeds although not all ids are free (C58_id64_refuted)."
  },
  {
   "property": "C59",
   "status": "partial",
   "theorems": [
    "C59_calls_return_partial",
    "C59_runs_return_partial",
    "C59_long_ids_refuted"
   ],
   "note": "Proved for tree16 and tree32 for ids no longer than the width, as a refinement of the whole tree by a finite map of prefixes. For tree32, as long as fewer than 2^31 - 2 prefixes are stored (keys of the radix tree); tree16 without condition. Refuted for longer ids: after ClaimID of one, ClaimFree panics. tree64: see C47, C48."
  },
  {
   "property": "C60",
   "status": "partial",
   "theorems": [
    "C60_clones_are_independent_partial",
    "C60_clone_copies_partial",
    "C60_clone_reads_characterised",
    "C60_short_runs_have_few_nodes",
    "C60_tree64_clone_reads_characterised",
    "C60_clone_refuted",
    "C60_clone_size_partial"
   ],
   "note": "Refuted: Get and ClaimID on the copy panic, GetAll lists empty entries; in general, for tree16 and tree32 while the tree has fewer than 2^w nodes (claims of k prefixes in all make at most 2k + 2 nodes), GetAll of the copy lists nil entries only and every call that looks at entries panics (C60_clone_reads_characterised); the same for tree64 after every sequence of calls (C60_tree64_clone_reads_characterised). Proved that Size of the copy is right (tree16, tree32). Proved in full: independence, over trees whose arrays and maps are at addresses in memory, for any number of clones and clones of clones and any calls on them."
  },
  {
   "property": "C61",
   "status": "partial",
   "theorems": [
    "C61_get_and_claim_deadlock_refuted",
    "C61_every_call_returns_partial",
    "C61_no_endless_execution"
   ],
   "note": "False for every tree of every package: a Get and a ClaimID (C61_get_and_claim_deadlock_refuted). Proved for all calls: no execution gets stuck before every call has returned if no call locks for reading twice (Get, Children, Parents, ClaimFree, ReleaseID do) or none locks for writing; no execution is endless."
  },
  {
   "property": "C62",
   "status": "partial",
   "theorems": [
    "C62_idxtable_race_free",
    "C62_iterator_race_refuted",
    "C62_get_by_label_race_refuted",
    "C62_iptable_get_by_label_race_refuted",
    "C62_tables_race_free_partial",
    "C62_iptable_race_free_partial",
    "C62_tree_get_all_race_refuted",
    "C62_claim_range_race_refuted",
    "C62_tree_race_free_partial"
   ],
   "note": "Proved for the calls of idxtable; false for its iterator (Value reads the live map). False for table16/32/64 and iptable (GetByLabel reads the map without the lock) and for the trees (GetAll, GetByLabel, Size, ReleaseByLabel and ClaimRange work without the lock); proved for the calls that remain, and for any calls that do not write."
  },
  {
   "property": "C63",
   "status": "proved",
   "theorems": [
    "C63_linearizable"
   ],
   "note": "Any tree of any package. Calls refused because the id is above the size of the tree need no place in the order."
  },
  {
   "property": "C64",
   "status": "proved",
   "theorems": [
    "C64_tables_call_alone",
    "C64_iptable_call_alone",
    "C64_tree_call_alone"
   ],
   "note": "For the trees the contents agree unless the call fails (a failing ClaimRange or ReleaseByLabel leaves a partly changed tree, and the sequential description stops there)."
  },
  {
   "property": "C65",
   "status": "partial",
   "theorems": [
    "C65_get_all_deadlocks_refuted",
    "C65_iptable_get_all_deadlocks_refuted",
    "C65_tables_every_call_returns_partial",
    "C65_iptable_every_call_returns_partial"
   ],
   "note": "False on every table: a GetAll and a Release. Proved without GetAll, or without calls that write. No execution is endless (C51_no_endless_execution)."
  },
  {
   "property": "C66",
   "status": "proved",
   "theorems": [
    "C66_tables_linearizable",
    "C66_iptable_linearizable"
   ],
   "note": "The result of a Claim, or of an Update of iptable, may be another error than in the sequence."
  },
  {
   "property": "C67",
   "status": "partial",
   "theorems": [
    "C67_listing_crashes_refuted",
    "C67_open_iterator_refuted",
    "C67_overwriting_partial",
    "C67_without_writers_partial"
   ],
   "note": "False in every package for each of the four calls: one concurrent ClaimID or ReleaseID is enough (C67_listing_crashes_refuted); an open iterator panics after a ClaimID or ReleaseID even without goroutines (C67_open_iterator_refuted). Proved: as long as no call changes the tree, every call returns what it returns alone; and for tree16 and tree32, as long as the calls only overwrite stored ids (ClaimID, Update and also ClaimRange of stored ids) and add or remove none, no call panics and every call returns what it returns alone but for the labels that were replaced (C67_overwriting_partial)."
  },
  {
   "property": "C68",
   "status": "proved",
   "theorems": [
    "C68_shift_left",
    "C68_shift_past_the_end",
    "C68_is_left_bit_set",
    "C68_matches"
   ],
   "note": "Shifted by more than its length an id gets a wrapped length (C68_shift_past_the_end)."
  },
  {
   "property": "C69",
   "status": "partial",
   "theorems": [
    "C69_set_relations_partial",
    "C69_overlaps_partial",
    "C69_disjoint_ranges_refuted",
    "C69_is_valid"
   ],
   "note": "EntirelyBefore, CoveredBy, InMiddleOf and IsValid proved. OverlapsStartOf and OverlapsEndOf are also true of ranges without a common value, one before the other (refuted); proved when the ranges have a value in common."
  },
  {
   "property": "C70",
   "status": "proved",
   "theorems": [
    "C70_strings_identify",
    "C70_strings_text"
   ],
   "note": ""
  },
  {
   "property": "C71",
   "status": "partial",
   "theorems": [
    "C71_table_labels_change_refuted",
    "C71_table_other_maps_partial",
    "C71_tree_labels_change_refuted",
    "C71_claim_range_shares_refuted",
    "C71_tree_other_maps_partial",
    "C71_release_by_label_follows_the_map"
   ],
   "note": "False: label sets are Go maps and are stored by reference. A change of the map after the call shows in the entry (every table16/32/64 and every tree16/tree32 state), all entries of a ClaimRange share one map, and ReleaseByLabel goes by the contents at its own call. Proved: changes of maps of which the table or tree holds no reference do not matter."
  },
  {
   "property": "C72",
   "status": "proved",
   "theorems": [
    "C72_merge_id",
    "C72_merge_id_concatenates",
    "C72_too_long_panics"
   ],
   "note": "All values and lengths of the three widths, including lengths whose sum is above the width."
  },
  {
   "property": "C73",
   "status": "proved",
   "theorems": [
    "C73_one_value"
   ],
   "note": "The exact behaviour of the code, which is not that of a map: see C48."
  },
  {
   "property": "C74",
   "status": "proved",
   "theorems": [
    "C74_tree64_exact"
   ],
   "note": "The exact behaviour of the code: results, panics and contents after every sequence of calls."
  },
  {
   "property": "C75",
   "status": "proved",
   "theorems": [
    "C75_is_consecutive"
   ],
   "note": "Both iterators, every position. NewTable(0) with fewer than 2^64 claimed ids."
  },
  {
   "property": "C76",
   "status": "partial",
   "theorems": [
    "C76_equal_partial",
    "C76_equal_refuted",
    "C76_string",
    "C76_string_text"
   ],
   "note": "labels.Set.String joins key=value texts with commas, so label sets with a comma in a value can have the same text as others (C76_equal_refuted). Proved for labels without commas whose keys have no equals sign; the equivalence of Equal and String is proved without condition."
  },
  {
   "property": "C77",
   "status": "partial",
   "theorems": [
    "C77_reversed_claim_range_characterised",
    "C77_reversed_claim_range_refuted",
    "C77_tree64_reversed_claim_range_refuted"
   ],
   "note": "Refuted on every width: no reversed range is ever refused. For tree16 and tree32 the ids claimed instead are characterised exactly: both bounds and others, also ids outside [b,a]."
  },
  {
   "property": "C78",
   "status": "proved",
   "theorems": [
    "C78_release_atomic"
   ],
   "note": "For tree16 and tree32 (16-bit trees of any size, 32-bit trees with fewer than 2^31 - 2 entries and calls together). The equivalence is on results and on everything a later reading call can return; the nodes of the radix tree may differ. For tree64, where the record argument fails (C48), see C63."
  },
  {
   "property": "C79",
   "status": "proved",
   "theorems": [
    "C79_tree16_in_order",
    "C79_tree32_in_order"
   ],
   "note": "tree16 and tree32. The lengths at which every call returns id 0 (tree16: 0, tree32: 32) are those of C45_length_0_refuted and C46_claim_free_refuted; ClaimFree of tree64 always panics (C47)."
  },
  {
   "property": "C80",
   "status": "proved",
   "theorems": [
    "C80_tables_with_claim_free"
   ],
   "note": "All calls but GetByLabel, which reads the table many times. Why a ClaimFree fails although ids are free is C53."
  },
  {
   "property": "C81",
   "status": "proved",
   "theorems": [
    "C81_no_range_refuses_all",
    "C81_no_range_find_free",
    "C81_zoned_range",
    "C81_found_is_claimable_refuted"
   ],
   "note": "Exact behaviour. It refutes that an address found by FindFree can be claimed (C81_found_is_claimable_refuted); for ranges without zones that is C19."
  },
  {
   "property": "C82",
   "status": "proved",
   "theorems": [
    "C82_any_width_calls",
    "C82_any_width_find_free",
    "C82_any_width_listing"
   ],
   "note": "Exact behaviour for every range; C17-C19 and C56 are the case of fewer than 2^64 addresses, where every address has its own slot. The listing is for fewer than 2^64 claimed addresses."
  },
  {
   "property": "C83",
   "status": "proved",
   "theorems": [
    "C83_get_by_label_moments",
    "C83_get_by_label_entries"
   ],
   "note": "A GetByLabel that returned, described by the moments at which it lists and looks up the ids, and its consequences for the entries returned. Tables with fewer than 2^64 ids."
  },
  {
   "property": "C84",
   "status": "partial",
   "theorems": [
    "C84_iptable_returns_only_matching_refuted",
    "C84_iptable_get_by_label_moments_partial"
   ],
   "note": "Refuted: an Update between the two look-ups of an address makes GetByLabel return data that do not match. Proved: what it returns, by the moments of the look-ups."
  },
  {
   "property": "C85",
   "status": "proved",
   "theorems": [
    "C85_iterator_values_moments"
   ],
   "note": "For tables of size 1 to 2^64-1."
  },
  {
   "property": "C86",
   "status": "proved",
   "theorems": [
    "C86_built_set_is_what_the_calls_amount_to",
    "C86_id64_built_set",
    "C86_additions_then_removals",
    "C86_union_is_lost_exactly_when"
   ],
   "note": "For id16 and id32, all sequences; for id64, sequences with ids of length 1 to 32 and removals that start below 2^32 (others: C27_id64_high_removal_refuted)."
  },
  {
   "property": "C87",
   "status": "proved",
   "theorems": [
    "C87_zero_range"
   ],
   "note": ""
  },
  {
   "property": "C88",
   "status": "partial",
   "theorems": [
    "C88_printed_values_partial",
    "C88_nothing_left_partial",
    "C88_printed_nodes",
    "C88_keys_of_nodes_partial",
    "C88_entries_printed_partial",
    "C88_tree64_refuted"
   ],
   "note": "What PrintNodes prints: proved for every width and every sequence of calls (C88_printed_nodes). The values: proved for id16 and id32 with at most 2^w values at a prefix and fewer than 2^(63-w)-1 prefixes. For the 64-bit ids that is false: all nodes share the same keys (C88_tree64_refuted)."
  },
  {
   "property": "C89",
   "status": "proved",
   "theorems": [
    "C89_handle_id"
   ],
   "note": ""
  },
  {
   "property": "C90",
   "status": "proved",
   "theorems": [
    "C90_claim_loop",
    "C90_claim_free_loop",
    "C90_try_loop",
    "C90_main"
   ],
   "note": "What fmt prints is modelled as a list of lines; that labels.NewRequirement accepts range=test is a hypothesis of C90_main."
  },
  {
   "property": "C91",
   "status": "proved",
   "theorems": [
    "C91_selector",
    "C91_by_label"
   ],
   "note": "Which keys and values labels.NewRequirement accepts is a parameter. For a tree32, with fewer than 2^31-2 prefixes stored."
  }
 ]
}