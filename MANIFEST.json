{
 "claims": [
  {
   "property": "C01",
   "status": "proved",
   "theorems": [
    "C01_update_roundtrip",
    "C01_nonvacuous"
   ],
   "note": "Histories follow the duplicate-pair discipline (DESIGN.md section 3), stated as [separable]."
  },
  {
   "property": "C02",
   "status": "proved",
   "theorems": [
    "C02_count_and_each_all",
    "C02_nonvacuous"
   ],
   "note": ""
  },
  {
   "property": "C03",
   "status": "proved",
   "theorems": [
    "C03_each_visits_matches",
    "C03_nonvacuous",
    "C03_each_visits_one_of_pair",
    "C03_one_of_pair_nonvacuous",
    "C03_each_visits_either_end",
    "C03_either_end_nonvacuous"
   ],
   "note": "An exact pair query shows one of the links with that pair (C03_each_visits_one_of_pair), so the first theorem assumes at most one match there."
  },
  {
   "property": "C04",
   "status": "proved",
   "theorems": [
    "C04_count_equals_visits",
    "C04_nonvacuous"
   ],
   "note": "Proved without the assumption of distinct pairs."
  },
  {
   "property": "C05",
   "status": "proved",
   "theorems": [
    "C05_search_iff",
    "C05_search_or",
    "C05_nonvacuous"
   ],
   "note": ""
  },
  {
   "property": "C06",
   "status": "proved",
   "theorems": [
    "C06_create_fresh",
    "C06_nonvacuous"
   ],
   "note": "The hypothesis is only that create succeeded."
  },
  {
   "property": "C07",
   "status": "proved",
   "theorems": [
    "C07_index_policy",
    "C07_nonvacuous"
   ],
   "note": ""
  },
  {
   "property": "C08",
   "status": "proved",
   "theorems": [
    "C08_delete_removes_one",
    "C08_nonvacuous"
   ],
   "note": "Histories follow the duplicate-pair discipline (DESIGN.md section 3), stated as [separable]."
  },
  {
   "property": "C09",
   "status": "proved",
   "theorems": [
    "C09_missing_links",
    "C09_nonvacuous"
   ],
   "note": ""
  },
  {
   "property": "C10",
   "status": "proved",
   "theorems": [
    "C10_limit_reached_iff",
    "C10_nonvacuous"
   ],
   "note": ""
  },
  {
   "property": "C11",
   "status": "proved",
   "theorems": [
    "C11_no_panic",
    "C11_nonvacuous"
   ],
   "note": "Histories follow the duplicate-pair discipline (DESIGN.md section 3), stated as [separable]."
  },
  {
   "property": "C12",
   "status": "proved",
   "theorems": [
    "C12_delete_everything",
    "C12_nonvacuous"
   ],
   "note": "Histories follow the duplicate-pair discipline (DESIGN.md section 3), stated as [separable]."
  },
  {
   "property": "C13",
   "status": "partial",
   "theorems": [
    "C13_split_reopen_partial",
    "C13_split_partial_nonvacuous",
    "C13_split_reopen_refuted",
    "C13_split_reopen_always_lost",
    "C13_reopen_partial",
    "C13_partial_nonvacuous",
    "C13_reopen_refuted",
    "C13_reopen_always_lost"
   ],
   "note": "False in full: no single-memory store whose highest link reaches SIZE_STEP can be read after reopening (C13_reopen_always_lost, C13_reopen_refuted), nor the last link of a two-memory store if it is a multiple of the step and not below a page (C13_split_reopen_always_lost, C13_split_reopen_refuted). Proved otherwise, for both stores."
  },
  {
   "property": "C14",
   "status": "partial",
   "theorems": [
    "C14_split_update_before",
    "C14_split_nonvacuous",
    "C14_update_before_is_new",
    "C14_update_before_refuted"
   ],
   "note": "False for the single-memory store: the handler gets the new source and target as the old link (C14_update_before_refuted, and for every update C14_update_before_is_new). Proved for the two-memory store (C14_split_update_before)."
  },
  {
   "property": "C15",
   "status": "proved",
   "theorems": [
    "C15_split_handlers_told_the_truth",
    "C15_split_nonvacuous",
    "C15_handlers_told_the_truth",
    "C15_nonvacuous"
   ],
   "note": ""
  },
  {
   "property": "C16",
   "status": "partial",
   "theorems": [
    "C16_delete_all_partial",
    "C16_partial_nonvacuous",
    "C16_delete_all_holes",
    "C16_delete_all_refuted"
   ],
   "note": "False in full: fails on every store with a hole (C16_delete_all_holes, C16_delete_all_refuted). Proved for stores without holes."
  },
  {
   "property": "C17",
   "status": "partial",
   "theorems": [
    "C17_delete_usages_partial",
    "C17_partial_nonvacuous",
    "C17_delete_usages_double",
    "C17_delete_usages_refuted"
   ],
   "note": "False in full: fails whenever another link has i at both ends (C17_delete_usages_double, C17_delete_usages_refuted). Proved otherwise."
  },
  {
   "property": "C18",
   "status": "partial",
   "theorems": [
    "C18_rebase_partial",
    "C18_partial_nonvacuous",
    "C18_rebase_refuted",
    "C18_rebase_halves",
    "C18_halves_nonvacuous"
   ],
   "note": "False in full: a usage with old at both ends keeps it as source (C18_rebase_refuted). Proved when there is none and redirecting makes no duplicate pairs (C18_rebase_partial). With such usages exactly they are left with old as source (C18_rebase_halves), unless another link holds old and new while one is being redirected."
  },
  {
   "property": "C19",
   "status": "partial",
   "theorems": [
    "C19_fuse_passes_on",
    "C19_fuse_refuted"
   ],
   "note": "False: Fuse never fuses (C19_fuse_passes_on for every handler and sequence of calls, C19_fuse_refuted for all four operations)."
  },
  {
   "property": "C20",
   "status": "proved",
   "theorems": [
    "C20_usages",
    "C20_usages_missing",
    "C20_nonvacuous"
   ],
   "note": ""
  },
  {
   "property": "C21",
   "status": "proved",
   "theorems": [
    "C21_get_or_create",
    "C21_nonvacuous"
   ],
   "note": ""
  },
  {
   "property": "C22",
   "status": "proved",
   "theorems": [
    "C22_create_link",
    "C22_create_point",
    "C22_nonvacuous"
   ],
   "note": ""
  },
  {
   "property": "C23",
   "status": "proved",
   "theorems": [
    "C23_break_stops",
    "C23_nonvacuous",
    "C23_modifying_break",
    "C23_modifying_nonvacuous"
   ],
   "note": ""
  },
  {
   "property": "C24",
   "status": "proved",
   "theorems": [
    "C24_find_single_iter",
    "C24_nonvacuous"
   ],
   "note": ""
  },
  {
   "property": "C25",
   "status": "proved",
   "theorems": [
    "C25_update",
    "C25_update_nonvacuous",
    "C25_delete",
    "C25_delete_nonvacuous",
    "C25_missing_links",
    "C25_missing_nonvacuous",
    "C25_create",
    "C25_create_nonvacuous",
    "C25_count_and_each_all",
    "C25_all_nonvacuous",
    "C25_no_panic",
    "C25_no_panic_nonvacuous"
   ],
   "note": "The discipline is exactly that of the statement (s_okc, s_oku, s_okd in SplitHist.v). Assumes that the index memory does not fail to grow after the data memory grew (see C45), and for create room for one growth step."
  },
  {
   "property": "C26",
   "status": "partial",
   "theorems": [
    "C26_updated_link_readable_partial",
    "C26_partial_nonvacuous",
    "C26_updated_link_refuted",
    "C26_null_target_always_lost",
    "C26_always_lost_nonvacuous"
   ],
   "note": "False for a null target with a non-null source: the link can no longer be read, and is still counted (C26_null_target_always_lost, C26_updated_link_refuted). Proved within the discipline of C25."
  },
  {
   "property": "C27",
   "status": "partial",
   "theorems": [
    "C27_count_equals_visits_partial",
    "C27_partial_nonvacuous",
    "C27_index_and_end_refuted",
    "C27_outer_source_refuted",
    "C27_outer_pair_refuted",
    "C27_index_and_end_always",
    "C27_index_and_end_nonvacuous",
    "C27_outer_source_always",
    "C27_outer_source_nonvacuous"
   ],
   "note": "False for [i, v] (C27_index_and_end_always, C27_index_and_end_refuted), and for sources that are not links (C27_outer_source_always, C27_outer_source_refuted, C27_outer_pair_refuted). Proved for the queries described by [countable]."
  },
  {
   "property": "C28",
   "status": "partial",
   "theorems": [
    "C28_dangling_found_partial",
    "C28_partial_nonvacuous",
    "C28_dangling_always_lost",
    "C28_dangling_refuted"
   ],
   "note": "False: after the reuse of i queries by i visit nothing, whatever refers to it (C28_dangling_always_lost, C28_dangling_refuted). Proved as long as i is not created again."
  },
  {
   "property": "C29",
   "status": "partial",
   "theorems": [
    "C29_self_reference_found_partial",
    "C29_partial_nonvacuous",
    "C29_self_reference_refuted",
    "C29_self_reference_always_lost",
    "C29_always_lost_nonvacuous"
   ],
   "note": "False if the link had another source before (C29_self_reference_always_lost, C29_self_reference_refuted). Proved when it had none."
  },
  {
   "property": "C30",
   "status": "partial",
   "theorems": [
    "C30_twins_next_call",
    "C30_twins_same_answers",
    "C30_nonvacuous",
    "C30_null_source_refuted",
    "C30_null_source_always",
    "C30_null_source_nonvacuous"
   ],
   "note": "False for a search with a null source (C30_null_source_always, C30_null_source_refuted). Everything else of the statement is proved for calls that do not run out of memory."
  },
  {
   "property": "C31",
   "status": "partial",
   "theorems": [
    "C31_callbacks_partial",
    "C31_nonvacuous",
    "C31_create_inverted",
    "C31_create_refuted",
    "C31_smart",
    "C31_smart_nonvacuous"
   ],
   "note": "False for create, whose comparison is inverted (C31_create_inverted, C31_create_refuted). Proved for update, delete and each. Assumes a handle that really points to a box (see C49)."
  },
  {
   "property": "C32",
   "status": "proved",
   "theorems": [
    "C32_round_trip",
    "C32_round_trip_c",
    "C32_nonvacuous"
   ],
   "note": ""
  },
  {
   "property": "C33",
   "status": "partial",
   "theorems": [
    "C33_queries_partial",
    "C33_partial_nonvacuous",
    "C33_long_queries_panic",
    "C33_queries_refuted"
   ],
   "note": "False for queries longer than three parts, which always panic. Proved for shorter ones."
  },
  {
   "property": "C34",
   "status": "partial",
   "theorems": [
    "C34_open_partial",
    "C34_partial_nonvacuous",
    "C34_open_panics",
    "C34_open_refuted"
   ],
   "note": "False for 8- and 16-bit addresses, where opening panics. Proved whenever the step fits the address type."
  },
  {
   "property": "C35",
   "status": "partial",
   "theorems": [
    "C35_create_until_full_partial",
    "C35_partial_nonvacuous",
    "C35_create_until_full_refuted",
    "C35_near_end_panics",
    "C35_near_end_nonvacuous"
   ],
   "note": "False near the end of the address type (C35_create_until_full_refuted, and for every store C35_near_end_panics). Proved with room for one growth step."
  },
  {
   "property": "C36",
   "status": "partial",
   "theorems": [
    "C36_unique_validator_partial",
    "C36_nonvacuous",
    "C36_unique_validator_refuted",
    "C36_null_source_never_seen",
    "C36_null_source_doubled",
    "C36_null_source_nonvacuous"
   ],
   "note": "False in full: an update of a link to its own pair is refused, and pairs (0, t) are never seen and so can be held twice (C36_unique_validator_refuted, C36_null_source_never_seen, C36_null_source_doubled). Proved for pairs with non-null source."
  },
  {
   "property": "C37",
   "status": "partial",
   "theorems": [
    "C37_unique_resolver_partial",
    "C37_nonvacuous",
    "C37_unique_resolver_own_pair",
    "C37_unique_resolver_refuted",
    "C37_null_source_not_merged",
    "C37_null_source_nonvacuous"
   ],
   "note": "False in full: an update of a link to its own pair deletes it and fails (C37_unique_resolver_own_pair), and pairs with a null source are never merged (C37_null_source_not_merged). Proved for pairs held by another link or by none, with non-null source."
  },
  {
   "property": "C38",
   "status": "proved",
   "theorems": [
    "C38_usages_validator",
    "C38_nonvacuous",
    "C38_updates_refused_too"
   ],
   "note": ""
  },
  {
   "property": "C39",
   "status": "proved",
   "theorems": [
    "C39_non_null_deletion",
    "C39_nonvacuous"
   ],
   "note": ""
  },
  {
   "property": "C40",
   "status": "partial",
   "theorems": [
    "C40_cascade_usages_partial",
    "C40_nonvacuous",
    "C40_cascade_usages_double",
    "C40_cascade_usages_refuted"
   ],
   "note": "False in full: not transitive, and fails if another link has i at both ends (C40_cascade_usages_refuted, C40_cascade_usages_double). Proved otherwise."
  },
  {
   "property": "C41",
   "status": "partial",
   "theorems": [
    "C41_cascade_unique_partial",
    "C41_nonvacuous",
    "C41_cascade_unique_refuted",
    "C41_null_source_not_merged",
    "C41_null_source_nonvacuous",
    "C41_own_pair",
    "C41_own_pair_nonvacuous"
   ],
   "note": "False in full: own pair (C41_own_pair), null source (C41_null_source_not_merged), and j referring to i (C41_cascade_unique_refuted). Proved otherwise."
  },
  {
   "property": "C42",
   "status": "proved",
   "theorems": [
    "C42_delete_query",
    "C42_nonvacuous"
   ],
   "note": "Histories follow the duplicate-pair discipline (DESIGN.md section 3), stated as [separable]."
  },
  {
   "property": "C43",
   "status": "proved",
   "theorems": [
    "C43_exist",
    "C43_nonvacuous"
   ],
   "note": ""
  },
  {
   "property": "C44",
   "status": "partial",
   "theorems": [
    "C44_update_is_steps",
    "C44_points_exist",
    "C44_interrupted_update_partial",
    "C44_link_lost",
    "C44_refuted",
    "C44_nonvacuous"
   ],
   "note": "False: between the detach and the attach of the source tree the link is lost after reopening, and count still counts it (C44_link_lost for every such point, C44_refuted). Proved for all other points. The points are those between tree operations and between the two field writes; the writes inside one tree operation belong to an external crate. Stores that have reached the step size are excluded (see C13)."
  },
  {
   "property": "C45",
   "status": "partial",
   "theorems": [
    "C45_alloc_failed_unit",
    "C45_unit_nonvacuous",
    "C45_split_alloc_failed_partial",
    "C45_split_retry_recovers",
    "C45_split_retry_nonvacuous",
    "C45_split_index_failure_refuted",
    "C45_split_partial_nonvacuous",
    "C45_split_index_failure_always",
    "C45_split_index_always_nonvacuous"
   ],
   "note": "Proved for the single-memory store, and for the two-memory store if the data memory could not grow. False if only the index memory could not: reads are undefined behaviour, whatever the store (C45_split_index_failure_always, C45_split_index_failure_refuted), until a later create succeeds (C45_split_retry_recovers)."
  },
  {
   "property": "C46",
   "status": "partial",
   "theorems": [
    "C46_links_partial",
    "C46_long_slice_ub",
    "C46_from_slice_refuted"
   ],
   "note": "False for slices of more than three elements, which are undefined behaviour (C46_long_slice_ub). Everything else proved."
  },
  {
   "property": "C47",
   "status": "partial",
   "theorems": [
    "C47_returned_index_partial",
    "C47_partial_nonvacuous",
    "C47_delete_returns_zero",
    "C47_silent_store",
    "C47_silent_nonvacuous",
    "C47_returned_index_refuted"
   ],
   "note": "False for delete and rebase_and_delete, which return 0. Proved for update and create. A store that never calls the handler makes the calls return 0 (silent_store)."
  },
  {
   "property": "C48",
   "status": "partial",
   "theorems": [
    "C48_null_queries_find_nothing",
    "C48_null_queries_refuted"
   ],
   "note": "False: such queries never visit anything (proved for all states)."
  },
  {
   "property": "C49",
   "status": "partial",
   "theorems": [
    "C49_new_handle_ub",
    "C49_new_handle_refuted",
    "C49_boxed_handle_partial",
    "C49_boxed_calls_partial",
    "C49_boxed_calls_nonvacuous",
    "C49_drop_partial",
    "C49_new_drop_ub",
    "C49_drop_nonvacuous",
    "C49_failed_new",
    "C49_box_forwards"
   ],
   "note": "False: New returns the address of the store, the other functions expect the address of a box (C49_new_handle_ub, C49_new_drop_ub). A failed New gives null, on which every function panics (C49_failed_new). Proved for handles that are boxes (C49_boxed_handle_partial, C49_boxed_calls_partial, C49_drop_partial). Relies on the two-kinds-of-objects heap model of Ffi.v. The box implementation of the traits itself only forwards (C49_box_forwards)."
  },
  {
   "property": "C50",
   "status": "partial",
   "theorems": [
    "C50_rebase_and_delete_partial",
    "C50_partial_nonvacuous",
    "C50_rebase_and_delete_refuted",
    "C50_rebase_and_delete_halves"
   ],
   "note": "False in full: a usage with old at both ends keeps old as its source (C50_rebase_and_delete_refuted). Proved when no other link has old at both ends and the merged links have distinct pairs (C50_rebase_and_delete_partial); with such links C50_rebase_and_delete_halves says what is left, under the conditions of C18_rebase_halves."
  },
  {
   "property": "C51",
   "status": "partial",
   "theorems": [
    "C51_split_each_visits_matches",
    "C51_nonvacuous",
    "C51_split_each_one_of_pair",
    "C51_one_of_pair_nonvacuous",
    "C51_split_each_either_end",
    "C51_either_end_nonvacuous",
    "C51_null_source_refuted",
    "C51_null_source_always",
    "C51_null_source_nonvacuous"
   ],
   "note": "False for a null source (C51_null_source_always says what every store shows, C51_null_source_refuted). Proved for queries that do not mention the null reference, all matches if they are one for an exact pair query; with several, one of them is shown (C51_split_each_one_of_pair)."
  },
  {
   "property": "C52",
   "status": "partial",
   "theorems": [
    "C52_split_search_partial",
    "C52_split_search_or_partial",
    "C52_partial_nonvacuous",
    "C52_split_search_refuted"
   ],
   "note": "False for a null target once an index has been deleted (C52_split_search_refuted); a null source is excluded (see C30). Proved otherwise."
  },
  {
   "property": "C53",
   "status": "partial",
   "theorems": [
    "C53_split_create_link_partial",
    "C53_split_create_point_partial",
    "C53_split_get_or_create_partial",
    "C53_partial_nonvacuous",
    "C53_split_get_or_create_refuted",
    "C53_dangling_pair_always_lost",
    "C53_dangling_pair_nonvacuous"
   ],
   "note": "False if the next index is still referred to: such pairs are never found again (C53_dangling_pair_always_lost, C53_split_get_or_create_refuted). Proved when it is not, with room for one growth step; a null target needs a null source (see C26), and get_or_create is proved for non-null ends."
  },
  {
   "property": "C54",
   "status": "partial",
   "theorems": [
    "C54_split_usages",
    "C54_split_usages_missing",
    "C54_split_delete_usages_partial",
    "C54_split_delete_usages_double",
    "C54_nonvacuous",
    "C54_split_delete_usages_refuted"
   ],
   "note": "The reading methods are proved. delete_usages is false if another link has i at both ends (C54_split_delete_usages_double, C54_split_delete_usages_refuted) and proved otherwise."
  },
  {
   "property": "C55",
   "status": "proved",
   "theorems": [
    "C55_split_find_single_iter",
    "C55_split_exist",
    "C55_nonvacuous"
   ],
   "note": "For the queries described by [plain_query] and [countable]."
  },
  {
   "property": "C56",
   "status": "partial",
   "theorems": [
    "C56_split_delete_everything",
    "C56_split_delete_all_partial",
    "C56_split_delete_all_holes",
    "C56_split_delete_query_partial",
    "C56_nonvacuous",
    "C56_split_delete_all_refuted"
   ],
   "note": "delete_all fails on every store with a hole (C56_split_delete_all_holes, C56_split_delete_all_refuted); proved without holes. Deleting in any order is proved; delete_query is proved for queries by position, as its name says; C81 is about the others."
  },
  {
   "property": "C57",
   "status": "partial",
   "theorems": [
    "C57_split_rebase_halves",
    "C57_halves_nonvacuous",
    "C57_split_rebase_partial",
    "C57_partial_nonvacuous",
    "C57_split_rebase_refuted"
   ],
   "note": "False if the new link itself is a usage of old: it cannot be found afterwards (C57_split_rebase_refuted). Proved when no usage refers to itself or is the new link, none has old at both ends, new is not null, and redirecting makes no duplicate pairs (C57_split_rebase_partial); with usages at both ends C57_split_rebase_halves says what is left."
  },
  {
   "property": "C58",
   "status": "proved",
   "theorems": [
    "C58_random_unit",
    "C58_random_split",
    "C58_nonvacuous"
   ],
   "note": "The random choices are arbitrary functions of the current number of links within the ranges given to the generator."
  },
  {
   "property": "C59",
   "status": "proved",
   "theorems": [
    "C59_unit_create",
    "C59_unit_others",
    "C59_unit_traces",
    "C59_unit_bound",
    "C59_split_create",
    "C59_split_others",
    "C59_split_traces",
    "C59_split_bound",
    "C59_nonvacuous"
   ],
   "note": "The two-memory store never has less than the aligned page, which the bound takes into account. Assumes that the index memory does not fail to grow after the data memory grew (see C45)."
  },
  {
   "property": "C60",
   "status": "partial",
   "theorems": [
    "C60_interrupted_create",
    "C60_delete_is_steps",
    "C60_interrupted_delete_partial",
    "C60_half_deleted",
    "C60_deleted_link_returns",
    "C60_refuted",
    "C60_nonvacuous"
   ],
   "note": "Proved for create. False for delete: right after the update the link is there as 0 -> 0 (C60_half_deleted for every store, C60_refuted), and inside a round of the loop that lowers allocated a link deleted earlier is there again (C60_deleted_link_returns for every store, C60_refuted); the points inside the update are those of C44. Proved for all other points of delete. The writes inside one list operation belong to an external crate and are not distinguished. Stores that have reached the step size are excluded (see C13)."
  },
  {
   "property": "C61",
   "status": "partial",
   "theorems": [
    "C61_exported_functions_partial",
    "C61_names_distinct",
    "C61_expands_iff",
    "C61_array_lost",
    "C61_library_names",
    "C61_array_refuted",
    "C61_nonvacuous"
   ],
   "note": "False for parameters of array types: the exported function takes one element (C61_array_lost for every element type, C61_array_refuted). Proved for all other items in which the type parameter is not the name of a later path segment; the interface of the library is of this kind (C61_library_names). Parsing and printing of tokens are not modelled."
  },
  {
   "property": "C62",
   "status": "proved",
   "theorems": [
    "C62_value_has_type",
    "C62_first_is_outermost",
    "C62_unset_is_default",
    "C62_names_are_words",
    "C62_every_variable",
    "C62_nonvacuous"
   ],
   "note": "Token streams are lists of strings; white space is ASCII white space. The decorator constructors are assumed to have the type their pattern gives."
  },
  {
   "property": "C63",
   "status": "proved",
   "theorems": [
    "C63_sizes",
    "C63_unit_reads",
    "C63_split_reads",
    "C63_unit_writes",
    "C63_split_writes",
    "C63_nonvacuous"
   ],
   "note": "The k-th field of a repr(C) struct of k words is its k-th word; the position of the fields is read from the source. The words of a split entry the model keeps in its list of free links are covered by the list contract, not by this claim."
  },
  {
   "property": "C64",
   "status": "proved",
   "theorems": [
    "C64_each_usages",
    "C64_ends",
    "C64_attach_detach",
    "C64_zeroed",
    "C64_ends_or_never",
    "C64_histories",
    "C64_setters",
    "C64_out_of_bounds",
    "C64_attach_out_of_bounds",
    "C64_nonvacuous",
    "C64_broken_ring_never_ends",
    "C64_tree_memory_is_no_list"
   ],
   "note": "The operations attach_as_first and detach belong to an external crate; the contract of the list of free links (Lists.v) is assumed for the list of one head, written through the setters of the repository. Outside the histories a walk may never end (C64_broken_ring_never_ends), and the memory of the store with trees is not a list memory (C64_tree_memory_is_no_list)."
  },
  {
   "property": "C65",
   "status": "proved",
   "theorems": [
    "C65_links",
    "C65_doublets",
    "C65_errors",
    "C65_nonvacuous"
   ],
   "note": "Integers are printed in decimal without leading zeroes and vectors as [a, b], both by the Rust library, assumed. A wrapped error is known by its text only."
  },
  {
   "property": "C66",
   "status": "proved",
   "theorems": [
    "C66_unit",
    "C66_split",
    "C66_same_effect",
    "C66_same_effect_provided",
    "C66_callbacks",
    "C66_nonvacuous"
   ],
   "note": "Handlers and fuses are functions that thread a state; a handler that panics or does not return is outside the model. External calls (trees, lists, memory) take no handler."
  },
  {
   "property": "C67",
   "status": "proved",
   "theorems": [
    "C67_create_delete_unit",
    "C67_create_delete_split",
    "C67_update_back_unit",
    "C67_update_back_split",
    "C67_delete_recreate_unit",
    "C67_delete_recreate_split",
    "C67_updates_commute_unit",
    "C67_updates_commute_split",
    "C67_reopen_unit",
    "C67_reopen_split",
    "C67_other_trees_unit",
    "C67_other_trees_split",
    "C67_split_unit",
    "C67_delete_recreate_last_refuted",
    "C67_nonvacuous"
   ],
   "note": "Within the disciplines of the two stores (Obs.v, SplitHist.v): no update or deletion of a link that shares its pair, and for the split store the restrictions of C29. Queries for a pair held by more than one link are left out, and what happens after a failed allocation. The link that was last may come back under another index (C67_delete_recreate_last_refuted)."
  },
  {
   "property": "C68",
   "status": "proved",
   "theorems": [
    "C68_split_by_target",
    "C68_split_either",
    "C68_split_determined",
    "C68_everything",
    "C68_split_lowest",
    "C68_unit_source_refuted",
    "C68_unit_target_refuted",
    "C68_split_target_refuted",
    "C68_split_outer_refuted",
    "C68_nonvacuous"
   ],
   "note": "The order of [any, v, any] in the split store for a link v, of the first half of [any, v], of find, and of queries for everything in both stores. All other searches walk a tree from its root, and C68_*_refuted show (with the reference trees, which meet the contract) that the same links may then come in another order."
  },
  {
   "property": "C69",
   "status": "partial",
   "theorems": [
    "C69_update_is_steps",
    "C69_points_exist",
    "C69_interrupted_update_partial",
    "C69_link_lost",
    "C69_missed_by_source",
    "C69_refuted",
    "C69_nonvacuous"
   ],
   "note": "Proved for the points at which the link is not detached from its tree of targets (C69_interrupted_update_partial); between the two detaches and the last attach the link is gone after reopening, although counted (C69_link_lost, C69_refuted): a link whose tree node is empty is taken for deleted. After the first detach it is there but not found by its source (C69_missed_by_source). Tree operations of the external crate are not interrupted."
  },
  {
   "property": "C70",
   "status": "partial",
   "theorems": [
    "C70_interrupted_create",
    "C70_delete_is_steps",
    "C70_interrupted_delete_partial",
    "C70_user_lost",
    "C70_half_deleted",
    "C70_deleted_link_returns",
    "C70_refuted",
    "C70_nonvacuous"
   ],
   "note": "Creation is proved in full (C70_interrupted_create). Deletion is proved in the form that every link is as before the call, or moved to the place it had in the call, at the points C70_interrupted_delete_partial lists; refuted at the others: a user of the deleted link is lost (C70_user_lost), the deleted link is left with one end (C70_half_deleted), a link deleted earlier returns (C70_deleted_link_returns). Tree and list operations of the external crates are not interrupted."
  },
  {
   "property": "C71",
   "status": "partial",
   "theorems": [
    "C71_unique_validator_partial",
    "C71_outer_source_refused",
    "C71_unique_resolver_partial",
    "C71_unique_resolver_own_pair",
    "C71_nonvacuous",
    "C71_refuted"
   ],
   "note": "UniqueValidator: held pairs are refused and free pairs with a link as source are passed on; false for outer sources, where every pair is refused once any link has that source (C71_outer_source_refused for every store, C71_refuted). UniqueResolver: proved unless the holder refers to itself, which is lost by the resolution (C71_refuted), or the link holds the pair itself (C71_unique_resolver_own_pair). Pairs with a null end are left out (see C51)."
  },
  {
   "property": "C72",
   "status": "partial",
   "theorems": [
    "C72_usages_validator",
    "C72_non_null_deletion",
    "C72_cascade_usages_partial",
    "C72_cascade_usages_double",
    "C72_cascade_unique_partial",
    "C72_nonvacuous",
    "C72_refuted"
   ],
   "note": "UsagesValidator and NonNullDeletionResolver are proved. CascadeUsagesResolver is false for users of users and for a link with i at both ends (C72_cascade_usages_double, C72_refuted), CascadeUniqueResolver for redirected links that refer to themselves (C72_refuted); both are proved otherwise."
  },
  {
   "property": "C73",
   "status": "partial",
   "theorems": [
    "C73_unique_resolver",
    "C73_unique_validator_partial",
    "C73_unique_validator_leak",
    "C73_usages_validator",
    "C73_null_source",
    "C73_nonvacuous",
    "C73_null_source_nonvacuous",
    "C73_refuted"
   ],
   "note": "UniqueResolver and UsagesValidator are proved, the latter and create_point if no link refers to a missing one. False otherwise: a refused create_link leaves a new empty link (for every store C73_unique_validator_leak; C73_refuted). Pairs with a null source are never found and are doubled freely (C73_null_source)."
  },
  {
   "property": "C74",
   "status": "partial",
   "theorems": [
    "C74_stacks_partial",
    "C74_non_null",
    "C74_resolver_over_validator_halfway",
    "C74_nonvacuous",
    "C74_refuted"
   ],
   "note": "All four stacks keep both (C74_stacks_partial). False: UniqueResolver over UsagesValidator deletes the updated link and then fails if the holder of the pair is used (for every store C74_resolver_over_validator_halfway; C74_refuted)."
  },
  {
   "property": "C75",
   "status": "proved",
   "theorems": [
    "C75_unit",
    "C75_split",
    "C75_unit_steps",
    "C75_split_steps",
    "C75_frame",
    "C75_pointers",
    "C75_order",
    "C75_nonvacuous",
    "C75_zero_node",
    "C75_split_nonvacuous",
    "C75_realised"
   ],
   "note": "Programs are finite or end in Diverge; pointers are those the methods hand out and the root, used while the memory is not moved. 0 as a node is outside: in the single memory its fields are the header (C75_zero_node). The crate is assumed to work through these methods; its algorithm is not modelled."
  },
  {
   "property": "C76",
   "status": "proved",
   "theorems": [
    "C76_lists",
    "C76_unit_steps",
    "C76_split_steps",
    "C76_frame",
    "C76_realised",
    "C76_nonvacuous"
   ],
   "note": "As C75, for the methods of AbsoluteLinkedList and LinkedList; 0 as an element is outside. C76_realised gives the programs for the list operations the models are run with."
  },
  {
   "property": "C77",
   "status": "partial",
   "theorems": [
    "C77_stopped_inside_partial",
    "C77_targets",
    "C77_points_exist",
    "C77_realised",
    "C77_nonvacuous",
    "C77_refuted",
    "C77_spares_needed"
   ],
   "note": "The other links are as before (C77_stopped_inside_partial). The updated link may be lost, and then count still counts it; inside the second detach it always is if it had a source (C77_targets, C77_refuted). The algorithm is any program over the methods of the tree; that it does not make the size of another node zero for a moment is assumed, and needed (C77_spares_needed). Plain insertion and removal are such algorithms for every operation on every store (C77_realised)."
  },
  {
   "property": "C78",
   "status": "proved",
   "theorems": [
    "C78_unit",
    "C78_split",
    "C78_no_matter",
    "C78_split_update",
    "C78_split_update_realised",
    "C78_unit_update_realised",
    "C78_nonvacuous"
   ],
   "note": "Compared are get_link of every index, the count of all links and each over all links. The algorithm is any program over the methods of the tree that leaves the size of every other node zero or non-zero (C77_spares_needed shows this is needed) and enters or takes out the link as the contract says; insertion and removal are such programs for every operation of an update on every store (C78_split_update_realised, C78_unit_update_realised). What the other links and the updated link are is said in C78_split_update."
  },
  {
   "property": "C79",
   "status": "partial",
   "theorems": [
    "C79_unit_partial",
    "C79_split_partial",
    "C79_realised",
    "C79_calls_realised",
    "C79_refuted",
    "C79_care_needed",
    "C79_nonvacuous"
   ],
   "note": "The full statement is false of the code (C79_refuted): a stop in the middle of detach shows the reused link with the source 0 and the next free link as its target, and each visits one link more than count. Proved for every state and call (C79_unit_partial, C79_split_partial): every link but the one created or deleted and the one taken off the list reads as before, a link deleted from the end is gone, and count and each are each k or k + 1 for one k. The algorithm is any program over the methods of the list that keeps other free links visible as free and first free or none (C79_care_needed shows this is needed); detach and attach_as_first are such programs on every ring (C79_realised) and in every call (C79_calls_realised)."
  },
  {
   "property": "C80",
   "status": "partial",
   "theorems": [
    "C80_unit_partial",
    "C80_split_partial",
    "C80_unit_distinct_partial",
    "C80_split_distinct_partial",
    "C80_refuted",
    "C80_nonvacuous"
   ],
   "note": "The full statement is false of the code (C80_refuted): nine links 1 -> 1 in an address type up to 15 make every one of the four panic (a build without overflow checks would wrap instead), in both stores. Proved for every state, link and address type (C80_unit_partial, C80_split_partial): the results are exact if the number of links with v as source plus the number with v as target fits the type, and the addition panics if it does not; and as long as no two links have the same pair, it always fits (C80_unit_distinct_partial, C80_split_distinct_partial)."
  },
  {
   "property": "C81",
   "status": "partial",
   "theorems": [
    "C81_unit_partial",
    "C81_unit_doubled",
    "C81_unit_null",
    "C81_split_partial",
    "C81_split_doubled",
    "C81_refuted",
    "C81_split_refuted",
    "C81_null_refuted",
    "C81_nonvacuous",
    "C81_split_nonvacuous"
   ],
   "note": "The full statement is false of the code. A link x from v to v is visited twice and its second deletion fails: for every such state the call returns NotExists(x) after deleting some of the links, x among them, and telling the handler exactly of those (C81_unit_doubled, C81_split_doubled); links at v can survive (C81_refuted, C81_split_refuted). With v null the call deletes nothing and succeeds although links match (C81_unit_null, C81_null_refuted, unit store). Proved otherwise (C81_unit_partial, C81_split_partial); for the split store v must be a link, or there must be no hole, or some source outside, so that counting is right."
  },
  {
   "property": "C82",
   "status": "partial",
   "theorems": [
    "C82_points_exist",
    "C82_lost",
    "C82_create",
    "C82_update",
    "C82_stopped_create",
    "C82_stopped_delete_partial",
    "C82_delete_partial",
    "C82_count",
    "C82_by_source",
    "C82_by_target",
    "C82_either_end",
    "C82_by_index",
    "C82_search",
    "C82_uncovered",
    "C82_stray",
    "C82_refuted",
    "C82_uncovered_nonvacuous",
    "C82_nonvacuous",
    "C82_stopped_nonvacuous"
   ],
   "note": "The full statement is false of the code. Proved: a lost link cannot be read, changed or deleted (C82_lost); creation takes an index that no link and no lost link has, so the index is leaked for good (C82_create); updating a link that is in both trees (C82_update); deleting one while something remains above every lost link below it (C82_delete_partial); count counts the lost links and each does not (C82_count); queries by index, by source, by either end and searches (C82_by_index, C82_by_source, C82_either_end, C82_search); queries by target show lost links still in that tree and miss links stopped before their last write (C82_by_target). Stopping a creation creates the link or nothing (C82_stopped_create); stopping a deletion after its update empties or removes the link and may show one free slot as an empty link (C82_stopped_delete_partial). Refuted: deleting the topmost link above a lost one detaches the lost one from the free list it is not in, which changes an unrelated link (C82_refuted), and panics for every such store with a list that refuses (C82_uncovered); updating or deleting a link that is missing from the tree of targets detaches it from that tree, which panics with a tree that refuses (C82_stray)."
  },
  {
   "property": "C83",
   "status": "partial",
   "theorems": [
    "C83_create",
    "C83_update_partial",
    "C83_delete_partial",
    "C83_missing",
    "C83_misfiled",
    "C83_count_and_each_all",
    "C83_by_index",
    "C83_by_source",
    "C83_by_target",
    "C83_either_end",
    "C83_search",
    "C83_stray",
    "C83_nonvacuous",
    "C83_refuted"
   ],
   "note": "The full statement is false of the code. Sets of misfiled links are followed through every call: a link becomes misfiled when the index it refers to is given out, or when it has a source and is made to refer to itself, and stops being so when what it refers to is deleted. Proved for every such life: creation (C83_create), update and deletion of links that are not misfiled, with everything else unchanged (C83_update_partial, C83_delete_partial), missing links (C83_missing), every link readable and misfiled ones referring to links (C83_misfiled), unrestricted queries and counts exact (C83_count_and_each_all), queries by source, target and either end exact except that they miss precisely the misfiled links (C83_by_source, C83_by_target, C83_either_end), searches (C83_search). Refuted: changing or deleting a misfiled link takes it out of a tree it is not in, which panics in every such store whose trees check (C83_stray); with trees that do not, the deleted link is visited afterwards with ends it never had (C83_refuted). Excluded: updates to a source without target (C26), reference counts by a source that is not a link (C27)."
  },
  {
   "property": "C84",
   "status": "partial",
   "theorems": [
    "C84_split_partial",
    "C84_unit_partial",
    "C84_nonvacuous",
    "C84_split_refuted",
    "C84_unit_refuted"
   ],
   "note": "The full statement is false of the code. Proved for two-memory stores used freely (C83), misfiled links included, when no value is 0 (C84_split_partial), and for one-memory stores in which no link has a source that is not a link, 0 or not (C84_unit_partial). Refuted: in a two-memory store a sequence with a 0 is written but reading it fails with NotExists, the effect of C26 (C84_split_refuted); in a one-memory store with a link 3 -> 3 written before index 3 was given out, reading the next sequence never ends (C84_unit_refuted)."
  },
  {
   "property": "C85",
   "status": "partial",
   "theorems": [
    "C85_delete_usages_partial",
    "C85_delete_query_partial",
    "C85_several_nonvacuous",
    "C85_delete_usages_refuted",
    "C85_rebase_partial",
    "C85_rebase_and_delete_partial",
    "C85_rebase_nonvacuous",
    "C85_rebase_refuted",
    "C85_create_link_partial",
    "C85_create_point",
    "C85_get_or_create",
    "C85_usages",
    "C85_usages_missing",
    "C85_nonvacuous",
    "C85_refuted",
    "C85_count_refuted"
   ],
   "note": "The full statement is false of the code. Proved: create_link unless only the target is null (C85_create_link_partial), create_point (C85_create_point), and exactly what the others do: get_or_create misses the misfiled links (C85_get_or_create), usages lists the links that are not misfiled, and the count is too small by one for each end at which a misfiled link refers to itself, or panics (C85_usages). Refuted: a pair given out twice and empty usages of a link in use (C85_refuted); a panic, and a count smaller than the list (C85_count_refuted). delete_usages, and delete_query by source, by target or of everything, delete exactly the links the store finds and tell the handler of each (C85_delete_usages_partial, C85_delete_query_partial, provided the links they delete are not misfiled); users that are misfiled stay although the call says Ok (C85_delete_usages_refuted). rebase and rebase_and_delete turn exactly the users the store finds, tell the handler of each once and change nothing else (C85_rebase_partial, C85_rebase_and_delete_partial, provided none of those is misfiled or has the link at both ends); misfiled users still refer to the link that was replaced and deleted (C85_rebase_refuted)."
  },
  {
   "property": "C86",
   "status": "partial",
   "theorems": [
    "C86_reads",
    "C86_lost",
    "C86_count_and_each_all",
    "C86_by_index",
    "C86_by_source",
    "C86_by_target",
    "C86_either_end",
    "C86_search",
    "C86_create",
    "C86_update_partial",
    "C86_delete_partial",
    "C86_missing",
    "C86_reopens",
    "C86_interrupted_update",
    "C86_interrupted_create",
    "C86_interrupted_delete",
    "C86_stray",
    "C86_uncovered",
    "C86_start",
    "C86_nonvacuous",
    "C86_outside_nonvacuous",
    "C86_refuted"
   ],
   "note": "The full statement is false of the code. Proved: exactly what can be read (C86_reads), that what cannot be read is lost for ever and blocks its index (C86_lost), what every query reports (C86_count_and_each_all, C86_by_index, C86_by_source, C86_by_target, C86_either_end, C86_search), creation in full (C86_create), updates and deletions of links that are in the trees in which the store looks (C86_update_partial, C86_delete_partial), what is left by interrupting each of the three at every point (C86_interrupted_update, C86_interrupted_create, C86_interrupted_delete), and that every store without interruptions is the start of such a life (C86_start). The conditions are needed: outside them the store detaches from a tree or list what it does not have (C86_stray, C86_uncovered). Refuted: a link that cannot be read is found by its source and counted, and a search for its pair is undefined behaviour (C86_refuted)."
  },
  {
   "property": "C87",
   "status": "partial",
   "theorems": [
    "C87_unit_create_link",
    "C87_unit_create_point",
    "C87_unit_get_or_create",
    "C87_unit_usages",
    "C87_unit_usages_missing",
    "C87_unit_delete_usages_partial",
    "C87_unit_delete_usages_lost",
    "C87_split_create_link",
    "C87_split_create_point",
    "C87_split_get_or_create",
    "C87_split_usages",
    "C87_split_usages_missing",
    "C87_split_delete_usages_partial",
    "C87_split_delete_usages_lost",
    "C87_unit_nonvacuous",
    "C87_unit_refuted",
    "C87_unit_panics",
    "C87_split_nonvacuous",
    "C87_split_refuted",
    "C87_split_delete_usages_nonvacuous"
   ],
   "note": "The full statement is false of the code. Proved: create_link and create_point in full for both stores (a link made with a source and no target in the two-memory store cannot be read afterwards, as in C52), get_or_create with exactly when it finds, makes, or is undefined behaviour, and exactly which links usages, count_usages and has_usages report and when they panic (C87_unit_usages, C87_split_usages). delete_usages of the single-memory store: what it deletes when the users may be deleted and none is lost (C87_unit_delete_usages_partial), and that it stops with an error at a lost user that the tree of targets still has (C87_unit_delete_usages_lost). delete_usages of the two-memory store, when no two stored links have the same pair: which links it deletes and where the others end up when those it finds can be read and are filed where they belong (C87_split_delete_usages_partial), and that it deletes those that have the link as target and then stops with an error when one it finds cannot be read (C87_split_delete_usages_lost). Refuted: usages names links that get does not show, and delete_usages, rebase and rebase_and_delete fail on them (C87_unit_refuted, C87_split_refuted); count_usages panics on a link that refers to itself and is missing from a tree (C87_unit_panics); get_or_create of a pair that was interrupted is undefined behaviour (C87_split_refuted)."
  },
  {
   "property": "C88",
   "status": "proved",
   "theorems": [
    "C88_unit",
    "C88_split",
    "C88_unit_returning",
    "C88_split_returning",
    "C88_unit_kept",
    "C88_split_kept",
    "C88_unit_plainly",
    "C88_split_plainly",
    "C88_unit_update",
    "C88_unit_delete",
    "C88_unit_create",
    "C88_unit_delete_usages",
    "C88_unit_delete_query",
    "C88_unit_create_link",
    "C88_split_delete_usages",
    "C88_split_create_link",
    "C88_nonvacuous",
    "C88_wrapped_nonvacuous",
    "C88_all_or_nothing_refuted"
   ],
   "note": "C88_unit and C88_split say for all states and decorator stacks that every modifying method goes in whole calls and stops where the handler panics; C88_unit_returning and C88_split_returning that with handlers that return these are the methods of the other claims; C88_unit_kept, C88_split_kept, C88_unit_plainly and C88_split_plainly draw the consequence for invariants and for stores used in this way any number of times; the others say what single calls, delete_usages_with, delete_query_with and create_link_with leave. That the methods are undone when the handler panics is false (C88_all_or_nothing_refuted). Panics that reach an extern \"C\" function are not modelled."
  },
  {
   "property": "C89",
   "status": "partial",
   "theorems": [
    "C89_bump",
    "C89_reads",
    "C89_no_version",
    "C89_bad_argument",
    "C89_touches",
    "C89_nonvacuous",
    "C89_other_line_refuted",
    "C89_workspace"
   ],
   "note": "C89_bump, C89_reads, C89_no_version, C89_bad_argument and C89_touches prove it for manifests whose first version is three numbers. If the first version is not of that form, as 0.1.0-pre+beta.15 of this project is not, the version of a later line is read and the first is replaced by its next one (C89_other_line_refuted). The manifest at the root of this repository has no version at all, so the script fails there (C89_workspace). Numbers from 2^53 on end in an explicit Inexact."
  },
  {
   "property": "C90",
   "status": "partial",
   "theorems": [
    "C90_highest",
    "C90_characters",
    "C90_no_directory",
    "C90_unreadable",
    "C90_order",
    "C90_default_patch",
    "C90_nonvacuous",
    "C90_default_refuted",
    "C90_spelling_refuted"
   ],
   "note": "C90_highest, C90_order, C90_no_directory, C90_unreadable and C90_default_patch prove it; C90_characters lists the characters the patterns take for white space, ends of lines and words. With a default other than patch a fragment that declares nothing does not count as the default once another declares something (C90_default_refuted), and some spellings that YAML would read are not understood: values in quotes, with a comment or with capitals, and front matter after an empty line (C90_spelling_refuted)."
  },
  {
   "property": "C91",
   "status": "partial",
   "theorems": [
    "C91_collect",
    "C91_order",
    "C91_refuses",
    "C91_no_directory",
    "C91_nonvacuous",
    "C91_dollar_refuted"
   ],
   "note": "C91_collect, C91_order, C91_refuses and C91_no_directory prove it if no dollar sign in the section stands before one of $ & ` '. Those pairs are taken as patterns by String.prototype.replace, and change the section where a mark is found (C91_dollar_refuted)."
  },
  {
   "property": "C92",
   "status": "partial",
   "theorems": [
    "C92_section",
    "C92_collected",
    "C92_none",
    "C92_nonvacuous",
    "C92_heading_refuted"
   ],
   "note": "C92_section, C92_collected and C92_none prove it for texts none of whose lines begins as the heading of a version. A line that does ends the notes early (C92_heading_refuted)."
  },
  {
   "property": "C93",
   "status": "partial",
   "theorems": [
    "C93_commands",
    "C93_release",
    "C93_unreadable",
    "C93_bad_argument",
    "C93_no_version",
    "C93_notes",
    "C93_nonvacuous",
    "C93_once_refuted",
    "C93_manual_refuted",
    "C93_failed_refuted",
    "C93_unreadable_nonvacuous",
    "C93_workspace"
   ],
   "note": "C93_commands and C93_release prove the first sentences, C93_bad_argument and C93_no_version what is refused, C93_unreadable what a fragment that cannot be read leaves behind (the new version in the manifest, not committed), C93_notes the notes. The last sentence is false: the fragments are never removed, so the next release collects them again (C93_once_refuted); a failed push leaves the changed files, and the next attempt skips a version (C93_failed_refuted); in the job manual-release the fragments are collected under the version before, and the new release has no notes (C93_manual_refuted). At the root of this repository no release is made (C93_workspace). git and the command library are an arbitrary oracle."
  },
  {
   "property": "C94",
   "status": "partial",
   "theorems": [
    "C94_sizes",
    "C94_ends",
    "C94_outside",
    "C94_nonvacuous",
    "C94_thousand_refuted",
    "C94_named_refuted"
   ],
   "note": "C94_sizes, C94_ends and C94_outside prove the first two sentences. The last is false: 1000 lines with the last one ended count as 1001 (C94_thousand_refuted), files with target in their names are left out, such as targets_recursionless_size_balanced_tree.rs of this project (C94_named_refuted), and in a working directory whose path contains one of the words nothing is checked (C94_outside)."
  },
  {
   "property": "C95",
   "status": "partial",
   "theorems": [
    "C95_release",
    "C95_quiet",
    "C95_commit",
    "C95_kept",
    "C95_one_tag",
    "C95_nonvacuous",
    "C95_quiet_nonvacuous",
    "C95_version_refuted"
   ],
   "note": "C95_release, C95_quiet, C95_commit and C95_kept prove all but the last sentence. That one is false: the scripts write the version of the manifest at the root, the release takes the version of doublets/Cargo.toml, which no step changes. So all releases of any number of runs have one and the same tag (C95_one_tag), and the versions that are tagged are never released (C95_version_refuted). git, the build and GitHub are arbitrary oracles."
  },
  {
   "property": "C96",
   "status": "partial",
   "theorems": [
    "C96_release",
    "C96_kept",
    "C96_no_fragments",
    "C96_versions",
    "C96_stuck",
    "C96_nonvacuous",
    "C96_versions_nonvacuous",
    "C96_notes_refuted",
    "C96_once_refuted",
    "C96_repository"
   ],
   "note": "C96_release, C96_no_fragments, C96_versions, C96_kept and C96_stuck prove all but the last sentence; C96_repository is the case of this repository. The last sentence is false: the fragments are collected under the version before, so the notes of the new one do not tell them (C96_notes_refuted), and only Cargo.toml and CHANGELOG.md are committed, so the fragments stay on the branch and are told again by each run (C96_once_refuted)."
  },
  {
   "property": "C97",
   "status": "partial",
   "theorems": [
    "C97_gate",
    "C97_runs",
    "C97_others",
    "C97_required",
    "C97_changelog",
    "C97_no_diff",
    "C97_shown",
    "C97_silent",
    "C97_nonvacuous",
    "C97_coverage_refuted",
    "C97_branch_refuted",
    "C97_warning_refuted"
   ],
   "note": "C97_gate, C97_runs, C97_shown, C97_others, C97_required, C97_changelog and C97_no_diff prove all but the last sentence. That one is false: the release jobs do not need the coverage, nor the job for all checks (C97_coverage_refuted); a dispatch releases from any branch (C97_branch_refuted); and a pull request is not warned if there is any fragment, or if the sources are of the crates with the macros (C97_warning_refuted). As the jobs never remove a fragment, there are no more warnings once there is one (C97_silent). cargo, the tests, git and the actions are oracles."
  },
  {
   "property": "C98",
   "status": "partial",
   "theorems": [
    "C98_unique_validator_partial",
    "C98_unique_resolver_partial",
    "C98_usages_validator_partial",
    "C98_non_null_deletion_partial",
    "C98_cascade_usages_partial",
    "C98_cascade_unique_partial",
    "C98_nonvacuous",
    "C98_refuted"
   ],
   "note": "The full statement is false of the code. Proved for every life of a two-memory store (C83), with the links that are misfiled followed: UniqueValidator refuses a pair only if a link has it and passes it on only if all links that have it are misfiled, for sources that are links (C98_unique_validator_partial; see C71 for the others); both resolvers in full if neither the link, nor its users, nor the link that has the pair are misfiled, with the ends, the misfiled links afterwards and the calls of the handler (C98_unique_resolver_partial, C98_cascade_unique_partial); UsagesValidator refuses exactly if the store finds users (C98_usages_validator_partial); deletion of links that are not misfiled (C98_non_null_deletion_partial, C98_cascade_usages_partial). Refuted: the pair of a misfiled link is given to another link by all three decorators for unique pairs, and a link with a misfiled user is deleted by both decorators that look at users (C98_refuted)."
  },
  {
   "property": "C99",
   "status": "partial",
   "theorems": [
    "C99_cut",
    "C99_versions",
    "C99_lost",
    "C99_failed",
    "C99_nonvacuous",
    "C99_refuted"
   ],
   "note": "C99_cut and C99_versions prove all but the last sentence. That one is false: a run cancelled between the push of the branch and the push of the tags leaves a version that no later run tags, and one cancelled before its release leaves a tag that no later run releases (C99_lost, C99_refuted), as the next run counts up from the version on the branch; the same holds after a failed build or a refused release (C99_failed). The one exception is a version that doublets/Cargo.toml gives."
  },
  {
   "property": "C100",
   "status": "proved",
   "theorems": [
    "C100_iter_unit",
    "C100_iter_split",
    "C100_create_unit",
    "C100_create_split",
    "C100_nonvacuous"
   ],
   "note": "An error given to unwrap is the returned error. The harness (criterion) and black_box are left out."
  },
  {
   "property": "C101",
   "status": "partial",
   "theorems": [
    "C101_calls",
    "C101_methods",
    "C101_histories_unit",
    "C101_histories_split",
    "C101_counts_unit",
    "C101_counts_split",
    "C101_distinct_unit_partial",
    "C101_distinct_split_partial",
    "C101_refuted",
    "C101_crashed_refuted",
    "C101_nonvacuous"
   ],
   "note": "The last sentence is refuted: with nine links 1 -> 1 and addresses up to 15, count_usages gives 0 and has_usages false, and after an interrupted update an unused link has the largest address as its number of usages. It holds while no two links have the same pair. Opening a store is the same in both builds, as it subtracts 1 from lengths that are at least 1."
  },
  {
   "property": "C102",
   "status": "proved",
   "theorems": [
    "C102_calls",
    "C102_ffi",
    "C102_usages_validator_unit",
    "C102_usages_validator_split",
    "C102_nonvacuous"
   ],
   "note": "UsagesValidator asks for the list of usages, not for has_usages, which is why it is not affected by C101."
  },
  {
   "property": "C103",
   "status": "proved",
   "theorems": [
    "C103_unit",
    "C103_reserved",
    "C103_free_use",
    "C103_interrupted",
    "C103_condition",
    "C103_nonvacuous"
   ],
   "note": "C103_condition shows that create needs the condition on the header: without it a release build hands out a link outside the memory. The trees and lists of the external crates are the same functions in both builds; their own arithmetic is outside."
  },
  {
   "property": "C104",
   "status": "proved",
   "theorems": [
    "C104_iter_unit",
    "C104_iter_split",
    "C104_create_unit",
    "C104_create_split",
    "C104_random_unit",
    "C104_random_split",
    "C104_nonvacuous"
   ],
   "note": ""
  }
 ]
}