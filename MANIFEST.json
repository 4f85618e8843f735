{
 "claims": [
  {
   "property": "C01",
   "status": "proved",
   "theorems": [
    "C01_handles_never_reissued",
    "C01_issued_complete"
   ],
   "note": "All debug-build histories."
  },
  {
   "property": "C02",
   "status": "proved",
   "theorems": [
    "C02_is_alive_exact",
    "C02_is_alive_beyond"
   ],
   "note": "All debug-build histories, ids below the capacity; larger ids panic."
  },
  {
   "property": "C03",
   "status": "proved",
   "theorems": [
    "C03_live_ids_distinct"
   ],
   "note": "All debug-build histories."
  },
  {
   "property": "C04",
   "status": "proved",
   "theorems": [
    "C04_capacity_grows_only",
    "C04_capacity_bounded",
    "C04_ids_reused_first"
   ],
   "note": "Bound for initial capacity below 2^32 and peak population below 2^31."
  },
  {
   "property": "C05",
   "status": "proved",
   "theorems": [
    "C05_destroy_dead_rejected"
   ],
   "note": "All debug-build histories."
  },
  {
   "property": "C06",
   "status": "partial",
   "theorems": [
    "C06_destroy_twice_refuted",
    "C06_second_destroy_revives",
    "C06_guarded_destroy_partial"
   ],
   "note": "False as stated: in a release build a second destroy_entity in a row revives the entity whenever it returns (C06_second_destroy_revives), and takes the row of another entity (example). C06_guarded_destroy_partial: is_alive is exact in both builds while only live handles are destroyed and fewer than 2^32-1 handles exist."
  },
  {
   "property": "C07",
   "status": "proved",
   "theorems": [
    "C07_values_persist",
    "C07_values_step",
    "C07_observation_unique"
   ],
   "note": "Page-healthy histories as stated (C14/C15 show what happens without); debug builds, release builds by C45."
  },
  {
   "property": "C08",
   "status": "proved",
   "theorems": [
    "C08_others_untouched"
   ],
   "note": "Write queries, which concern several entities, are in C07 and C40."
  },
  {
   "property": "C09",
   "status": "proved",
   "theorems": [
    "C09_add_union"
   ],
   "note": ""
  },
  {
   "property": "C10",
   "status": "proved",
   "theorems": [
    "C10_remove_diff"
   ],
   "note": ""
  },
  {
   "property": "C11",
   "status": "proved",
   "theorems": [
    "C11_access_exact"
   ],
   "note": "get_components_refs_mut is the same computation as get_components_refs."
  },
  {
   "property": "C12",
   "status": "proved",
   "theorems": [
    "C12_dead_handles_ignored",
    "C12_dead_is_not_alive"
   ],
   "note": "Any state and build mode in which is_alive answers false; in debug builds these are exactly the dead handles."
  },
  {
   "property": "C13",
   "status": "proved",
   "theorems": [
    "C13_remove_all_rejected"
   ],
   "note": ""
  },
  {
   "property": "C14",
   "status": "partial",
   "theorems": [
    "C14_archetype_slots_refuted",
    "C14_archetype_slots_partial"
   ],
   "note": "False as stated: abandoning two archetypes in decreasing order and using one again gives its slot to another archetype while entities are in it (C14_archetype_slots_refuted). C14_archetype_slots_partial: the claim under the page-healthiness assumption, which C16 derives from usage; it concerns only the archetype the call puts its entity in."
  },
  {
   "property": "C15",
   "status": "partial",
   "theorems": [
    "C15_page_overlap_refuted",
    "C15_page_overflow_refuted",
    "C15_page_overlap_partial",
    "C15_page_careful_partial"
   ],
   "note": "False as stated: pages accept more rows than their layout has room for, so components overlap or leave the page (two refutations). C15_page_overlap_partial, C15_page_careful_partial: the claim for histories that meet the usage conditions of C16."
  },
  {
   "property": "C16",
   "status": "proved",
   "theorems": [
    "C16_usage_healthy",
    "C16_careful_healthy",
    "C16_usage_careful",
    "C16_search_honest",
    "C16_vec_growth"
   ],
   "note": "C16_careful_healthy is the general condition, C16_usage_healthy the two simple ones. Both simple conditions are required together with \"at most one abandoned archetype at a time\". Capacity at least 4 enters as c_grow c 0 K = K; C16_vec_growth shows this is K >= 4 for the growth of Vec."
  },
  {
   "property": "C17",
   "status": "proved",
   "theorems": [
    "C17_layouts_sound"
   ],
   "note": "Release builds for up to 2340 components (the model does not wrap in the offset arithmetic)."
  },
  {
   "property": "C18",
   "status": "partial",
   "theorems": [
    "C18_fitting_accepted_refuted",
    "C18_zero_sized_accepted_refuted",
    "C18_uneven_created_refuted",
    "C18_fitting_accepted_partial",
    "C18_accepted_exact_partial",
    "C18_refused_exact_partial"
   ],
   "note": "Refuted in three ways; sufficient conditions proved, and exactly which archetypes are accepted and with how many rows: any number of types in debug builds, at most 2340 in release builds."
  },
  {
   "property": "C19",
   "status": "proved",
   "theorems": [
    "C19_builder_sets"
   ],
   "note": ""
  },
  {
   "property": "C20",
   "status": "proved",
   "theorems": [
    "C20_same_is_set_equality"
   ],
   "note": ""
  },
  {
   "property": "C21",
   "status": "proved",
   "theorems": [
    "C21_inclusion"
   ],
   "note": ""
  },
  {
   "property": "C22",
   "status": "proved",
   "theorems": [
    "C22_include_only"
   ],
   "note": ""
  },
  {
   "property": "C23",
   "status": "partial",
   "theorems": [
    "C23_exclude_refuted",
    "C23_exclude_partial"
   ],
   "note": "Refuted for unsorted id lists; proved for sorted ones and for is_exclude."
  },
  {
   "property": "C24",
   "status": "proved",
   "theorems": [
    "C24_common_types"
   ],
   "note": ""
  },
  {
   "property": "C25",
   "status": "proved",
   "theorems": [
    "C25_bitvec_is_bool_array"
   ],
   "note": ""
  },
  {
   "property": "C26",
   "status": "proved",
   "theorems": [
    "C26_tags_exact"
   ],
   "note": "Under the API discipline stated in the property (tag calls on live handles), debug builds; release builds by C45."
  },
  {
   "property": "C27",
   "status": "partial",
   "theorems": [
    "C27_no_tags_refuted",
    "C27_new_entity_no_tags_refuted",
    "C27_new_entity_no_tags_partial",
    "C27_dead_no_tags_partial",
    "C27_destroyed_no_tags"
   ],
   "note": "Refuted as stated (stale handles act on whatever entity now has the id). Proved under the discipline that tags are only put on live handles; right after destruction it holds unconditionally."
  },
  {
   "property": "C28",
   "status": "proved",
   "theorems": [
    "C28_orders_are_lists",
    "C28_proper_calls_succeed"
   ],
   "note": "Under proper use as stated in the property; debug builds, release builds by C45."
  },
  {
   "property": "C29",
   "status": "partial",
   "theorems": [
    "C29_readd_detected_refuted",
    "C29_readd_detected_partial",
    "C29_readd_exact_partial",
    "C29_only_member_partial"
   ],
   "note": "Refuted for groups with one member. Exactly: the call is rejected if and only if the group has another member (C29_readd_exact_partial); for an only member it links the entity to itself (C29_only_member_partial)."
  },
  {
   "property": "C30",
   "status": "partial",
   "theorems": [
    "C30_insert_by_non_member_refuted",
    "C30_insert_next_to_non_member_partial",
    "C30_insert_before_non_member_partial",
    "C30_shown_is_walked"
   ],
   "note": "Refuted: the entity becomes unreachable. What happens instead is proved: the call returns, every group shows the same members as before, and the two entities are linked to each other outside the group."
  },
  {
   "property": "C31",
   "status": "proved",
   "theorems": [
    "C31_destroyed_leave_groups",
    "C31_new_entity_in_no_group"
   ],
   "note": ""
  },
  {
   "property": "C32",
   "status": "proved",
   "theorems": [
    "C32_component_query_exact"
   ],
   "note": "Page-healthy histories of debug builds."
  },
  {
   "property": "C33",
   "status": "proved",
   "theorems": [
    "C33_component_len",
    "C33_ordered_len"
   ],
   "note": "Component queries in page-healthy states; ordered queries in every state (len() equals the number of items whenever iteration finishes)."
  },
  {
   "property": "C34",
   "status": "partial",
   "theorems": [
    "C34_len_stays_exact_refuted",
    "C34_len_after_next_partial",
    "C34_ordered_len_partial",
    "C34_page_len_partial"
   ],
   "note": "False as stated: len() does not decrease (C34_len_stays_exact_refuted). Proved: it exceeds the number of remaining items by the number of items already returned; also for the ordered and the page iterators."
  },
  {
   "property": "C35",
   "status": "partial",
   "theorems": [
    "C35_filter_tag_refuted",
    "C35_panics_iff_never_added",
    "C35_filter_tag_partial"
   ],
   "note": "False as stated: filter_tag panics for a tag type never added (C35_filter_tag_refuted). It panics exactly for these types (C35_panics_iff_never_added); for others it yields the tagged items if and only if the call stack is deeper than the longest run of untagged items."
  },
  {
   "property": "C36",
   "status": "partial",
   "theorems": [
    "C36_entity_query_refuted",
    "C36_entity_query_uninit_refuted",
    "C36_entity_query_partial"
   ],
   "note": "Refuted: a listed live entity without components may yield an item of a page it is not in (stale index), or uninitialised memory is read. Proved when no listed handle that never had components directly follows one that is found."
  },
  {
   "property": "C37",
   "status": "partial",
   "theorems": [
    "C37_ordered_query_refuted",
    "C37_ordered_query_uninit_refuted",
    "C37_ordered_query_partial"
   ],
   "note": "Refuted for members without components (same defect as C36). Proved under proper use of the groups when every member has had components."
  },
  {
   "property": "C38",
   "status": "partial",
   "theorems": [
    "C38_ordered_with_entities_refuted",
    "C38_ordered_with_entities_partial",
    "C38_with_entities_exact_partial"
   ],
   "note": "Refuted: with_entities reads the previous run's page for every item but the last of a run. Proved when all yielded components are in one page, and exactly: which entity each item is paired with, and that the pairs are right iff each run of several entities follows a run of the same page."
  },
  {
   "property": "C39",
   "status": "partial",
   "theorems": [
    "C39_ordered_query_terminates_refuted",
    "C39_ordered_query_terminates_partial"
   ],
   "note": "Refuted: re-adding the only member makes a cycle and the query never returns. Proved under proper use of the groups."
  },
  {
   "property": "C40",
   "status": "proved",
   "theorems": [
    "C40_write_query_exact"
   ],
   "note": "Page-healthy histories of debug builds."
  },
  {
   "property": "C41",
   "status": "proved",
   "theorems": [
    "C41_component_query_stays_finished",
    "C41_component_query_with_stays_finished",
    "C41_filter_stays_finished",
    "C41_entity_query_stays_finished",
    "C41_ordered_query_stays_finished"
   ],
   "note": ""
  },
  {
   "property": "C42",
   "status": "proved",
   "theorems": [
    "C42_resource_map",
    "C42_resource_release",
    "C42_resource_assign",
    "C42_resource_create"
   ],
   "note": "Debug builds. The block behind the null pointer of new() is an empty block; freeing it is a matter of C52."
  },
  {
   "property": "C43",
   "status": "proved",
   "theorems": [
    "C43_resource_returned_once"
   ],
   "note": "Debug builds. Values, not the memory block holding them, which is never freed (C52)."
  },
  {
   "property": "C44",
   "status": "proved",
   "theorems": [
    "C44_stale_resource_handle"
   ],
   "note": ""
  },
  {
   "property": "C45",
   "status": "proved",
   "theorems": [
    "C45_release_like_debug",
    "C45_call_like_debug",
    "C45_observers_like_debug",
    "C45_resources_like_debug"
   ],
   "note": "Every history executed by a debug build is executed by the release build with the same results and the same final store; also single calls from arbitrary states, all read-only calls, and the resource store."
  },
  {
   "property": "C46",
   "status": "proved",
   "theorems": [
    "C46_calls_defined",
    "C46_reads_return",
    "C46_queries_return",
    "C46_non_members_refuted"
   ],
   "note": "Debug builds, page-healthy states, disciplined order calls, queries on entities that have had components. The order discipline is needed: C46_non_members_refuted."
  },
  {
   "property": "C47",
   "status": "partial",
   "theorems": [
    "C47_null_is_alive_refuted",
    "C47_is_alive_out_of_bounds",
    "C47_null_destroy_refuted",
    "C47_destroy_out_of_bounds",
    "C47_null_tag_refuted",
    "C47_add_tag_out_of_bounds",
    "C47_beyond_detected_partial"
   ],
   "note": "False as stated: is_alive (release), destroy_entity and the tag operations (both builds) read out of bounds for every reachable store. C47_beyond_detected_partial: in debug builds is_alive and the component calls panic and change nothing."
  },
  {
   "property": "C48",
   "status": "partial",
   "theorems": [
    "C48_panic_changes_nothing_refuted",
    "C48_panicking_creation_refuted",
    "C48_component_calls_partial",
    "C48_order_calls_partial",
    "C48_tag_calls_partial",
    "C48_destroy_stale_partial",
    "C48_destroy_confined_partial"
   ],
   "note": "False as stated: destroying a dead handle and creating with an archetype too large for a page panic after changing the store. Proved for component calls, write queries, order calls, tag calls, and stale destructions that find no components. Any destruction of a dead handle leaves handles, tags and orders unchanged and damages the components of at most one entity (C48_destroy_confined_partial)."
  },
  {
   "property": "C49",
   "status": "proved",
   "theorems": [
    "C49_growth_invisible"
   ],
   "note": "Orders: after proper use of the groups (C28)."
  },
  {
   "property": "C50",
   "status": "partial",
   "theorems": [
    "C50_values_partial",
    "C50_initialised_refuted",
    "C50_stale_bytes_refuted",
    "C50_create_entity_partial",
    "C50_assigned_partial"
   ],
   "note": "False as stated (create_entity_with_archetype leaves uninitialised or stale bytes). Proved: a component reads as initialised unless it was given by create_entity_with_archetype and not assigned since (C50_values_partial); entities made by create_entity have only initialised components; assigning all components initialises them."
  },
  {
   "property": "C51",
   "status": "partial",
   "theorems": [
    "C51_reissue_refuted",
    "C51_no_reissue_partial"
   ],
   "note": "False as stated: for every release configuration a history of 2^32+1 create/destroy rounds reissues a handle. C51_no_reissue_partial: no handle is reissued in histories with fewer than 2^32-1 creations in which only live handles are destroyed."
  },
  {
   "property": "C52",
   "status": "partial",
   "theorems": [
    "C52_store_blocks_partial",
    "C52_resource_blocks_partial",
    "C52_resource_leak_refuted",
    "C52_resource_new_refuted",
    "C52_resource_zero_sized_refuted",
    "C52_empty_store_refuted"
   ],
   "note": "False as stated for ResourceStore, which never frees its block of elements and calls the allocator with size 0 in new() and for zero-sized types; and for a release-mode Store with capacity 0. Proved: a Store of capacity at least 1 makes only allowed calls and its drop frees every block once with its layout; a ResourceStore made by with_capacity leaks exactly the elements block. Histories in which calls panicked are the subject of C68; those that reached undefined behaviour are not covered."
  },
  {
   "property": "C53",
   "status": "proved",
   "theorems": [
    "C53_calls_return",
    "C53_frugal_calls_return",
    "C53_considerate_calls_return"
   ],
   "note": "Both builds. Page-healthy states, or any state reached by a history that meets the usage conditions of C16. The call must meet the listed preconditions."
  },
  {
   "property": "C54",
   "status": "proved",
   "theorems": [
    "C54_disciplined_like_debug",
    "C54_values_persist",
    "C54_frugal_healthy",
    "C54_considerate_healthy",
    "C54_frugal_considerate"
   ],
   "note": "Disciplined histories in page-healthy states, or that meet the usage conditions of C16."
  },
  {
   "property": "C55",
   "status": "partial",
   "theorems": [
    "C55_listed_twice_refuted",
    "C55_type_twice_refuted",
    "C55_read_and_write_refuted",
    "C55_two_writers_refuted",
    "C55_exclusive_partial",
    "C55_two_sources_partial"
   ],
   "note": "False as stated: an entity listed twice, a type named twice, a type read and written, two write queries at the same time (queries take &self). Proved for distinct types, entities listed once, and compatible accesses, in debug builds and page-healthy states."
  },
  {
   "property": "C56",
   "status": "partial",
   "theorems": [
    "C56_aligned_refuted",
    "C56_aligned_partial",
    "C56_in_bounds"
   ],
   "note": "Alignment is false: pages are allocated with alignment 1. Proved if page addresses are multiples of the alignments; sizes and bounds are proved without that. Debug builds, page-healthy states."
  },
  {
   "property": "C57",
   "status": "partial",
   "theorems": [
    "C57_initialised_refuted",
    "C57_assigned_partial",
    "C57_initialised_partial"
   ],
   "note": "False after create_entity_with_archetype, which leaves the components unwritten. Proved when every queried component of every live entity has been assigned since (C57_assigned_partial), in particular for histories without create_entity_with_archetype. Debug builds, page-healthy states."
  },
  {
   "property": "C58",
   "status": "proved",
   "theorems": [
    "C58_component_query_writes",
    "C58_entity_query_writes",
    "C58_ordered_query_writes"
   ],
   "note": "For page-healthy histories in debug builds and accesses without repeated types."
  },
  {
   "property": "C59",
   "status": "proved",
   "theorems": [
    "C59_component_query_reuse",
    "C59_entity_query_reuse",
    "C59_ordered_query_reuse"
   ],
   "note": "For the ordered query, whenever the iterator is produced (the list of the group ends)."
  },
  {
   "property": "C60",
   "status": "proved",
   "theorems": [
    "C60_component_query",
    "C60_filter_tag",
    "C60_entity_query",
    "C60_ordered_query"
   ],
   "note": "For disciplined page-healthy histories (frugal histories are such, C54), in both builds; entity lists and groups of entities that have had components."
  },
  {
   "property": "C61",
   "status": "proved",
   "theorems": [
    "C61_references",
    "C61_two_sources"
   ],
   "note": "For disciplined page-healthy histories, in both builds."
  },
  {
   "property": "C62",
   "status": "proved",
   "theorems": [
    "C62_component_query_writes",
    "C62_entity_query_writes",
    "C62_ordered_query_writes"
   ],
   "note": "For disciplined page-healthy histories, in both builds."
  },
  {
   "property": "C63",
   "status": "proved",
   "theorems": [
    "C63_page_total",
    "C63_accounted",
    "C63_indices_fit",
    "C63_peak_refuted"
   ],
   "note": "For disciplined page-healthy histories, in both builds. The bound max(5, p) is refuted (C63_peak_refuted); the proved bound is reached (C63_tight)."
  },
  {
   "property": "C64",
   "status": "proved",
   "theorems": [
    "C64_insertion_order"
   ],
   "note": "For disciplined page-healthy histories, in both builds; only while no entity with components is destroyed or changes its set of types (C64_example shows another order otherwise)."
  },
  {
   "property": "C65",
   "status": "proved",
   "theorems": [
    "C65_query_bench"
   ],
   "note": "For tuples of types whose pages get exactly as much room as their layout allows (the first reserve of an empty id list gives the capacity asked for: K >= 4 with the growth of the standard library); otherwise C15. What the loops compute from the components is not modelled."
  },
  {
   "property": "C66",
   "status": "proved",
   "theorems": [
    "C66_cache_test"
   ],
   "note": "Same conditions on the types as C65."
  },
  {
   "property": "C67",
   "status": "proved",
   "theorems": [
    "C67_same_results",
    "C67_same_results_both",
    "C67_frugal_any_library",
    "C67_considerate_any_library",
    "C67_search_matters_refuted",
    "C67_growth_matters_refuted"
   ],
   "note": "For page-healthy histories (C16 gives conditions on the history alone). Refuted without them: C67_search_matters_refuted (the binary searches of Rust 1.81 and 1.82 give different results) and C67_growth_matters_refuted."
  },
  {
   "property": "C68",
   "status": "partial",
   "theorems": [
    "C68_panics_lose_nothing_refuted",
    "C68_panics_partial",
    "C68_other_panics_partial",
    "C68_agreement"
   ],
   "note": "False as stated: an archetype whose offsets do not fit (assertion in calculate_offsets, archetype_layout.rs:77) loses its array of offsets. Proved: every call to the allocator is allowed, and at most one such array per panicking create_entity_with_archetype, add_components or remove_components is lost; everything else is freed once with its layout. Capacity below 2^32; panics raised by the allocator or by user code are not covered."
  },
  {
   "property": "C69",
   "status": "partial",
   "theorems": [
    "C69_handles_never_reissued",
    "C69_is_alive_exact_refuted",
    "C69_is_alive_partial",
    "C69_few_creations_partial"
   ],
   "note": "No handle is ever returned twice (always). is_alive is wrong when versions run out: the creation that panics with an overflow revives the destroyed handle of version 2^32 - 1 (refuted). Proved exact for all smaller versions, hence for histories with fewer than 2^32 - 1 creations. Debug builds."
  },
  {
   "property": "C70",
   "status": "proved",
   "theorems": [
    "C70_tags_exact",
    "C70_orders_are_lists",
    "C70_tags_both",
    "C70_orders_both"
   ],
   "note": "Capacity below 2^32, API use as in C26 and C28 (tags on live entities, order calls on members and non-members as documented), read off the calls that returned. C70_tags_exact and C70_orders_are_lists: debug builds, arbitrary panics. C70_tags_both and C70_orders_both: both builds, for the histories of C71."
  },
  {
   "property": "C71",
   "status": "proved",
   "theorems": [
    "C71_values_persist",
    "C71_component_query_exact",
    "C71_entity_query_exact",
    "C71_ordered_query_exact",
    "C71_references",
    "C71_two_sources",
    "C71_calls_return",
    "C71_calls_defined",
    "C71_as_without_panics",
    "C71_both_builds"
   ],
   "note": "Both builds, page-healthy histories as in C07 and C32; panics may come from refused archetypes, from removing all components, and, in debug builds, from improper order calls (release builds do not check these). Entity and ordered queries and references under the conditions of C36, C37 and C61. Handles that were never returned are excluded: such an entity may have the archetype bit of the previous entity with its id (C71_example)."
  },
  {
   "property": "C72",
   "status": "partial",
   "theorems": [
    "C72_component_accepted",
    "C72_tag_accepted",
    "C72_not_both",
    "C72_components_have_size_refuted",
    "C72_components_have_size_partial",
    "C72_implementation_refuted",
    "C72_component_implementation_partial",
    "C72_tag_implementation_partial"
   ],
   "note": "What the macros accept is exact. False as stated: a struct all of whose fields have size zero is accepted as a component and no archetype with it can be made (C72_components_have_size_refuted), and the text produced leaves out type parameters (C72_implementation_refuted). Proved for structs with a field of positive size, and for types without parameters. The parser of syn and the compiler are not modelled: the input is a parsed item, struct layouts are any that meet the Rust rules."
  },
  {
   "property": "C73",
   "status": "proved",
   "theorems": [
    "C73_doubling",
    "C73_amortised",
    "C73_amortised_both",
    "C73_only_creations",
    "C73_allocator_calls"
   ],
   "note": "Doubling: both builds, every history. The bound by the largest population: debug builds and disciplined histories of both builds, capacity below 2^32, fewer than 2^31 entities alive at a time. The calls to the allocator are counted for create_entity, at most two for each table (page blocks, which create_entity_with_archetype may need, are not tables)."
  },
  {
   "property": "C74",
   "status": "partial",
   "theorems": [
    "C74_caught_once_refuted",
    "C74_caught_stale_refuted",
    "C74_caught_partial",
    "C74_caught_map_partial"
   ],
   "note": "False as stated: the creation that finds the versions of an id used up panics after reviving the last handle of that id, whose value can be read and is dropped again. Proved with fewer than 2^32 - 1 attempted creations: calls that panic leave no trace, the store is the one made by the calls that returned."
  },
  {
   "property": "C75",
   "status": "partial",
   "theorems": [
    "C75_release_once_refuted",
    "C75_release_map_refuted",
    "C75_release_mode_partial",
    "C75_release_map_partial"
   ],
   "note": "False as stated: a second release gives the value out again, and assigning through a released handle changes the value of another. Proved for histories that release and assign only through handles holding a value, with fewer than 2^32 - 1 creations: they are histories of a debug build."
  },
  {
   "property": "C76",
   "status": "proved",
   "theorems": [
    "C76_predicted",
    "C76_same_handles",
    "C76_resources",
    "C76_caught"
   ],
   "note": "No conditions: both builds, every capacity and configuration, any use of handles. With caught panics (C76_caught): careful use as in C71; creations that panic take a handle."
  },
  {
   "property": "C77",
   "status": "proved",
   "theorems": [
    "C77_tags",
    "C77_orders",
    "C77_components",
    "C77_ordered_queries"
   ],
   "note": "Both builds, any use of handles; both histories start from the same capacity and all their calls return. Iterators start equal and read equal pages, so all they yield is equal."
  },
  {
   "property": "C78",
   "status": "proved",
   "theorems": [
    "C78_components",
    "C78_both_builds",
    "C78_caught",
    "C78_tags"
   ],
   "note": "Page-healthy debug histories (C78_components), disciplined histories of both builds (C78_both_builds), and careful histories with caught panics of both builds (C78_caught). Tags: debug builds, tags put on live entities only. Contents left open by create_entity_with_archetype may differ (C78_untold_example)."
  },
  {
   "property": "C79",
   "status": "proved",
   "theorems": [
    "C79_caught",
    "C79_swap",
    "C79_healthy"
   ],
   "note": "Both builds, disciplined histories that are frugal in both orders; healthy states; histories with caught panics. Not exchanged: a creation with a creation or destruction (its handle depends on them), two calls on the same group, a write query with another call on components. Tags: put on live entities only."
  },
  {
   "property": "C80",
   "status": "proved",
   "theorems": [
    "C80_caught",
    "C80_undo",
    "C80_healthy",
    "C80_can_undo"
   ],
   "note": "Both builds, disciplined frugal histories, healthy states, and histories with caught panics. The call that takes back returns, except the removal of all components of an entity (C13). Tags: put on live entities only."
  },
  {
   "property": "C81",
   "status": "proved",
   "theorems": [
    "C81_caught",
    "C81_superfluous",
    "C81_healthy"
   ],
   "note": "Both builds, disciplined histories that are frugal with and without the superfluous call; healthy states; histories with caught panics. Tags: put on live entities only."
  },
  {
   "property": "C82",
   "status": "proved",
   "theorems": [
    "C82_component_query",
    "C82_filter_tag",
    "C82_entity_query",
    "C82_ordered_query",
    "C82_caught_component_query",
    "C82_caught_entity_query",
    "C82_caught_ordered_query",
    "C82_swap",
    "C82_take_back",
    "C82_superfluous"
   ],
   "note": "Both builds, disciplined histories with healthy states and histories with caught panics. Entity and ordered queries under the conditions of C36 and C37; tag filters for tags that were put on some entity, with enough stack (C35)."
  },
  {
   "property": "C83",
   "status": "proved",
   "theorems": [
    "C83_later",
    "C83_earlier",
    "C83_again",
    "C83_healthy",
    "C83_again_healthy",
    "C83_caught",
    "C83_again_caught"
   ],
   "note": "Both builds, disciplined histories. That the other order returns too: frugal histories (Spec/Discipline.v); the answers: all healthy states, and histories with caught panics. That an earlier loop with the same query is superfluous: for loops that compute from what the query reads only."
  },
  {
   "property": "C84",
   "status": "proved",
   "theorems": [
    "C84_any_order",
    "C84_healthy",
    "C84_caught"
   ],
   "note": "Both builds, disciplined histories. That any order returns: frugal histories (Spec/Discipline.v); the answers: all healthy states, and histories with caught panics."
  },
  {
   "property": "C85",
   "status": "proved",
   "theorems": [
    "C85_healthy",
    "C85_caught",
    "C85_component_query",
    "C85_ordered_query",
    "C85_caught_component_query",
    "C85_apart_returns",
    "C85_loop_returns"
   ],
   "note": "Both builds, disciplined histories with healthy states, and histories with caught panics; two histories that both ran. That the calls return after one exchange: frugal histories, except for two destructions."
  },
  {
   "property": "C86",
   "status": "proved",
   "theorems": [
    "C86_healthy",
    "C86_caught",
    "C86_component_query",
    "C86_ordered_query",
    "C86_caught_component_query",
    "C86_undone_returns",
    "C86_overridden_returns"
   ],
   "note": "Both builds, disciplined histories with healthy states, and histories with caught panics; two histories that both ran. That the remaining calls return after one omission: frugal histories (Spec/Discipline.v). A creation with its destruction is not left out: later creations then give other handles (C86_creation_example)."
  },
  {
   "property": "C87",
   "status": "proved",
   "theorems": [
    "C87_healthy",
    "C87_caught",
    "C87_component_query",
    "C87_ordered_query",
    "C87_caught_component_query",
    "C87_returns"
   ],
   "note": "Both builds, disciplined histories with healthy states, and histories with caught panics; two histories that both ran. That the calls return after one merge: frugal histories (Spec/Discipline.v)."
  }
 ]
}