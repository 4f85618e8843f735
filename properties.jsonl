{"id": "C01", "title": "Handles are never reissued", "statement": "In a debug build, no two entity creations on one Store ever return the same handle (id, version), however ids are recycled; and the id returned is never Entity::NULL_ID.", "quantifier": "every initial capacity and every finite history of API calls (creations, destructions, component/tag/order operations) that does not panic", "why_tests_cant": "Id recycling goes through a free list, a high-water mark and per-id version counters whose interplay depends on the whole history.", "anchors": ["src/entities_container.rs: EntitiesContainer::create_entity, destroy_entity", "src/store.rs: Store::create_entity"]}
{"id": "C02", "title": "is_alive is exact", "statement": "is_alive(e) is true exactly when e was returned by a creation on this store and has not been destroyed since; stale handles whose id was recycled are not alive.", "quantifier": "every initial capacity and every finite history of API calls, and every handle whose id is below the capacity", "why_tests_cant": "Depends on versions, the liveness bit and recycling over unbounded histories and on capacity growth.", "anchors": ["src/entities_container.rs: is_alive, create_entity, destroy_entity, grow", "src/bitvec_utils.rs"]}
{"id": "C03", "title": "Live entities have distinct ids below the capacity", "statement": "Two different live handles never share an id, and every live id is below entities_capacity().", "quantifier": "every initial capacity and every finite history of API calls", "why_tests_cant": "Needs an invariant relating the free list, the high-water mark and the liveness bits in all reachable states.", "anchors": ["src/entities_container.rs: gap_ids, next_free_id"]}
{"id": "C04", "title": "Capacity only grows, and is bounded by the peak population", "statement": "entities_capacity() never decreases, and is at most the larger of the initial capacity and twice the largest number of simultaneously live entities (initial capacity >= 1); ids are always reused before new ones are taken.", "quantifier": "every initial capacity below 2^32 and every finite history of API calls with fewer than 2^31 simultaneously live entities", "why_tests_cant": "A bound against the historical peak is a statement about all histories.", "anchors": ["src/entities_container.rs: create_entity, grow, will_grow_with_id"]}
{"id": "C05", "title": "Destroying a dead handle is always rejected in debug builds", "statement": "In a debug build destroy_entity(e) on a handle that is not alive never returns normally.", "quantifier": "every initial capacity and every finite history of API calls, every handle", "why_tests_cant": "The handle may be stale in unboundedly many ways (id recycled any number of times, never created, foreign).", "anchors": ["src/store.rs: destroy_entity", "src/entities_container.rs: destroy_entity"]}
{"id": "C06", "title": "Destroying twice is harmless in release builds", "statement": "In a release build a second destroy_entity on the same handle does not bring a dead entity back to life nor disturb the other entities.", "quantifier": "every initial capacity and every finite history of API calls", "why_tests_cant": "Release builds have no debug assertions; the effect of a double destroy depends on the state left by the history.", "anchors": ["src/entities_container.rs: destroy_entity (toggle_bit under debug_assert only)"]}
{"id": "C07", "title": "Component values persist: the store is a map from entities to component values", "statement": "For every live entity, get_components_refs returns exactly the values last written (by add_components, get_components_refs_mut, or a write query), through any sequence of archetype moves, swap-removals, page reuse and capacity growth, as long as page bookkeeping is healthy (no page advertises more room than its layout has; the list of abandoned archetypes is in increasing order).", "quantifier": "every initial capacity and every finite history of API calls with distinct component types in each tuple, all page-healthy intermediate states, every entity and every tuple of types; every archetype used has a layout with at least one row per page", "why_tests_cant": "Values are moved between pages by byte copies whose addresses depend on the complete history of placements.", "anchors": ["src/store.rs: add_components, remove_components, get_components_refs, get_components_refs_mut, move_entity_to_other_archetype", "src/archetypes_container.rs", "src/archetype_data_page.rs"]}
{"id": "C08", "title": "Operations on one entity never touch another entity's components", "statement": "Creating, destroying, adding to, removing from or writing one entity leaves the components (types and values) of every other live entity unchanged.", "quantifier": "every page-healthy reachable state, every operation, every other live entity; every archetype used has a layout with at least one row per page", "why_tests_cant": "Swap-remove physically moves a different entity on every destruction or archetype move.", "anchors": ["src/archetype_data_page.rs: swap_remove_entity_at_index, move_component_data", "src/store.rs: swap_remove_internal"]}
{"id": "C09", "title": "add_components is a right-biased union", "statement": "After add_components(e, values) on a live e, e has exactly its previous component types plus the given ones, the given ones hold the given values and the others keep theirs.", "quantifier": "every page-healthy reachable state, every live entity (with or without components), every tuple of distinct types; every archetype used has a layout with at least one row per page", "why_tests_cant": "Covers every pair of source and target archetypes and every placement.", "anchors": ["src/store.rs: add_components", "src/archetype.rs: ArchetypesUnion::calculate", "src/archetype_data_page.rs: copy_component_data_to_page_with_new_archetype"]}
{"id": "C10", "title": "remove_components is set difference", "statement": "After remove_components::<T>(e) on a live e that keeps at least one component, e has exactly its previous types minus T, and the remaining values are unchanged - also when some or all types of T were absent.", "quantifier": "every page-healthy reachable state, every live entity, every tuple; every archetype used has a layout with at least one row per page", "why_tests_cant": "Covers the self-move case (removing absent types re-inserts the entity in its own archetype) in every placement.", "anchors": ["src/store.rs: remove_components, move_entity_to_other_archetype"]}
{"id": "C11", "title": "Component access succeeds exactly when the components are there", "statement": "get_components_refs::<T>(e) and get_components_refs_mut::<T>(e) return Some exactly when e is alive and has every type of T; get_entity_archetype(e) is the exact set of e's types, and None when e is dead or has no components.", "quantifier": "every state reached by a page-healthy history, every handle with id below the capacity, every tuple", "why_tests_cant": "Ranges over all histories and all archetypes.", "anchors": ["src/store.rs: get_components_refs, get_entity_archetype, is_valid_entity_with_archetype", "src/archetype_data_page_view.rs", "src/component_tuple.rs: get_offsets"]}
{"id": "C12", "title": "Component operations on dead handles do nothing", "statement": "add_components, remove_components, get_components_refs(_mut) and get_entity_archetype on a handle that is not alive (id below the capacity) change nothing and return nothing, in debug and release builds.", "quantifier": "every reachable state, every dead handle", "why_tests_cant": "All stale handles, after any number of recyclings.", "anchors": ["src/store.rs: add_components, remove_components"]}
{"id": "C13", "title": "Removing every component is rejected without damage", "statement": "remove_components::<T>(e) where T covers all of e's types panics and leaves the store exactly as it was.", "quantifier": "every state reached by a page-healthy history, every live entity with components", "why_tests_cant": "All archetypes and tuples.", "anchors": ["src/store.rs: remove_components", "src/archetype.rs: Archetype::new assert"]}
{"id": "C14", "title": "Component values persist unconditionally (archetype slots)", "statement": "The claim of C07 without the assumption on the list of abandoned archetypes: a live entity's component types and values never change because other archetypes become empty and are used again.", "quantifier": "every initial capacity and every finite history of API calls", "why_tests_cant": "The order in which archetypes become empty is a property of the history; a fixed test exercises one order.", "anchors": ["src/archetypes_container.rs: reserve_archetype (binary_search over free_archetypes, which free_page pushes unsorted)"]}
{"id": "C15", "title": "Component values persist unconditionally (page capacity)", "statement": "The claim of C07 without the assumption on page capacities: no number of entities in an archetype and no reuse of pages makes two components overlap or leave their page.", "quantifier": "every initial capacity and every finite history of API calls, all component sizes", "why_tests_cant": "Only particular component sizes and particular reuse orders expose it.", "anchors": ["src/archetype_data_page.rs: has_free_space, set_layout (Vec::capacity used as row capacity)"]}
{"id": "C16", "title": "Usage conditions that keep the store healthy", "statement": "Page bookkeeping stays healthy in every history in which all archetypes used have one common page capacity of at least 4 and at most one archetype other than the first is ever abandoned at a time; likewise if no archetype's population reaches its page capacity. More generally, it is healthy for every call if entities are put into an abandoned archetype only while no other is abandoned, and into an archetype with a full page only while every free page has exactly as much room as rows.", "quantifier": "every initial capacity and every finite history of API calls meeting the stated conditions", "why_tests_cant": "Quantifies over all histories within the usage discipline.", "anchors": ["src/archetypes_container.rs", "src/archetype_data_page.rs"]}
{"id": "C17", "title": "Accepted layouts keep components apart, in bounds and aligned", "statement": "Whenever a page layout is accepted for an archetype, for all rows below its capacity the byte ranges of all (row, component) pairs are pairwise disjoint, lie inside the page, and start at a multiple of the component's alignment from the page start.", "quantifier": "every list of component types with Rust-valid sizes and alignments, all pairs of rows and components", "why_tests_cant": "Infinitely many combinations of sizes and alignments.", "anchors": ["src/archetype_layout.rs: calculate_entities_capacity, calculate_offsets"]}
{"id": "C18", "title": "Every archetype that fits in a page is accepted", "statement": "If one row of components (with alignment padding) fits in the page size, creating an entity with that archetype does not panic.", "quantifier": "every list of component types", "why_tests_cant": "Depends on arithmetic of sizes, alignments and component count.", "anchors": ["src/archetype_layout.rs: calculate_offsets assert!(offset <= PAGE_SIZE_BYTES)"]}
{"id": "C19", "title": "ArchetypeBuilder has set semantics", "statement": "A built archetype contains exactly the included-and-not-later-excluded component types, each once, independent of the order and repetition of includes; building an empty set panics.", "quantifier": "every sequence of include/exclude/include_archetype calls", "why_tests_cant": "All call sequences.", "anchors": ["src/archetype_builder.rs"]}
{"id": "C20", "title": "is_same_as is set equality", "statement": "Two archetypes built by the builder or from tuples of distinct types are the same (is_same_as) exactly when they have the same set of component types, whatever the order they were listed in; they then also hash alike.", "quantifier": "all pairs of archetypes", "why_tests_cant": "All permutations of all type sets.", "anchors": ["src/archetype.rs: is_same_as, Hash", "src/component_tuple.rs: into_archetype"]}
{"id": "C21", "title": "has_component / is_include / is_include_ids decide inclusion", "statement": "has_component, find_component_index, is_include and is_include_ids answer membership/subset correctly for archetypes and id lists without repetitions.", "quantifier": "all archetypes, all repetition-free id lists", "why_tests_cant": "All sets.", "anchors": ["src/archetype.rs: find_component_index, is_include_ids"]}
{"id": "C22", "title": "is_include_only_ids decides set equality", "statement": "is_include_only_ids(ids) is true exactly when the archetype's set of types equals ids, for repetition-free ids.", "quantifier": "all archetypes, all repetition-free id lists", "why_tests_cant": "All sets.", "anchors": ["src/archetype.rs: is_include_only_ids"]}
{"id": "C23", "title": "is_exclude / is_exclude_ids decide disjointness", "statement": "is_exclude_ids(ids) is true exactly when the archetype has none of ids, for any id list in any order; is_exclude likewise for two archetypes.", "quantifier": "all archetypes, all id lists", "why_tests_cant": "Depends on the order of ids.", "anchors": ["src/archetype.rs: is_exclude_ids (left_idx)"]}
{"id": "C24", "title": "Archetype matching pairs up exactly the common types", "statement": "The index pairs computed for moving an entity between two archetypes are exactly the positions of their common types.", "quantifier": "all pairs of archetypes", "why_tests_cant": "All pairs of sets, both size orders.", "anchors": ["src/archetype.rs: ArchetypesUnion::calculate"]}
{"id": "C25", "title": "Packed bit vectors behave as arrays of booleans", "statement": "Setting, clearing, toggling and growing a bit vector changes exactly the addressed bit and nothing else, for all positions across word boundaries; reads return the last value.", "quantifier": "all lengths, all positions, all operation sequences", "why_tests_cant": "All positions and lengths.", "anchors": ["src/bitvec_utils.rs"]}
{"id": "C26", "title": "Tags are exact", "statement": "If tags are only added to and removed from live handles, has_tag::<T>(e) for a live e is true exactly when T was added to e and since then neither removed from e nor e destroyed; tags of different types and entities do not interfere; growth and destruction of others change nothing.", "quantifier": "every initial capacity and every finite history of API calls in which add_tag and remove_tag are called on live handles; every tag type, every live handle", "why_tests_cant": "All interleavings of tag types, entities, growth and destruction.", "anchors": ["src/tag_container.rs", "src/store.rs: destroy_entity"]}
{"id": "C27", "title": "A new entity starts without tags and a dead handle has none", "statement": "has_tag is false for every tag on a newly created entity and on every dead handle, whatever was called before.", "quantifier": "every initial capacity and every finite history of API calls", "why_tests_cant": "Needs the history of stale-handle use.", "anchors": ["src/tag_container.rs: add_tag, has_tag (no liveness check)"]}
{"id": "C28", "title": "Order groups are lists", "statement": "Starting from an empty group, add_entity_order_by appends, add_entity_next_to_order_by / add_entity_previous_to_order_by insert directly after / before a member, remove_entity_order_by and destroy_entity delete and keep the order of the rest; get_first/last/next/previous_entity_ordered_by report exactly this list, for each group independently and across capacity growth.", "quantifier": "every initial capacity and every finite history of API calls in which order calls are made on live handles, non-members are added and insertion targets are members; every group, every entity", "why_tests_cant": "Doubly linked list in raw arrays; correctness is an inductive invariant over all operation sequences.", "anchors": ["src/order_group_container.rs"]}
{"id": "C29", "title": "Adding a member again is detected in debug builds", "statement": "In a debug build adding an entity to a group it already belongs to panics.", "quantifier": "every reachable group state, every member", "why_tests_cant": "Depends on the position and the group size.", "anchors": ["src/order_group_container.rs: add_id_ordered_by, assert_entity_has_no_order"]}
{"id": "C30", "title": "Inserting next to a non-member is rejected or makes the entity a member", "statement": "add_entity_next_to_order_by / add_entity_previous_to_order_by with a target that is not in the group either panics or leaves the entity a member reachable from the first entity.", "quantifier": "every group state, every non-member target", "why_tests_cant": "All states.", "anchors": ["src/order_group_container.rs: add_id_next_to_ordered_by"]}
{"id": "C31", "title": "Destroyed entities leave all order groups", "statement": "After destroy_entity(e), e is in no group; every group keeps its other members in order; a later entity with the same id is in no group.", "quantifier": "every initial capacity and every finite history of API calls in which orders are only added on live handles", "why_tests_cant": "Any number of groups, any positions.", "anchors": ["src/store.rs: destroy_entity", "src/order_group_container.rs: remove_all_orders_for_id"]}
{"id": "C32", "title": "Component queries visit exactly the matching entities, once each", "statement": "component_query_iter yields, for exactly the live entities having all queried types, one item each with references to that entity's own components; with_entities pairs each item with its entity.", "quantifier": "every page-healthy reachable state, every read/write tuple pair", "why_tests_cant": "All populations and page placements.", "anchors": ["src/query/component.rs", "src/query/component_page_iter.rs", "src/query/access.rs"]}
{"id": "C33", "title": "Query length is exact", "statement": "len() of a fresh component query (and ordered query) iterator equals the number of items it will yield.", "quantifier": "every reachable state, every query", "why_tests_cant": "All populations.", "anchors": ["src/query/component.rs: ExactSizeIterator", "src/query/ordered_component.rs: ExactSizeIterator"]}
{"id": "C34", "title": "Query length stays exact during iteration", "statement": "After any number of next() calls, len() equals the number of items still to come (the contract of ExactSizeIterator).", "quantifier": "every iterator state", "why_tests_cant": "All iterator states.", "anchors": ["src/query/component.rs: ExactSizeIterator::len", "src/query/component_page_iter.rs: len"]}
{"id": "C35", "title": "filter_tag yields exactly the tagged matches", "statement": "with_entities().filter_tag::<T>() yields exactly those items whose entity has tag T, in query order, for every tag type - including a tag type no entity ever had (no items).", "quantifier": "every page-healthy reachable state, every query, every tag type", "why_tests_cant": "All subsets of tagged entities.", "anchors": ["src/query/component.rs: filter_tag, FilterTagIter", "src/tag_container.rs: has_tag_bitvec"]}
{"id": "C36", "title": "Entity queries follow the given list", "statement": "entity_component_query_iter(list) yields, in list order, the components of exactly those listed handles that are alive and have all queried types, paired with that handle.", "quantifier": "every page-healthy reachable state, every list of handles (dead, duplicate, mixed archetypes), every query", "why_tests_cant": "All lists and placements.", "anchors": ["src/query/entity_component.rs: entity_component_query_iter"]}
{"id": "C37", "title": "Ordered queries follow the order group", "statement": "ordered_query_iter yields, in group order, the components of exactly those members that have all queried types.", "quantifier": "every page-healthy reachable state, every group, every query", "why_tests_cant": "All group orders against all placements.", "anchors": ["src/query/ordered_component.rs: ordered_query_iter"]}
{"id": "C38", "title": "Ordered query with_entities pairs each item with its entity", "statement": "with_entities() on an ordered query pairs every item's components with the entity they belong to.", "quantifier": "every page-healthy reachable state, every group, every query", "why_tests_cant": "Wrong only when a later run of adjacent rows has length at least two.", "anchors": ["src/query/ordered_component.rs: WithEntitiesIter::next (next_range_index.saturating_sub(1))"]}
{"id": "C39", "title": "Ordered queries terminate", "statement": "ordered_query_iter returns for every group, in every reachable state.", "quantifier": "every reachable state, every group", "why_tests_cant": "Termination over all reachable linked structures.", "anchors": ["src/query/ordered_component.rs: ordered_query_iter"]}
{"id": "C40", "title": "Write queries update exactly the matching components", "statement": "Writing through every item of a write query sets exactly the written component types of exactly the matching entities and changes nothing else; the references of different items (and of different types) never overlap.", "quantifier": "every page-healthy reachable state, every query, every written value function", "why_tests_cant": "All placements.", "anchors": ["src/query/component.rs", "src/component_tuple.rs: get_ptrs_mut"]}
{"id": "C41", "title": "Iterators stay finished", "statement": "Once a component, entity or ordered query iterator returned None, every later next() returns None.", "quantifier": "every iterator, every number of further calls", "why_tests_cant": "Unbounded number of calls.", "anchors": ["src/query/*.rs: Iterator::next"]}
{"id": "C42", "title": "ResourceStore is a map", "statement": "store[e] returns the value given at creation or last assigned through index_mut, for every live handle, through growth, releases of others and id recycling.", "quantifier": "every history of create/release/index_mut on a ResourceStore in a debug build", "why_tests_cant": "All histories.", "anchors": ["src/resource_store.rs", "src/entities_container.rs"]}
{"id": "C43", "title": "Every resource is handed back exactly once", "statement": "Each value put in a ResourceStore is returned by release, replaced through index_mut, or dropped when the store is dropped: exactly once in total.", "quantifier": "every history followed by a drop", "why_tests_cant": "All histories.", "anchors": ["src/resource_store.rs: release, Drop"]}
{"id": "C44", "title": "Stale resource handles are rejected in debug builds", "statement": "release, index and index_mut with a dead handle panic in a debug build.", "quantifier": "every reachable state, every dead handle", "why_tests_cant": "All stale handles.", "anchors": ["src/resource_store.rs"]}
{"id": "C45", "title": "Debug and release builds agree", "statement": "Any history that a debug build executes without panicking has exactly the same results and final state in a release build.", "quantifier": "every history", "why_tests_cant": "All histories.", "anchors": ["all of src/ (debug_assert!, arithmetic overflow)"]}
{"id": "C46", "title": "No undefined behaviour with own handles", "statement": "In a debug build, while page bookkeeping is healthy, no sequence of calls with handles of this store (id below capacity), order insertions next to members only, and queries on entities that have components, performs an out-of-bounds, uninitialised-link or unchecked-unwrap access.", "quantifier": "every initial capacity and every finite history of API calls within the stated discipline", "why_tests_cant": "Memory safety over all histories.", "anchors": ["src/store.rs", "src/order_group_container.rs", "src/archetypes_container.rs"]}
{"id": "C47", "title": "The null handle can be tested", "statement": "is_alive(Entity::null()), destroy_entity(Entity::null()) and tag operations on it report the problem by returning false or panicking, without out-of-bounds accesses, in debug and release builds.", "quantifier": "every store", "why_tests_cant": "Depends on build mode and capacity.", "anchors": ["src/entity.rs: null", "src/entities_container.rs: is_alive", "src/store.rs: destroy_entity", "src/tag_container.rs"]}
{"id": "C48", "title": "A panicking call leaves the store unchanged", "statement": "If a call panics, the store is observably as before the call.", "quantifier": "every reachable state, every panicking call (debug build)", "why_tests_cant": "All states and calls.", "anchors": ["src/store.rs: destroy_entity (swap-remove before validation), create_entity_with_archetype"]}
{"id": "C49", "title": "Growing the store is invisible", "statement": "A creation that grows the capacity changes no observable of any existing entity: liveness, component types and values, tags, order groups.", "quantifier": "every page-healthy reachable state at capacity", "why_tests_cant": "All states.", "anchors": ["src/store.rs: grow_entities_internal", "src/tag_container.rs: grow", "src/order_group_container.rs: grow"]}
{"id": "C50", "title": "Components of a new entity are initialised", "statement": "The components of an entity made by create_entity_with_archetype have initialised contents that do not come from a destroyed entity.", "quantifier": "every initial capacity and every finite history of API calls", "why_tests_cant": "Depends on what the page held before.", "anchors": ["src/store.rs: create_entity_with_archetype", "src/archetype_data_page.rs: new"]}
{"id": "C51", "title": "Versions never repeat in release builds", "statement": "In a release build a handle is never reissued.", "quantifier": "every history, of any length", "why_tests_cant": "Needs 2^32 recyclings of one id.", "anchors": ["src/entities_container.rs: create_entity (version + 1)"]}
{"id": "C52", "title": "Memory blocks are freed once, with the size they were allocated with", "statement": "Every block allocated by the containers is freed exactly once with the same layout by the time the container is dropped, whatever the growth history.", "quantifier": "every history of growth followed by drop", "why_tests_cant": "All growth sequences.", "anchors": ["src/mem_utils.rs", "src/bitvec_utils.rs", "src/store.rs: Drop", "src/resource_store.rs: Drop"]}
{"id": "C53", "title": "Disciplined calls return", "statement": "If all calls meet the documented preconditions (handles of this store, only live entities destroyed, never all components removed, order insertions of live non-members next to members, distinct component types that fit into a page, fewer than 2^32 - 1 handles made), every call returns: no panic, no undefined behaviour, in debug and release builds.", "quantifier": "every history of disciplined calls and every disciplined next call", "why_tests_cant": "All interleavings of all calls of all subsystems; panics hidden in asserts, unwraps and slice indexing on rarely taken paths.", "anchors": ["src/store.rs", "src/entities_container.rs", "src/archetypes_container.rs", "src/archetype_data_page.rs", "src/order_group_container.rs", "src/tag_container.rs"]}
{"id": "C54", "title": "Disciplined release builds behave like debug builds", "statement": "A disciplined history of a release build is a history of a debug build with the same results and states, so that values persist, handles are exact and pages stay healthy in release builds too.", "quantifier": "every history of disciplined calls in a release build", "why_tests_cant": "Debug assertions and overflow checks vanish in release builds; equality is needed for all histories.", "anchors": ["src/store.rs: debug_assert!", "src/entities_container.rs: debug_assert!, arithmetic", "src/archetype_data_page.rs: debug_assert!"]}
{"id": "C55", "title": "Mutable references handed out at the same time never overlap", "statement": "No byte of a mutable reference returned by get_components_refs_mut or yielded by a query belongs to another reference that can be alive at the same time: of the same call or iterator, or of another query on the same store.", "quantifier": "every reachable state, every access and every pair of accesses", "why_tests_cant": "Aliasing is silent: values are right until the optimiser uses exclusivity; all pairs of rows, types and sources matter.", "anchors": ["src/query/component.rs: component_query_iter(&self)", "src/query/entity_component.rs: next", "src/component_tuple.rs: get_refs_mut", "src/store.rs: get_components_refs_mut"]}
{"id": "C56", "title": "References are aligned and in bounds", "statement": "Every reference returned has an address that is a multiple of the alignment of its type, has the size of its type and lies inside one allocated page.", "quantifier": "every reachable state, every access, every address the allocator may choose", "why_tests_cant": "Common allocators return 16-byte aligned blocks, hiding that only alignment 1 was asked for.", "anchors": ["src/archetype_data_page.rs: new (mem_utils::alloc::<u8>)", "src/archetype_layout.rs", "src/component_tuple.rs: get_ptrs"]}
{"id": "C57", "title": "References point to initialised values", "statement": "Every reference returned points to bytes that have been written.", "quantifier": "every reachable state and access", "why_tests_cant": "Uninitialised memory often holds zeros or plausible old values.", "anchors": ["src/store.rs: create_entity_with_archetype", "src/archetype_data_page.rs: push"]}
{"id": "C58", "title": "Writing through queries is setting components", "statement": "A loop that assigns to the write references of a component query, an entity query or an ordered query changes exactly the written components of the matching entities, computed from what the read references showed, leaves every other component and entity alone, and leaves the same store as setting the components of these entities one after the other with get_components_refs_mut.", "quantifier": "every reachable page-healthy state, every access, every list of entities or order group, every function computing the new values", "why_tests_cant": "Tests write a few values into a few archetypes; that no other row or column is ever touched, for any mix of archetypes and duplicates, is about all states.", "anchors": ["src/query/component.rs: ComponentsQueryIter::next", "src/query/entity_component.rs: EntityComponentQueryIter::next", "src/query/ordered_component.rs: OrderedComponentQueryIter::next", "src/query/access.rs: ptrs_to_refs", "src/component_tuple.rs: assign_to_refs"]}
{"id": "C59", "title": "Query objects can be used again", "statement": "What a query object was used for before, on this or another store, has no influence on what the next iterator made with it yields.", "quantifier": "every store, every content of the object's vectors", "why_tests_cant": "Left-over ranges or views show only for particular pairs of queries.", "anchors": ["src/query/component.rs: component_query_iter", "src/query/entity_component.rs: entity_component_query_iter", "src/query/ordered_component.rs: ordered_query_iter"]}
{"id": "C60", "title": "Queries in both builds", "statement": "In debug and in release builds, after every disciplined history, component queries visit exactly the entities having the queried types once each, tag filters those of them that are tagged, entity queries the matching entities of the list in its order, and ordered queries the matching members in the order of the group; each item is what get_components_refs returns for its entity.", "quantifier": "every build mode, every disciplined page-healthy (or frugal) history, every access with distinct types, lists and groups of entities that have had components", "why_tests_cant": "Tests run in debug builds, whose assertions hide what release builds do.", "anchors": ["src/query/component.rs", "src/query/entity_component.rs", "src/query/ordered_component.rs", "src/entities_container.rs: is_alive"]}
{"id": "C61", "title": "References in both builds", "statement": "In debug and in release builds, after every disciplined history, references handed out by get_components_refs or a query whose types are distinct and whose entities are listed once do not overlap, lie in bounds, point to initialised values if create_entity_with_archetype was not used, and are aligned if the pages are; references of two such sources overlap only where both only read.", "quantifier": "every build mode, every disciplined page-healthy (or frugal) history, every source and access as described", "why_tests_cant": "Overlap, misalignment and uninitialised reads are undefined behaviour that need not show in tests.", "anchors": ["src/store.rs: get_components_refs", "src/query/access.rs", "src/component_tuple.rs: get_ptrs"]}
{"id": "C62", "title": "Writing through queries in both builds", "statement": "In debug and in release builds, after every disciplined history, writing through the references of a query is the same as setting the components of the matching entities one after the other, and the result is again the state of a disciplined history.", "quantifier": "every build mode, every disciplined page-healthy (or frugal) history, every access with distinct types, every function computing the new values", "why_tests_cant": "It is about all stores and all values; tests run in debug builds.", "anchors": ["src/query/component.rs: ComponentsQueryIter::next", "src/query/entity_component.rs: EntityComponentQueryIter::next", "src/query/ordered_component.rs: OrderedComponentQueryIter::next"]}
{"id": "C63", "title": "Page memory is bounded by the peak population", "statement": "After every disciplined history, in both builds, the store holds at most max(5, 2p+2) pages, p being the largest number of entities that were alive at the same time; every page is on the free list or in the list of exactly one archetype, once, and pages without entities are on the free list unless they belong to the first archetype. (The bound p instead of 2p+2 is refuted: empty pages of the first archetype are not reused by others.)", "quantifier": "every build mode, every disciplined page-healthy (or frugal) history of any length, through any number of archetypes", "why_tests_cant": "A leak of pages shows only over long histories; the bound is about all of them.", "anchors": ["src/archetypes_container.rs: reserve_page, free_page, swap_remove_entity, move_entity_to_other_archetype"]}
{"id": "C64", "title": "Component queries visit entities in insertion order", "statement": "In debug and in release builds, while no entity that has components is destroyed, loses components or is given further types, a component query visits the sets of types in the order of their first use and the entities of one set in the order in which they got their components, across any number of pages; the values read are the current ones.", "quantifier": "every build mode, every disciplined page-healthy history in which entities stay in the archetype of their first components, every access with distinct types", "why_tests_cant": "The order depends on the search for a page with room and on the archetype list; tests look at a few entities on one page.", "anchors": ["src/archetypes_container.rs: reserve_page, reserve_archetype", "src/query/component.rs: ComponentQuery, ComponentsQueryIter::next, page iteration"]}
{"id": "C65", "title": "examples/query_bench.rs sees what it stored", "statement": "For any component types of which a page holds at least one row and gets room for as many rows as its layout allows, any values and any selection of entities, the program fills the store without panic; the loop over the component query with the tag filter and the loop over the ordered query with entities both see the component values of exactly the selected entities, in the order of their creation.", "quantifier": "every build mode, every tuple of component types that fits a page, every number of entities below 2^32, all values, every selection without unselected stretches longer than the call stack allows", "why_tests_cant": "The program runs once with one size and random values and prints a sum; pages, runs and tag words depend on the number and size of entities.", "anchors": ["examples/query_bench.rs: main", "src/store.rs: add_components", "src/query/component.rs: component_query_iter, filter_tag", "src/query/ordered_component.rs: ordered_query_iter, with_entities"]}
{"id": "C66", "title": "examples/cache_test.rs sees its data in order", "statement": "For any component types as in C65 and any data, populate_ecs (building the archetype, creating entities with it and writing through get_components_refs_mut) returns without panic, and the component query with and without entities sees exactly the data, in order, with distinct entities.", "quantifier": "every build mode, every tuple of component types that fits a page, every number of entities below 2^32, all values", "why_tests_cant": "The program compares timings of one size; the claim is about all sizes and values.", "anchors": ["examples/cache_test.rs: populate_ecs, warmup_ecs, iterate_ecs", "src/store.rs: create_entity_with_archetype, get_components_refs_mut", "src/archetype_builder.rs: include_components, build"]}
{"id": "C67", "title": "Results do not depend on the standard library", "statement": "Two builds of one program with standard libraries that differ in what binary_search does with unsorted slices and in how much room a growing Vec makes hand out the same handles, keep the same rows in the same places and report the same of entities, components, tags, orders and queries, as long as the bookkeeping of pages stays healthy; frugal histories of one library are histories of the other. Without health the results depend on both.", "quantifier": "every pair of libraries that meet their documentation, every page-healthy history (in release builds: of disciplined calls), every observation", "why_tests_cant": "Tests run with one toolchain.", "anchors": ["src/archetypes_container.rs: reserve_archetype, reserve_page, free_page", "src/archetype_data_page.rs: reserve, has_free_space", "src/store.rs: get_components_refs", "src/tag_container.rs: add_tag, has_tag", "src/order_group_container.rs: reserve_group, get_link", "src/query/component.rs", "src/query/entity_component.rs", "src/query/ordered_component.rs"]}
{"id": "C68", "title": "Caught panics do not leak or double-free memory", "statement": "In a history in which some calls on a Store panic and the client catches the panics, every call to the allocator is allowed, and dropping the store afterwards frees every block once with the layout it was allocated with.", "quantifier": "every build mode, every capacity from 1, every history of Store calls in which any number of calls panic", "why_tests_cant": "Tests end at the first panic, and leaks and wrong deallocation layouts are not observed by assertions.", "anchors": ["src/archetype_layout.rs: calculate_offsets", "src/archetypes_container.rs: reserve_archetype, reserve_page", "src/store.rs: create_entity_with_archetype, add_components, remove_components", "src/mem_utils.rs: alloc, realloc, dealloc"]}
{"id": "C69", "title": "Handles stay sound after caught panics", "statement": "In a debug-build history in which some calls panic and the panics are caught, no handle is ever returned twice and is_alive is true of a returned handle exactly when the calls that returned have not destroyed it.", "quantifier": "every history of Store calls in which any number of calls panic at any point, every returned handle", "why_tests_cant": "It is about states left behind by calls that stopped half-way, for all such calls, and needs 2^32 versions to fail.", "anchors": ["src/entities_container.rs: create_entity, destroy_entity, is_alive", "src/store.rs: create_entity, create_entity_with_archetype, destroy_entity"]}
{"id": "C70", "title": "Tags and order groups survive caught panics", "statement": "In a debug-build history in which some calls panic and the panics are caught, has_tag of a live handle and the contents and links of every order group are exactly what the calls that returned make them.", "quantifier": "every history with capacity below 2^32 in which any number of calls panic, every tag, every group, every live handle", "why_tests_cant": "Calls that panic half-way are not tested at all; the claim is about all of them in all states.", "anchors": ["src/tag_container.rs: add_tag, remove_tag, has_tag", "src/order_group_container.rs: add_id_ordered_by, add_id_next_to_ordered_by, add_id_previous_to_ordered_by, remove_id_ordered_by", "src/store.rs: create_entity, create_entity_with_archetype"]}
{"id": "C71", "title": "Component values, queries and references survive caught panics", "statement": "In a history of either build in which calls panic because an archetype is refused, because all components of an entity would be removed, or, in debug builds, because an order call is improper, and the panics are caught, the component values of every returned handle, the results of component, entity and ordered queries and the exclusiveness of the references handed out are exactly what the calls that returned make them, later disciplined calls return, and none performs an undefined operation.", "quantifier": "every page-healthy history with any number of such panics, every returned handle, every query, every next call", "why_tests_cant": "No test continues after a panic; the claim needs every interleaving of half-finished creations with later moves, swap-removals and id reuse.", "anchors": ["src/store.rs: create_entity_with_archetype, add_components, remove_components, get_components_refs", "src/archetypes_container.rs: reserve_archetype, add_entity, move_entity", "src/archetype_layout.rs: new, calculate_offsets", "src/query/component.rs: component_query_iter", "src/query/entity_component.rs: entity_component_query_iter", "src/query/ordered_component.rs: ordered_query_iter"]}
{"id": "C72", "title": "What the derive macros accept and produce", "statement": "derive(Component) accepts exactly the structs with at least one field, derive(Tag) exactly the structs without fields; an accepted component has a positive size, so that it can be stored; and the text produced implements the trait for the type.", "quantifier": "every struct, enum or union the macros are applied to, with any fields and type parameters; every layout of structs the Rust rules allow", "why_tests_cant": "The input of the macros is arbitrary program text; a test derives for a handful of types, and a size of zero or a type parameter does not occur among them.", "anchors": ["division_ecs_attributes/src/lib.rs: derive_component, derive_tag", "src/archetype_layout.rs: new, calculate_entities_capacity"]}
{"id": "C73", "title": "Growth is amortised", "statement": "Each growth doubles the capacity, so all growths of a store together copy fewer entries than twice the largest number of entities alive at the same time, and there are at most 1 + log2(peak / initial capacity) of them; only creations grow, and a creation that does not grow makes no call to the allocator.", "quantifier": "every history of calls, every initial capacity below 2^32, both builds", "why_tests_cant": "A bound on the total work of all histories; tests time a few of them.", "anchors": ["src/entities_container.rs: grow, create_entity", "src/store.rs: create_entity, grow_entities_internal", "src/tag_container.rs: grow", "src/order_group_container.rs: grow", "src/mem_utils.rs: realloc"]}
{"id": "C74", "title": "Resources after caught panics", "statement": "When calls on a ResourceStore panic and the panics are caught, each handle still holds the value it was created with or last assigned, released handles are refused, and every value comes out exactly once.", "quantifier": "every history of calls in a debug build, with any number of calls that panicked, for values of every type", "why_tests_cant": "Histories are unbounded, and the state a panic leaves behind is not looked at by tests; the exhausted versions that break it need 2^32 creations.", "anchors": ["src/resource_store.rs: create, release, index, index_mut, drop", "src/entities_container.rs: create_entity"]}
{"id": "C75", "title": "Resources in release builds", "statement": "Without debug assertions a ResourceStore still gives each value out exactly once, and a handle that holds a value reads as that value.", "quantifier": "every history of calls in a release build, for values of every type", "why_tests_cant": "Tests run in debug builds, where the assertions stop the calls that matter here.", "anchors": ["src/resource_store.rs: create, release, index, index_mut, drop", "src/entities_container.rs: destroy_entity"]}
{"id": "C76", "title": "Handles are told from creations and destructions", "statement": "The handles a Store or a ResourceStore returns are determined by the order of creations and of the ids destroyed: the id given back last is used first, the last fresh id given back becomes fresh again, and the version counts the uses of the id; archetypes, components, tags, orders, the initial capacity and the build make no difference.", "quantifier": "every history of calls, both builds, every initial capacity and configuration, any use of handles", "why_tests_cant": "An equation between the results of all histories and a separate allocator, including misuse in release builds and wrapped numbers.", "anchors": ["src/entities_container.rs: create_entity, destroy_entity, grow", "src/store.rs: create_entity, create_entity_with_archetype, destroy_entity", "src/resource_store.rs: create, release"]}
{"id": "C77", "title": "Tags, order groups and components are independent", "statement": "What a store answers about a tag type, an order group or the components depends only on creations, destructions and the calls that concern it; calls about other tag types, other groups or other parts make no difference.", "quantifier": "every two histories of calls from the same capacity that return and say the same about the subject, both builds, any use of handles", "why_tests_cant": "A statement about pairs of histories, with any number of unrelated calls between the related ones and misuse of handles.", "anchors": ["src/tag_container.rs", "src/order_group_container.rs", "src/store.rs", "src/query/component.rs", "src/query/entity_component.rs", "src/query/ordered_component.rs"]}
{"id": "C78", "title": "Each entity is told from the calls made on it", "statement": "Two stores in which the same calls were made on an entity, in the same order, answer alike about it: whether it is alive, which component types it has, the values of its components (except contents that create_entity_with_archetype left unwritten) and its tags. What was done with other entities, in which order, where rows were moved to, the capacity and the build make no difference.", "quantifier": "every two page-healthy debug histories, or disciplined histories of either build, also with caught panics, of any capacities and configurations; every returned handle", "why_tests_cant": "A statement about pairs of histories that share only the calls on one entity; rows of other entities may be added, moved and removed around it in every way.", "anchors": ["src/store.rs: create_entity, create_entity_with_archetype, destroy_entity, add_components, remove_components, get_components_refs", "src/archetypes_container.rs: move_entity_to_other_archetype, swap_remove_entity", "src/tag_container.rs"]}
{"id": "C79", "title": "Calls that have nothing to do with each other can change places", "statement": "Of two consecutive calls that change different parts of the store (the components of an entity, whether an entity has a tag, an order group) the second can be made first, unless one creates or destroys an entity that the other names, or one is a creation and the other a creation or a destruction: both return then too, and afterwards the store answers alike about every entity (liveness, component types, values except those create_entity_with_archetype left unwritten, tags) and every order group.", "quantifier": "every disciplined history of either build that is frugal (C16) in both orders, every capacity, every pair of such calls", "why_tests_cant": "Every pair of calls after every history: the two orders place rows differently, abandon archetypes or not, and free and reuse pages differently.", "anchors": ["src/store.rs: create_entity, destroy_entity, add_components, remove_components, get_components_refs_mut", "src/archetypes_container.rs: move_entity_to_other_archetype, swap_remove_entity", "src/tag_container.rs: add_tag, remove_tag", "src/order_group_container.rs: add_entity_order_by, remove_entity_order_by"]}
{"id": "C80", "title": "What is taken back leaves nothing", "statement": "After a call and one that takes it back (create and destroy; add components the entity did not have and remove them; set values and set them back; give and take a tag, or take and give it; enter a group and leave it) the store answers about every entity issued before (liveness, component types, values except those create_entity_with_archetype left unwritten, tags) and every order group as before the two calls. Such a call can be taken back, except the first components of an entity (C13).", "quantifier": "every disciplined frugal (C16) history of either build, every capacity, every such pair of calls", "why_tests_cant": "Every pair of calls after every history: the entity comes back to another row or page, archetypes are abandoned and used again, handles are reused.", "anchors": ["src/store.rs: create_entity, destroy_entity, add_components, remove_components, get_components_refs_mut", "src/order_group_container.rs: add_entity_order_by, remove_entity_order_by", "src/archetypes_container.rs: move_entity_to_other_archetype, free_page", "src/tag_container.rs: add_tag, remove_tag"]}
{"id": "C81", "title": "Superfluous calls can be left out", "statement": "Of two consecutive calls of which the second makes the first superfluous (it gives or takes the components the first gave or took, sets the same components again, gives or takes the same tag, removes the same member from the same group, or destroys the entity) the first can be left out: the second returns then too, and afterwards the store answers alike about every entity (liveness, component types, values except those create_entity_with_archetype left unwritten, tags) and every order group.", "quantifier": "every disciplined history of either build that is frugal (C16) with and without the first call, every capacity, every such pair of calls", "why_tests_cant": "Every pair of calls after every history: with and without the first call rows, pages and archetypes are used differently.", "anchors": ["src/store.rs: destroy_entity, add_components, remove_components, get_components_refs_mut", "src/order_group_container.rs: remove_entity_order_by", "src/archetypes_container.rs: move_entity_to_other_archetype, swap_remove_entity", "src/tag_container.rs: add_tag, remove_tag"]}
{"id": "C82", "title": "Queries see no more than reading components tells", "statement": "If two stores have the same live entities and get_components_refs with the queried types gives the same values for each of them, component queries on the two visit the same entities with the same values (in some order) and have the same length, entity queries yield the same sequence, so do tag filters if has_tag tells the same, and ordered queries if the group has the same members in the same order. So component queries show neither the order of calls that are apart (C79) nor calls taken back (C80) nor superfluous calls (C81).", "quantifier": "every two disciplined histories (also with caught panics) of any two builds (debug or release, any std library) and capacities with healthy states, every query", "why_tests_cant": "All pairs of histories that lead to the same contents in different rows, pages and archetypes.", "anchors": ["src/query/component.rs", "src/query/entity_component.rs", "src/query/ordered_component.rs", "src/store.rs: get_components_refs, has_tag"]}
{"id": "C83", "title": "Loops over write queries commute with all that does not concern their components", "statement": "A loop over a write query and a call next to it that does not concern the components of the query (it gives, takes or sets other types, creates an entity that does not match, destroys an entity, is about tags or groups, or is another loop such that neither writes what the other accesses) can change places: the calls return in the other order too, with the same results, and the store then answers alike about liveness, components, values, orders and tags. Of two consecutive loops with the same query, the second of which computes from what the query reads only, the first can be left out.", "quantifier": "every disciplined history (also with caught panics), every query, every function from the entity and the values read to the values written, every such call, debug and release build", "why_tests_cant": "All queries, loop bodies and calls after all histories; the call may move entities between rows, pages and archetypes between the two orders.", "anchors": ["src/query/component.rs: component_query_iter", "src/query/access.rs", "src/store.rs: create_entity_with_archetype, destroy_entity, add_components, remove_components, get_components_refs_mut"]}
{"id": "C84", "title": "Independent loops over write queries can run in any order", "statement": "Consecutive loops over write queries none of which writes what another one reads or writes return in any order if they do in one, and afterwards the store answers alike about liveness, components, values, orders and tags.", "quantifier": "every disciplined history (also with caught panics), every list of such loops and every permutation of it, every functions from the entity and the values read to the values written, debug and release build", "why_tests_cant": "All schedules of all numbers of systems, after all histories.", "anchors": ["src/query/component.rs: component_query_iter", "src/query/access.rs"]}
{"id": "C85", "title": "Rearranged histories cannot be told apart", "statement": "Two histories that differ in the order of neighbouring calls that have nothing to do with each other, exchanged any number of times and anywhere in the history (calls that are apart, C79, and loops over write queries with calls that do not concern their components, C83), lead to stores that answer alike about liveness, components, values, orders and tags. After one exchange the calls return too, with the same results, except for the handles that creations after two exchanged destructions give.", "quantifier": "every two disciplined histories with healthy states (also with caught panics) of which one is a rearrangement of the other, any capacities, debug and release build", "why_tests_cant": "All pairs of histories with the same partial order of calls; their number is exponential in the length.", "anchors": ["src/store.rs: create_entity, create_entity_with_archetype, destroy_entity, add_components, remove_components, get_components_refs_mut", "src/tag_container.rs: add_tag, remove_tag", "src/order_group_container.rs: add_entity_order_by, remove_entity_order_by", "src/query/component.rs: component_query_iter"]}
{"id": "C86", "title": "Histories can be simplified anywhere", "statement": "A history cannot be told from one that comes from it by exchanging neighbouring calls that have nothing to do with each other (C85), by leaving out calls together with the next call if that takes them back (C80, except for creations), and by leaving out calls that the next call makes superfluous (C81), any number of times and anywhere in the history: the stores answer alike about liveness, components, values, orders and tags, and queries visit the same entities with the same values. After one omission the remaining calls return too, with the same results.", "quantifier": "every two disciplined histories with healthy states (also with caught panics) of which one is a simplification of the other, any capacities, debug and release build", "why_tests_cant": "All histories, all places in them and all combinations of simplifications, with all continuations.", "anchors": ["src/store.rs: add_components, remove_components, get_components_refs_mut, destroy_entity", "src/tag_container.rs: add_tag, remove_tag", "src/order_group_container.rs: add_entity_order_by, remove_entity_order_by", "src/query/component.rs: component_query_iter"]}
{"id": "C87", "title": "Calls can be merged", "statement": "Components given, taken or set by two consecutive calls might as well be given, taken or set by one; an entity created with create_entity_with_archetype whose components are then all set might as well be created with create_entity and given them with add_components; and the order of the types in a tuple does not matter. Histories that differ in this, any number of times and anywhere, also together with the simplifications of C86, lead to stores that answer alike about liveness, components, values, orders and tags, and queries visit the same entities with the same values. After one merge the calls return too, with the same results.", "quantifier": "every two disciplined histories with healthy states (also with caught panics) of which one comes from the other by merging, any capacities, debug and release build", "why_tests_cant": "All histories, all places in them, all tuples of components and all continuations.", "anchors": ["src/store.rs: create_entity, create_entity_with_archetype, add_components, remove_components, get_components_refs_mut", "src/archetypes_container.rs", "src/component_tuple.rs"]}
