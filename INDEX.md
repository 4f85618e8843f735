# Where each function is modelled

Every function with a body outside `src/tests`, in source order, and the definitions of `rocq/theories/Model` that cite its lines. The tests
are runs in `rocq/theories/Tests`.

## division_ecs_attributes/src/lib.rs

| function | lines | model |
|----|----|----|
| `derive_component` | 5-21 | `Derive.rty`, `Derive.data`, `Derive.input`, `Derive.derive_component` |
| `derive_tag` | 24-40 | `Derive.rty`, `Derive.data`, `Derive.input`, `Derive.derive_tag` |

## examples/cache_test.rs

| function | lines | model |
|----|----|----|
| `main` | 43-68 | not modelled (timing) |
| `create_data_arrays` | 71-98 | argument `data` of `Examples.cache_fill` |
| `warmup_ecs` | 101-112 | `Query.qiter_next_with`; the sum is not modelled |
| `populate_ecs` | 115-129 | `Examples.cache_archetype`, `Examples.cache_fill_with`, `Examples.cache_fill` |
| `iterate_ecs` | 132-145 | `Query.component_query`; what is computed from the items is not modelled |
| `iterate_oop` | 148-158 | not modelled (does not use the store) |
| `test_op` | 160-162 | not modelled (arithmetic) |

## examples/query_bench.rs

| function | lines | model |
|----|----|----|
| `main` | 25-82 | `Examples.bench_fill` |
| `result_func` | 85-89 | not modelled (arithmetic) |

## src/archetype.rs

| function | lines | model |
|----|----|----|
| `with_components` | 24-26 | `Archetype.with_components` |
| `new` | 28-62 | `Archetype.arch_new`, `Heap.m_arch_new`, `Unwind.u_ensure_types` |
| `has_component` | 65-67 | `Archetype.has_component` |
| `components_iter` | 70-79 | an archetype is its list of `ctype` |
| `find_component_index_of` | 81-83 | `Archetype.find_component_index` at the id of the type |
| `find_component_index` | 85-93 | `Archetype.find_component_index` |
| `component_count` | 96-98 | `length` |
| `component_aligns` | 101-103 | field `ct_align` |
| `component_sizes` | 106-108 | field `ct_size` |
| `is_same_as` | 110-120 | `Archetype.is_same_as` |
| `is_include` | 123-125 | `Archetype.is_include` |
| `is_include_ids` | 127-142 | `Archetype.all_found`, `Archetype.is_include_ids` |
| `is_include_only_ids` | 144-159 | `Archetype.all_found`, `Archetype.is_include_only_ids` |
| `is_exclude` | 162-164 | `Archetype.is_exclude` |
| `is_exclude_ids` | 166-185 | `Archetype.exclude_loop`, `Archetype.is_exclude_ids` |
| `included_ids` | 188-190 | `Archetype.arch_ids` |
| `calculate` | 194-233 | `Archetype.union_inner`, `Archetype.union_outer`, `Archetype.arch_union` |
| `len` | 236-238 | `length` |
| `clone` | 242-267 | identity on lists; allocations: `Heap.m_arch_new` |
| `fmt` | 271-277 | not modelled |
| `hash` | 281-287 | `Archetype.arch_hash_input` |
| `drop` | 291-298 | `Heap.m_arch_drop` |

## src/archetype_builder.rs

| function | lines | model |
|----|----|----|
| `new` | 10-14 | `Archetype.bld_new` |
| `include_components` | 16-18 | `Archetype.bld_include` of `ctype_of` |
| `exclude_components` | 20-22 | `Archetype.bld_exclude` of `ctype_of` |
| `include_component_types` | 24-32 | `Archetype.bld_include` |
| `exclude_component_types` | 34-42 | `Archetype.bld_exclude` |
| `include_archetype` | 44-55 | `Archetype.bld_include` |
| `build` | 57-61 | `Archetype.bld_build` |

## src/archetype_data_page.rs

| function | lines | model |
|----|----|----|
| `new` | 18-25 | `Heap.m_page_new`, `Heap.m_page_drop`, `Page.page_new` |
| `set_layout` | 27-30 | `Page.page_set_layout` |
| `entity_count` | 33-35 | `Page.page_count`, `Page.has_free_space` |
| `entity_capacity` | 38-40 | field `pg_vcap` |
| `entity_id_ptrs` | 43-45 | field `pg_ids` |
| `has_free_space` | 48-50 | `Page.has_free_space` |
| `add_entity_id` | 52-56 | `BinarySearch.rawvec_grow`, `Page.page_add` |
| `swap_remove_entity_at_index` | 58-77 | `Page.page_swap_remove` |
| `move_component_data` | 80-98 | `Page.mread`, `Page.mwrite`, `Page.move_component_data` |
| `copy_component_data_to_page_with_new_archetype` | 101-129 | `Page.mread`, `Page.mwrite`, `Page.copy_across`, `Page.pages_copy`, `Page.copy_common`, `Page.copy_component_data` |
| `get_component_data_ptr_mut` | 132-142 | `Page.data_off` |
| `get_component_data_ptr` | 145-155 | `Page.data_off` |
| `drop` | 159-161 | `Heap.m_page_drop` |

## src/archetype_data_page_view.rs

| function | lines | model |
|----|----|----|
| `get_components_refs` | 11-17 | `Tuple.view_refs` |
| `get_components_refs_mut` | 19-25 | `Tuple.view_refs` |
| `get_components_refs_mut_unchecked` | 27-36 | `Tuple.view_refs_unchecked` |

## src/archetype_layout.rs

| function | lines | model |
|----|----|----|
| `new` | 11-28 | `Archetype.layout_new`, `Heap.m_layout_new`, `Heap.m_layout_drop` |
| `calculate_entities_capacity` | 30-52 | `Archetype.PTR_SIZE`, `Archetype.div_checked`, `Archetype.div_all`, `Archetype.calc_capacity`, `Unwind.w_reserve_archetype` |
| `calculate_offsets` | 54-79 | `Archetype.PTR_SIZE`, `Archetype.align_up`, `Archetype.calc_offsets_loop`, `Archetype.calc_offsets`, `Heap.m_layout_new`, `Heap.m_layout_drop`, `Unwind.w_reserve_archetype` |
| `entities_capacity` | 82-84 | field `ly_cap` |
| `component_offsets` | 87-89 | field `ly_offs` |
| `drop` | 93-97 | `Heap.m_layout_drop` |

## src/archetypes_container.rs

| function | lines | model |
|----|----|----|
| `new` | 31-59 | `ArchContainer.ac_new`, `Heap.m_ac_new` |
| `add_entity` | 61-68 | `ArchContainer.ac_add_entity`, `Heap.m_add_entity`, `Unwind.u_add_entity` |
| `swap_remove_entity` | 70-93 | `ArchContainer.ac_swap_remove` |
| `move_entity_to_other_archetype` | 95-126 | `ArchContainer.ac_move_entity`, `Heap.m_add_entity`, `Unwind.u_add_entity` |
| `get_page_view_unchecked` | 129-139 | `ArchContainer.view`, `ArchContainer.page_view_unchecked` |
| `get_archetypes` | 142-144 | field `ac_archs` |
| `get_archetype_with_layout_unchecked` | 147-155 | `ArchContainer.arch_with_layout_unchecked` |
| `get_pages` | 158-160 | field `ac_pages` |
| `get_page_by_index_unchecked` | 163-168 | `Base.vget_unchecked` on `ac_pages` |
| `get_archetype_page_indices` | 171-173 | field `ac_pages_of` |
| `get_archetype_index_by_page` | 176-178 | `ArchContainer.arch_index_by_page`, `ArchContainer.arch_by_page` |
| `get_archetype_by_page` | 181-184 | `ArchContainer.arch_by_page` |
| `free_page` | 186-205 | `ArchContainer.position_nat`, `ArchContainer.free_page` |
| `reserve_archetype` | 207-236 | `ArchContainer.find_arch`, `ArchContainer.reserve_archetype`, `Heap.m_reserve_archetype`, `Unwind.w_reserve_archetype`, `Unwind.u_reserve_archetype` |
| `reserve_page` | 238-286 | `ArchContainer.find_room`, `ArchContainer.ac_page_add`, `ArchContainer.reserve_page`, `Heap.m_reserve_page`, `Unwind.u_reserve_page` |

## src/bitvec_utils.rs

| function | lines | model |
|----|----|----|
| `alloc` | 4-6 | `BitVec.bv_alloc`, `Heap.bits_alloc`, `Heap.bits_dealloc`, `Heap.bits_realloc` |
| `dealloc` | 9-11 | `Heap.bits_dealloc` |
| `realloc` | 14-27 | `BitVec.bv_realloc`, `Heap.bits_alloc`, `Heap.bits_dealloc`, `Heap.bits_realloc` |
| `set_bit_off` | 30-38 | `BitVec.bv_len`, `BitVec.u32_not`, `BitVec.bv_upd`, `BitVec.bv_off` |
| `set_bit_on` | 41-49 | `BitVec.bv_upd`, `BitVec.bv_on` |
| `toggle_bit` | 52-60 | `BitVec.bv_upd`, `BitVec.bv_toggle` |
| `is_bit_on` | 63-71 | `BitVec.bv_get` |
| `get_len` | 74-76 | `BitVec.bv_len` |
| `get_bitvec_base_bits` | 79-81 | the constant 32 |

## src/component_tuple.rs

| function | lines | model |
|----|----|----|
| `get_offsets_unchecked` | 86-99 | `Tuple.get_offsets_unchecked` |
| `get_offsets` | 102-114 | `Tuple.get_offsets` |
| `get_refs` | 117-132 | `Tuple.get_refs` |
| `get_refs_mut` | 135-150 | `Tuple.get_refs` |
| `get_ptrs` | 153-165 | `Tuple.get_ptrs` |
| `get_ptrs_mut` | 168-180 | `Tuple.get_ptrs` |
| `add_to_ptrs` | 183-193 | `Tuple.add_to_ptrs` |
| `add_to_ptrs_mut` | 196-205 | `Tuple.add_to_ptrs` |
| `null_ptrs` | 208-210 | the empty list (`Query.pview_empty`) |
| `null_ptrs_mut` | 213-215 | the empty list (`Query.pview_empty`) |
| `ptrs_to_refs` | 218-226 | `Tuple.ptr_to_ref`, `Tuple.ptrs_to_refs` |
| `ptrs_to_refs_mut` | 229-237 | `Tuple.ptr_to_ref`, `Tuple.ptrs_to_refs` |
| `assign_to_refs` | 240-249 | `Tuple.write_ref`, `Tuple.assign_to_refs` |
| `into_archetype` | 251-256 | `Archetype.with_components` |
| `is_archetype_include_types` | 259-261 | `Archetype.is_include_ids` |
| `add_components_to_archetype_builder` | 263-268 | `Archetype.bld_include` of `ctype_of` |
| `remove_components_from_archetype_builder` | 270-275 | `Archetype.bld_exclude` of `ctype_of` |
| `cloned` | 283-291 | reading a reference (`Tuple.read_ref`) |

## src/component_type.rs

| function | lines | model |
|----|----|----|
| `of` | 12-19 | `Archetype.ctype_of` |
| `new` | 21-33 | constructor `CType` |
| `id` | 36-38 | field `ct_id` |
| `size` | 41-43 | field `ct_size` |
| `align` | 46-48 | field `ct_align` |
| `name` | 51-53 | not modelled |
| `eq` | 57-59 | `Archetype.bld_contains` |

## src/entities_container.rs

| function | lines | model |
|----|----|----|
| `new` | 19-36 | `Entities.ec_new`, `Heap.m_ec_new` |
| `capacity` | 38-40 | field `ec_cap` |
| `grow` | 42-64 | `Entities.ec_grow`, `Heap.m_ec_grow` |
| `will_grow_with_id` | 67-69 | `Entities.will_grow_with_id` |
| `create_entity` | 71-102 | `Entities.ec_create`, `Heap.m_ec_create`, `Unwind.w_ec_create` |
| `destroy_entity` | 104-118 | `Entities.ec_destroy` |
| `is_alive` | 120-130 | `Entities.ec_is_alive` |
| `is_alive_at_index` | 133-135 | `Entities.ec_is_alive_at` |
| `entity_versions` | 138-140 | field `ec_ver` |
| `validate_id` | 143-145 | `Entities.validate_id` |
| `validate_entity_version` | 148-150 | `Entities.validate_version` |
| `validate_entity_version_with_panic` | 152-158 | `Entities.ec_destroy` |
| `debug_validate_id_with_panic` | 160-165 | `Base.dassertP` of `Entities.validate_id` |
| `drop` | 169-174 | `Heap.m_ec_drop` |
| `container_was_grow` | 179-181 | `Entities.container_was_grow` |

## src/entity.rs

| function | lines | model |
|----|----|----|
| `id` | 11-13 | field `e_id` |
| `version` | 16-18 | field `e_ver` |
| `null` | 21-26 | `Base.entity_null` |

## src/mem_utils.rs

| function | lines | model |
|----|----|----|
| `alloc` | 13-15 | `Base.alloc_uninit`, `Heap.mem_alloc` |
| `alloc_zeroed` | 17-19 | `Base.alloc_filled`, `Heap.mem_alloc` |
| `realloc` | 21-35 | `Base.arealloc`, `Heap.mem_realloc` |
| `realloc_with_uninit_capacity_zeroing` | 37-48 | `Base.arealloc_filled`, `Heap.mem_realloc_zeroing` |
| `dealloc` | 50-52 | `Heap.mem_dealloc` |
| `layout_of` | 54-59 | `Heap.layout_of` |
| `realloc` | 62-65 | `Base.arealloc`, `Heap.mem_realloc` |
| `realloc_with_uninit_capacity_zeroing` | 67-78 | `Base.arealloc_filled`, `Heap.mem_realloc_zeroing` |

## src/order_group_container.rs

| function | lines | model |
|----|----|----|
| `new` | 24-33 | `Orders.orders_new` |
| `add_id_ordered_by` | 36-62 | `Orders.orders_add`, `Orders.grp_add` |
| `add_id_next_to_ordered_by` | 65-94 | `Orders.orders_add_next`, `Orders.grp_add_next` |
| `add_id_previous_to_ordered_by` | 97-130 | `Orders.orders_add_prev`, `Orders.grp_add_prev` |
| `assert_entity_has_no_order` | 132-142 | `Orders.assert_no_order` |
| `remove_id_ordered_by` | 145-154 | `Orders.orders_remove` |
| `get_next_id_ordered_by` | 157-159 | `Orders.get_next_id` |
| `get_previous_id_ordered_by` | 162-164 | `Orders.get_previous_id` |
| `grow` | 166-189 | `Heap.m_orders_grow_loop`, `Heap.m_orders_grow`, `Orders.links_grow`, `Orders.links_grow_all`, `Orders.orders_grow`, `Unwind.w_register` |
| `remove_all_orders_for_id` | 191-195 | `Orders.orders_remove_loop`, `Orders.orders_remove_all` |
| `reserve_group` | 198-215 | `Heap.m_reserve_group`, `Orders.reserve_group`, `Unwind.w_reserve_group`, `Unwind.u_reserve_group` |
| `alloc_links_map` | 218-224 | `Heap.m_reserve_group`, `Orders.alloc_links` |
| `get_link` | 227-245 | `Orders.get_link` |
| `get_head_id` | 248-257 | `Orders.get_head_id` |
| `get_tail_id` | 260-269 | `Orders.get_tail_id` |
| `get_group_index` | 272-279 | `Orders.get_group_index` |
| `get_first_id_in_group_unchecked` | 282-284 | field `og_head`, in `Query.ordered_query` |
| `get_id_to_next_in_group_map_unchecked` | 287-289 | field `og_fwd`, in `Query.ordered_query` |
| `get_order_group_info_unchecked_mut` | 292-306 | `Orders.grp_at` |
| `remove_entity_order_by_internal` | 308-339 | `Orders.fwd_set`, `Orders.bwd_set`, `Orders.grp_remove` |
| `add_entity_order_by` | 343-345 | `Store.add_order` |
| `add_entity_next_to_order_by` | 347-354 | `Store.add_order_next` |
| `add_entity_previous_to_order_by` | 356-363 | `Store.add_order_prev` |
| `remove_entity_order_by` | 365-368 | `Store.remove_order` |
| `get_next_entity_ordered_by` | 370-374 | `Store.next_ordered` |
| `get_previous_entity_ordered_by` | 376-383 | `Store.previous_ordered` |
| `get_first_entity_ordered_by` | 385-389 | `Store.first_ordered` |
| `get_last_entity_ordered_by` | 391-395 | `Store.last_ordered` |
| `drop` | 399-409 | `Heap.each`, `Heap.m_orders_drop` |

## src/query/access.rs

| function | lines | model |
|----|----|----|
| `get_offsets` | 61-66 | `Query.q_offsets` |
| `is_archetype_include_types` | 69-72 | `Query.q_types`, `Query.q_include` |
| `get_refs` | 75-84 | `Tuple.view_refs` of the read and of the write types |
| `get_ptrs` | 87-95 | `Query.q_ptrs`, for one kind of access with an empty list |
| `add_to_ptrs` | 98-106 | `Tuple.add_to_ptrs` |
| `null_ptrs` | 109-111 | the empty list (`Query.pview_empty`) |
| `ptrs_to_refs` | 114-116 | `Tuple.ptrs_to_refs` |
| `is_archetype_include_types` | 125-127 | `Query.q_include` |
| `get_refs` | 130-136 | `Tuple.view_refs` of the read and of the write types |
| `get_offsets` | 139-141 | `Query.q_offsets` |
| `get_ptrs` | 144-146 | `Query.q_ptrs`, for one kind of access with an empty list |
| `add_to_ptrs` | 149-151 | `Tuple.add_to_ptrs` |
| `null_ptrs` | 154-156 | the empty list (`Query.pview_empty`) |
| `ptrs_to_refs` | 159-161 | `Tuple.ptrs_to_refs` |
| `is_archetype_include_types` | 170-172 | `Query.q_include` |
| `get_refs` | 175-181 | `Tuple.view_refs` of the read and of the write types |
| `get_offsets` | 184-186 | `Query.q_offsets` |
| `get_ptrs` | 189-191 | `Query.q_ptrs`, for one kind of access with an empty list |
| `add_to_ptrs` | 194-196 | `Tuple.add_to_ptrs` |
| `null_ptrs` | 199-201 | the empty list (`Query.pview_empty`) |
| `ptrs_to_refs` | 204-206 | `Tuple.ptrs_to_refs` |

## src/query/component.rs

| function | lines | model |
|----|----|----|
| `readonly` | 40-42 | `Query.access` with no write types |
| `write` | 44-46 | `Query.access` with no read types |
| `read_write` | 48-51 | `Query.access` |
| `new` | 54-58 | `QueryObj.cq_obj_new` |
| `component_query_iter` | 62-117 | `Query.cq_pages`, `Query.cq_archs`, `Query.component_query`, `Query.query_write`, `QueryObj.push_pages`, `QueryObj.push_archs`, `QueryObj.component_query_iter` |
| `next` | 123-142 | `Query.qiter_next` |
| `len` | 146-148 | `Query.qiter_len` |
| `with_entities` | 152-159 | `Query.qiter_next_with` from the same state |
| `next` | 165-172 | `Query.qiter_next_with` |
| `filter_tag` | 176-184 | `Query.filter_tag` |
| `next` | 190-198 | `Query.filter_next` |

## src/query/component_page_iter.rs

| function | lines | model |
|----|----|----|
| `new` | 14-23 | `Query.piter`, `Query.piter_new`, `Query.piter_empty` |
| `empty` | 26-28 | `Query.piter`, `Query.piter_new`, `Query.piter_empty` |
| `current_entity_id` | 30-32 | `Query.piter_current_id` |
| `next` | 38-50 | `Query.piter_next` |
| `len` | 54-56 | `QueryObj.piter_len` |

## src/query/component_page_iter_view.rs

| function | lines | model |
|----|----|----|
| `new` | 13-19 | `Query.pview`, `Query.pview_new`, `Query.pview_empty` |
| `empty` | 21-27 | `Query.pview`, `Query.pview_new`, `Query.pview_empty` |
| `clone` | 31-37 | a copy |

## src/query/entity_component.rs

| function | lines | model |
|----|----|----|
| `new` | 37-42 | `QueryObj.rq_obj_new`, `QueryObj.rq_push` |
| `readonly` | 45-47 | `Query.access` with no write types |
| `write` | 49-51 | `Query.access` with no read types |
| `read_write` | 53-56 | `Query.access` |
| `entity_component_query_iter` | 59-121 | `Query.eq_extend`, `Query.eq_ranges`, `Query.entity_query`, `QueryObj.push_ranges`, `QueryObj.entity_component_query_iter` |
| `is_valid_entity_for_query` | 124-128 | `Query.valid_for_query` |
| `next` | 134-161 | `Query.eiter_next` |
| `with_entities` | 165-167 | `Query.eiter_next_with` from the same state |
| `next` | 173-182 | `Query.eiter_next_with` |

## src/query/ordered_component.rs

| function | lines | model |
|----|----|----|
| `readonly` | 42-44 | `Query.access` with no write types |
| `read_write` | 46-49 | `Query.access` |
| `write` | 51-53 | `Query.access` with no read types |
| `new` | 56-62 | `QueryObj.rq_obj_new`, `QueryObj.rq_push` |
| `ordered_query_iter` | 66-152 | `Query.oq_extend`, `Query.oq_member`, `Query.oq_ranges`, `Query.ordered_query`, `QueryObj.push_ordered`, `QueryObj.ordered_query_iter` |
| `iter_from_query` | 154-169 | the constructor `OIter` in `Query.ordered_query` |
| `next` | 175-195 | `Query.oiter_next` |
| `with_entities` | 199-204 | `Query.oiter_next_with` from the same state |
| `next` | 210-228 | `Query.oiter_next_with` |
| `len` | 232-234 | `Query.oiter_len` |

## src/resource_store.rs

| function | lines | model |
|----|----|----|
| `new` | 11-16 | `Heap.m_rs_new`, `Resource.rs_new` |
| `with_capacity` | 18-23 | `Heap.m_rs_with_capacity`, `Resource.rs_with_capacity` |
| `create` | 25-45 | `Resource.rs_create`, `Heap.m_rs_create` |
| `release` | 47-53 | `Resource.rs_release` |
| `index` | 59-67 | `Resource.rs_index` |
| `index_mut` | 71-79 | `Resource.rs_assign` |
| `drop` | 83-91 | `Heap.m_rs_drop`, `Resource.rs_drop_loop`, `Resource.rs_drop` |

## src/store.rs

| function | lines | model |
|----|----|----|
| `new` | 25-27 | `Store.store_new` |
| `with_capacity` | 29-42 | `Heap.m_store_new`, `Store.store_with_capacity` |
| `data_page_size` | 44-46 | `Archetype.PAGE` |
| `entities_capacity` | 49-51 | `Store.entities_capacity` |
| `create_entity` | 53-61 | `Store.create_entity` |
| `create_entity_with_archetype` | 63-74 | `Heap.m_create_with`, `Store.set_location`, `Store.create_entity_with_archetype`, `Unwind.u_create_with` |
| `register_new_entity` | 76-83 | `Heap.m_register`, `Store.register_new_entity`, `Unwind.w_register`, `Unwind.u_register` |
| `destroy_entity` | 85-104 | `Store.destroy_entity` |
| `add_components` | 106-161 | `Heap.m_with_temporary`, `Heap.m_ensure_types`, `Heap.m_add_components`, `Store.set_location`, `Store.ensure_types`, `Store.add_components`, `Unwind.u_with_temporary`, `Unwind.u_ensure_types` … |
| `remove_components` | 163-185 | `Heap.m_with_temporary`, `Heap.m_remove_components`, `Store.remove_components`, `Unwind.u_with_temporary`, `Unwind.u_remove_components` |
| `move_entity_to_other_archetype` | 187-212 | `Store.move_entity` |
| `swap_remove_internal` | 214-227 | `Store.swap_remove_internal` |
| `is_alive` | 230-232 | `Store.is_alive` |
| `get_components_refs` | 235-245 | `Store.get_components_refs` |
| `get_components_refs_mut` | 248-258 | `Store.get_components_refs`, `Store.set_components` |
| `get_page_info` | 260-265 | `Store.get_components_refs` |
| `get_page_view_unchecked` | 268-272 | `Store.get_components_refs` |
| `get_entity_archetype` | 275-283 | `Store.get_entity_archetype` |
| `is_valid_entity_with_archetype` | 286-288 | `Store.is_valid_with_archetype` |
| `grow_entities_internal` | 291-312 | `Heap.m_register`, `Store.grow_entities`, `Unwind.w_register` |
| `get_entity_by_id_unchecked` | 315-320 | `Store.entity_by_id`, `Store.entity_by_id_opt` |
| `get_entity_in_archetype_unchecked` | 323-331 | `Store.get_eia` |
| `get_page_index_unchecked` | 334-336 | `Store.get_page_index` |
| `get_index_in_page_unchecked` | 339-341 | `Store.get_index_in_page` |
| `entity_to_index_in_page_ptr` | 344-346 | the array read by `Store.get_index_in_page` |
| `has_archetype_unchecked` | 349-351 | `Store.has_archetype` |
| `set_page_index_unchecked` | 354-356 | `Store.set_page_index` |
| `set_index_in_page_unchecked` | 359-361 | `Store.set_index_in_page` |
| `enable_archetype_unchecked` | 364-366 | `Store.enable_archetype` |
| `disable_archetype_unchecked` | 369-371 | `Store.disable_archetype` |
| `drop` | 375-383 | `Heap.m_store_drop` |

## src/tag_container.rs

| function | lines | model |
|----|----|----|
| `new` | 12-18 | `Tags.tags_new` |
| `has_tag_bitvec` | 20-30 | `Tags.has_tag_bitvec` |
| `add_tag` | 32-52 | `Heap.m_tags_add`, `Tags.tags_add`, `Unwind.w_tags_add`, `Unwind.u_tags_add` |
| `remove_tag` | 54-63 | `Tags.tags_remove` |
| `has_tag` | 65-74 | `Tags.tags_has` |
| `remove_all_tags_for_entity` | 76-82 | `Tags.tags_remove_all` |
| `grow` | 84-93 | `Heap.m_tags_grow`, `Tags.tags_grow` |
| `add_tag` | 98-100 | `Store.add_tag`, `Store.remove_tag`, `Store.has_tag` |
| `remove_tag` | 103-105 | `Store.add_tag`, `Store.remove_tag`, `Store.has_tag` |
| `has_tag` | 108-110 | `Store.add_tag`, `Store.remove_tag`, `Store.has_tag` |
| `drop` | 114-120 | `Heap.m_tags_drop` |
