(** Heap.v — C52: blocks of memory. *)
From Verif.Proofs Require Import HeapP UsageP.
Local Open Scope N_scope.

(** A store created with a non-zero capacity: whatever calls were made, each call to the allocator was allowed, and after
    the store has been dropped every block allocated was freed once, with the layout it was allocated with. *)
Theorem C52_store_blocks_partial : ∀ c cap tr s, run c cap tr s → 0 < cap →
  (∃ k h, mrun c cap tr s k h) ∧
  ∀ k h, mrun c cap tr s k h →
    allowed h ∧ ∃ h', m_store_drop s k h = ROk h' tt ∧ all_freed h' ∧ ∀ p l, EAlloc p l ∈ h' → freed_once h' p l.
Proof. exact store_blocks. Qed.
Print Assumptions C52_store_blocks_partial.
(** A resource store created by with_capacity, for a type that is not zero-sized: each call was allowed, and after the drop
    the block of the elements, and only this block, is still in use. *)
Theorem C52_resource_blocks_partial : ∀ T t md cap tr (s : rs T),
  rrun md (rs_with_capacity cap) tr s → 0 < cap → 0 < t_size t →
  (∃ k h, mrrun t md (rs_with_capacity cap) (m_rs_with_capacity t cap) tr s k h) ∧
  ∀ k h, mrrun t md (rs_with_capacity cap) (m_rs_with_capacity t cap) tr s k h →
    allowed h ∧ ∃ h', m_rs_drop s k h = ROk h' tt ∧ in_use h' = Some {[pr_elems k := layout_of t (ec_cap (rs_ec s))]}.
Proof. exact @resource_blocks. Qed.
Print Assumptions C52_resource_blocks_partial.

(** So ResourceStore leaks the block of its elements. *)
Theorem C52_resource_leak_refuted : ¬ ∀ (t : ety) (cap : N), 0 < cap → 0 < t_size t →
  ∀ k h h', m_rs_with_capacity t cap [] = ROk h k → m_rs_drop (rs_with_capacity cap : rs N) k h = ROk h' tt → all_freed h'.
Proof. exact resources_refuted. Qed.
Print Assumptions C52_resource_leak_refuted.
(** ResourceStore::new, ResourceStore::with_capacity for a zero-sized type, and in release builds Store::with_capacity(0)
    call the allocator with size 0. *)
Theorem C52_resource_new_refuted : ¬ ∀ h k, m_rs_new [] = ROk h k → allowed h.
Proof. exact resources_new_refuted. Qed.
Print Assumptions C52_resource_new_refuted.
Theorem C52_resource_zero_sized_refuted : ¬ ∀ t cap h k, 0 < cap → m_rs_with_capacity t cap [] = ROk h k → allowed h.
Proof. exact resources_zst_refuted. Qed.
Print Assumptions C52_resource_zero_sized_refuted.
Theorem C52_empty_store_refuted : ¬ ∀ c cap tr s k h, cfg_ok c → run c cap tr s → mrun c cap tr s k h → allowed h.
Proof. exact empty_store_refuted. Qed.
Print Assumptions C52_empty_store_refuted.

(** Growth from 1 to 4, a tag, an order group, and an archetype that takes the place of an abandoned one: 46 blocks are
    allocated and freed. Freeing a block twice, or with another layout, is noticed. *)
Example C52_example :
  let c := ex_cfg Debug in let tr := end_trace c 1 ex_heap in
  end_ok c 1 ex_heap = true ∧ ec_cap (st_ec (end_store c 1 ex_heap)) = 4 ∧ arch_ids <$> ac_archs (st_ac (end_store c 1 ex_heap)) = [[1]; [9]] ∧
  match m_life c 1 tr with
  | ROk h _ => length h = 92%nat ∧ length (List.filter is_alloc h) = 46%nat ∧ map_to_list <$> in_use h = Some []
  | _ => False
  end ∧
  in_use [EFree 1 (Lay 4 4); EFree 1 (Lay 4 4); EAlloc 1 (Lay 4 4)] = None ∧ in_use [EFree 1 (Lay 8 4); EAlloc 1 (Lay 4 4)] = None ∧
  map_to_list <$> in_use [EFree 1 (Lay 4 4); EAlloc 2 (Lay 8 8); EAlloc 1 (Lay 4 4)] = Some [(2, Lay 8 8)].
Proof. vm_compute. done. Qed.
