(** Heap.v — the calls made to the global allocator: src/mem_utils.rs, the allocations in src/bitvec_utils.rs, and what the
    containers allocate, reallocate and free, including their Drop implementations.

    This file adds to the model of the containers the pointers they hold. The contents of the blocks are in the other files
    and are not repeated here: a function [m_f s k] gives the allocator calls of the function f on a container whose
    contents are [s] and whose pointers are [k], and the pointers afterwards. The buffers of [Vec] and the contents of
    values of user types are the business of the standard library and of the user and are left out. *)
From Verif.Model Require Export Run Resource.
Local Open Scope N_scope.

(** std::alloc::Layout, as used in mem_utils.rs:54-59 *)
Record lay := Lay { la_size : N; la_align : N }.
Global Instance lay_eq : EqDecision lay.
Proof. solve_decision. Defined.

(** The calls made to std::alloc (mem_utils.rs:13-19, 50-52), newest first. Blocks are named by numbers, the name of a new block was never used before;
    0 is the null pointer. *)
Inductive ev := EAlloc (p : N) (l : lay) | EFree (p : N) (l : lay).
Notation calls := (list ev) (only parsing).
Definition std_alloc (l : lay) : M calls N := λ h,
  let p := N.of_nat (S (length h)) in ROk (EAlloc p l :: h) p.
Definition std_dealloc (p : N) (l : lay) : M calls unit := λ h, ROk (EFree p l :: h) tt.

(** mem_utils.rs:54-59 layout_of, for an element type of the given size and alignment. The multiplication is not wrapped. *)
Record ety := Ety { t_size : N; t_align : N }.
Definition layout_of (t : ety) (capacity : N) : lay := Lay (t_size t * capacity) (t_align t).
(** mem_utils.rs:13-19 alloc, alloc_zeroed; 50-52 dealloc *)
Definition mem_alloc (t : ety) (capacity : N) : M calls N := std_alloc (layout_of t capacity).
Definition mem_dealloc (t : ety) (p capacity : N) : M calls unit := std_dealloc p (layout_of t capacity).
(** mem_utils.rs:21-35 realloc *)
Definition mem_realloc (t : ety) (p old new : N) : M calls N :=
  if old =? new then mret p
  else q ← mem_alloc t new; _ ← mem_dealloc t p old; mret q.
(** mem_utils.rs:37-48 realloc_with_uninit_capacity_zeroing *)
Definition mem_realloc_zeroing (t : ety) (p old new : N) : M calls N :=
  q ← mem_alloc t new; _ ← mem_dealloc t p old; mret q.

Definition u8_t : ety := Ety 1 1.
Definition u32_t : ety := Ety 4 4.
Definition usize_t : ety := Ety 8 8.
Definition str_t : ety := Ety 16 8.      (* &'static str *)
Definition tid_t : ety := Ety 16 8.      (* TypeId; its size depends on the compiler version *)

(** bitvec_utils.rs:4-6 alloc, 9-11 dealloc, 14-27 realloc *)
Definition bits_alloc (len : N) : M calls N := mem_alloc u32_t (bv_len len).
Definition bits_dealloc (p len : N) : M calls unit := mem_dealloc u32_t p (bv_len len).
Definition bits_realloc (p old new : N) : M calls N :=
  if bv_len old =? bv_len new then mret p
  else q ← mem_alloc u32_t (bv_len new); _ ← mem_dealloc u32_t p (bv_len old); mret q.

(** loops over a Vec of pointers: replacing each pointer, and a call for each *)
Fixpoint each_replaced (f : N → M calls N) (ps : list N) : M calls (list N) :=
  match ps with
  | [] => mret []
  | p :: r => q ← f p; r' ← each_replaced f r; mret (q :: r')
  end.
(** (drop of tag_container.rs, order_group_container.rs:398-410 and of the vectors of archetypes_container.rs:10-25) *)
Fixpoint each {A} (f : A → M calls unit) (l : list A) : M calls unit :=
  match l with [] => mret tt | x :: r => _ ← f x; each f r end.

(** ** EntitiesContainer *)

(** entities_container.rs:7-8 *)
Record ecp := ECP { pe_ver : N; pe_alive : N }.
(** entities_container.rs:19-36 new *)
Definition m_ec_new (capacity : N) : M calls ecp :=
  v ← mem_alloc u32_t capacity; a ← bits_alloc capacity; mret (ECP v a).
(** entities_container.rs:42-64 grow *)
Definition m_ec_grow (s : ec) (new : N) (k : ecp) : M calls ecp :=
  if new <=? ec_cap s then mret k
  else
    v ← mem_realloc_zeroing u32_t (pe_ver k) (ec_cap s) new;
    a ← bits_realloc (pe_alive k) (ec_cap s) new;
    mret (ECP v a).
(** entities_container.rs:71-102 create_entity *)
Definition m_ec_create (s : ec) (k : ecp) : M calls ecp :=
  match last (ec_gaps s) with
  | Some _ => mret k
  | None => if will_grow_with_id s (ec_next s) then m_ec_grow s (N.max (ec_cap s) 1 * 2) k else mret k
  end.
(** entities_container.rs:168-175 drop *)
Definition m_ec_drop (s : ec) (k : ecp) : M calls unit :=
  _ ← bits_dealloc (pe_alive k) (ec_cap s);
  mem_dealloc u32_t (pe_ver k) (ec_cap s).

(** ** TagContainer: the pointers are entity_id_to_has_tag_bitvecs, tag_container.rs:7 *)

(** tag_container.rs:32-52 add_tag *)
Definition m_tags_add (c : cfg) (s : tags) (t : tid) (ps : list N) : M calls (list N) :=
  match c_bs c (tg_ids s) t with
  | BFound _ => mret ps
  | BMissing i => p ← bits_alloc (tg_cap s); lift (vinsert ps i p)
  end.
(** tag_container.rs:84-93 grow *)
Definition m_tags_grow (s : tags) (new : N) (ps : list N) : M calls (list N) :=
  each_replaced (λ p, bits_realloc p (tg_cap s) new) ps.
(** tag_container.rs:112-120 drop *)
Definition m_tags_drop (s : tags) (ps : list N) : M calls unit := each (λ p, bits_dealloc p (tg_cap s)) ps.

(** ** OrderGroupContainer *)

(** order_group_container.rs:7-8 *)
Record ogp := OGP { po_fwd : list N; po_bwd : list N }.
(** order_group_container.rs:198-215 reserve_group, with 218-224 alloc_links_map *)
Definition m_reserve_group (c : cfg) (s : orders) (t : tid) (k : ogp) : M calls ogp :=
  match c_bs c (og_ids s) t with
  | BFound _ => mret k
  | BMissing i =>
    f ← mem_alloc u32_t (og_cap s);
    b ← mem_alloc u32_t (og_cap s);
    fs ← lift (vinsert (po_fwd k) i f);
    bs ← lift (vinsert (po_bwd k) i b);
    mret (OGP fs bs)
  end.
(** order_group_container.rs:166-189 grow: a loop over both vectors zipped *)
Fixpoint m_orders_grow_loop (old new : N) (bwd fwd : list N) : M calls (list N * list N) :=
  match bwd, fwd with
  | b :: bs, f :: fs =>
    b' ← mem_realloc u32_t b old new;
    f' ← mem_realloc u32_t f old new;
    r ← m_orders_grow_loop old new bs fs;
    mret (b' :: r.1, f' :: r.2)
  | _, _ => mret (bwd, fwd)
  end.
(** order_group_container.rs:166-189 grow *)
Definition m_orders_grow (s : orders) (new : N) (k : ogp) : M calls ogp :=
  r ← m_orders_grow_loop (og_cap s) new (po_bwd k) (po_fwd k); mret (OGP r.2 r.1).
(** order_group_container.rs:398-410 drop: a loop over both vectors zipped *)
Definition m_orders_drop (s : orders) (k : ogp) : M calls unit :=
  each (λ x, _ ← mem_dealloc u32_t x.1 (og_cap s); mem_dealloc u32_t x.2 (og_cap s)) (zip (po_bwd k) (po_fwd k)).

(** ** Archetypes, layouts, pages *)

(** archetype.rs:10-16 *)
Record archp := ArchP { pa_ids : N; pa_sizes : N; pa_aligns : N; pa_names : N }.
(** archetype.rs:28-62 new, 241-268 clone *)
Definition m_arch_new (component_count : N) : M calls archp :=
  a ← mem_alloc tid_t component_count;
  b ← mem_alloc usize_t component_count;
  d ← mem_alloc usize_t component_count;
  e ← mem_alloc str_t component_count;
  mret (ArchP a b d e).
(** archetype.rs:290-299 drop *)
Definition m_arch_drop (k : archp) (component_count : N) : M calls unit :=
  _ ← mem_dealloc tid_t (pa_ids k) component_count;
  _ ← mem_dealloc usize_t (pa_sizes k) component_count;
  _ ← mem_dealloc usize_t (pa_aligns k) component_count;
  mem_dealloc str_t (pa_names k) component_count.
(** archetype_layout.rs:11-28 new, 54-81 calculate_offsets; 92-98 drop *)
Definition m_layout_new (component_count : N) : M calls N := mem_alloc usize_t component_count.
Definition m_layout_drop (p component_count : N) : M calls unit := mem_dealloc usize_t p component_count.
(** archetype_data_page.rs:19-26 new, 158-162 drop *)
Definition m_page_new : M calls N := mem_alloc u8_t PAGE.
Definition m_page_drop (p : N) : M calls unit := mem_dealloc u8_t p PAGE.

(** component_count of an archetype and of a layout *)
Definition arch_count (a : archetype) : N := N.of_nat (length a).
Definition layout_count (l : layout) : N := N.of_nat (length (ly_offs l)).

(** archetypes_container.rs:10-20 *)
Record acp := ACP { pc_archs : list archp; pc_layouts : list N; pc_pages : list N }.
(** archetypes_container.rs:31-59 new *)
Definition m_ac_new : M calls acp :=
  a ← m_page_new; b ← m_page_new; d ← m_page_new; e ← m_page_new; f ← m_page_new;
  mret (ACP [] [] [a; b; d; e; f]).
(** archetypes_container.rs:207-236 reserve_archetype. Assigning to an element of a Vec drops the old value, after the new
    one has been computed. *)
Definition m_reserve_archetype (a : archetype) (s : ac) (k : acp) : M calls acp :=
  match find_arch (ac_archs s) 0 a with
  | Some _ => mret k
  | None =>
    l ← m_layout_new (arch_count a);
    n ← m_arch_new (arch_count a);
    match last (ac_free_archs s) with
    | Some i =>
      old ← lift (vidx (ac_archs s) i); oldp ← lift (vidx (pc_archs k) i);
      _ ← m_arch_drop oldp (arch_count old);
      oldl ← lift (vidx (ac_layouts s) i); oldlp ← lift (vidx (pc_layouts k) i);
      _ ← m_layout_drop oldlp (layout_count oldl);
      mret (ACP (<[i := n]> (pc_archs k)) (<[i := l]> (pc_layouts k)) (pc_pages k))
    | None => mret (ACP (pc_archs k ++ [n]) (pc_layouts k ++ [l]) (pc_pages k))
    end
  end.
(** archetypes_container.rs:238-286 reserve_page *)
Definition m_reserve_page (ai : nat) (s : ac) (k : acp) : M calls acp :=
  ps ← lift (vidx (ac_pages_of s) ai);
  room ← lift (find_room (ac_pages s) (reverse ps));
  match room, last (ac_free_pages s) with
  | None, None => p ← m_page_new; mret (ACP (pc_archs k) (pc_layouts k) (pc_pages k ++ [p]))
  | _, _ => mret k
  end.
(** archetypes_container.rs:61-68 add_entity; the allocations of move_entity_to_other_archetype (95-126) are the same *)
Definition m_add_entity (c : cfg) (a : archetype) (s : ac) (k : acp) : M calls acp :=
  k1 ← m_reserve_archetype a s k;
  match reserve_archetype c a s with
  | ROk s1 ai => m_reserve_page ai s1 k1
  | _ => mret k1
  end.
(** Drop of the vectors of archetypes, layouts and pages *)
Definition m_ac_drop (s : ac) (k : acp) : M calls unit :=
  _ ← each (λ x, m_arch_drop x.2 (arch_count x.1)) (zip (ac_archs s) (pc_archs k));
  _ ← each (λ x, m_layout_drop x.2 (layout_count x.1)) (zip (ac_layouts s) (pc_layouts k));
  each m_page_drop (pc_pages k).

(** ** Store *)

(** store.rs:13-22 *)
Record stp := STP {
  ps_ec : ecp; ps_ac : acp; ps_tags : list N; ps_orders : ogp;
  ps_page : N; ps_idx : N; ps_has : N }.
Definition ps_set_ec v k := STP v (ps_ac k) (ps_tags k) (ps_orders k) (ps_page k) (ps_idx k) (ps_has k).
Definition ps_set_ac v k := STP (ps_ec k) v (ps_tags k) (ps_orders k) (ps_page k) (ps_idx k) (ps_has k).
Definition ps_set_tags v k := STP (ps_ec k) (ps_ac k) v (ps_orders k) (ps_page k) (ps_idx k) (ps_has k).
Definition ps_set_orders v k := STP (ps_ec k) (ps_ac k) (ps_tags k) v (ps_page k) (ps_idx k) (ps_has k).

(** store.rs:29-42 with_capacity *)
Definition m_store_new (capacity : N) : M calls stp :=
  e ← m_ec_new capacity;
  a ← m_ac_new;
  h ← bits_alloc capacity;
  i ← mem_alloc u32_t capacity;
  p ← mem_alloc u32_t capacity;
  mret (STP e a [] (OGP [] []) p i h).

(** store.rs:76-83 register_new_entity with 291-312 grow_entities_internal; [s] is the store before the call *)
Definition m_register (c : cfg) (s : store) (k : stp) : M calls stp :=
  e ← m_ec_create (st_ec s) (ps_ec k);
  match ec_create (c_mode c) (st_ec s) with
  | ROk s1 cr =>
    if container_was_grow cr then
      let old := cr_before cr in let new := ec_cap s1 in
      p ← mem_realloc u32_t (ps_page k) old new;
      i ← mem_realloc u32_t (ps_idx k) old new;
      h ← bits_realloc (ps_has k) old new;
      t ← m_tags_grow (st_tags s) new (ps_tags k);
      o ← m_orders_grow (st_orders s) new (ps_orders k);
      mret (STP e (ps_ac k) t o p i h)
    else mret (ps_set_ec e k)
  | _ => mret (ps_set_ec e k)
  end.
(** A call on the field archetypes_container (store.rs:15) *)
Definition m_on_ac (m : acp → M calls acp) (k : stp) : M calls stp := a ← m (ps_ac k); mret (ps_set_ac a k).

(** store.rs:63-74 create_entity_with_archetype; the archetype is borrowed from the caller *)
Definition m_create_with (c : cfg) (a : archetype) (s : store) (k : stp) : M calls stp :=
  k1 ← m_register c s k;
  match register_new_entity c s with
  | ROk s1 _ => m_on_ac (m_add_entity c a (st_ac s1)) k1
  | _ => mret k1
  end.
(** store.rs:131-136, 139-141, 179-182: an archetype is built, the entity is put into it, and the local archetype is dropped
    at the end of the block *)
Definition m_with_temporary (c : cfg) (a : archetype) (s : store) (k : stp) : M calls stp :=
  t ← m_arch_new (arch_count a);
  k1 ← m_on_ac (m_add_entity c a (st_ac s)) k;
  _ ← m_arch_drop t (arch_count a);
  mret k1.
(** store.rs:113-149, in add_components *)
Definition m_ensure_types (c : cfg) (e : entity) (T : list tid) (s : store) (k : stp) : M calls stp :=
  has ← lift (has_archetype s (e_id e));
  if (has : bool) then
    l ← lift (get_eia s (e_id e));
    ai ← lift (arch_index_by_page (st_ac s) (ea_page l));
    a ← lift (vget_unchecked (ac_archs (st_ac s)) ai);
    if is_include_ids c a T then mret k
    else
      new_arch ← lift (arch_new (sort_cts (bld_include (bld_include bld_new a) (ctype_of c <$> T))));
      m_with_temporary c new_arch s k
  else
    a ← lift (with_components c T);
    m_with_temporary c a s k.
(** store.rs:106-161 add_components *)
Definition m_add_components (c : cfg) (e : entity) (T : list tid) (s : store) (k : stp) : M calls stp :=
  alive ← lift (is_alive c s e);
  if negb alive then mret k else m_ensure_types c e T s k.
(** store.rs:163-185 remove_components *)
Definition m_remove_components (c : cfg) (e : entity) (T : list tid) (s : store) (k : stp) : M calls stp :=
  ok ← lift (is_valid_with_archetype c s e);
  if negb ok then mret k
  else
    l ← lift (get_eia s (e_id e));
    ai ← lift (arch_index_by_page (st_ac s) (ea_page l));
    a ← lift (vget_unchecked (ac_archs (st_ac s)) ai);
    new_arch ← lift (arch_new (sort_cts (bld_exclude (bld_include bld_new a) (ctype_of c <$> T))));
    m_with_temporary c new_arch s k.

(** The allocator calls of one call of the API (store.rs:53-228) on the store [s]. Calls not listed make none. *)
Definition m_step (c : cfg) (o : op) (s : store) (k : stp) : M calls stp :=
  match o with
  | OCreate => m_register c s k
  | OCreateWith a => m_create_with c a s k
  | OAdd e vals => m_add_components c e vals.*1 s k
  | ORemove e T => m_remove_components c e T s k
  | OTagAdd t _ => ps ← m_tags_add c (st_tags s) t (ps_tags k); mret (ps_set_tags ps k)
  | OOrdAdd g _ | OOrdNext g _ _ | OOrdPrev g _ _ =>
    o ← m_reserve_group c (st_orders s) g (ps_orders k); mret (ps_set_orders o k)
  | _ => mret k
  end.
(** store.rs:374-385 drop, followed by the drops of the fields in the order of their declaration *)
Definition m_store_drop (s : store) (k : stp) : M calls unit :=
  let capacity := ec_cap (st_ec s) in
  _ ← mem_dealloc u32_t (ps_idx k) capacity;
  _ ← mem_dealloc u32_t (ps_page k) capacity;
  _ ← bits_dealloc (ps_has k) capacity;
  _ ← m_ec_drop (st_ec s) (ps_ec k);
  _ ← m_ac_drop (st_ac s) (ps_ac k);
  _ ← m_tags_drop (st_tags s) (ps_tags k);
  m_orders_drop (st_orders s) (ps_orders k).

(** [run] of Run.v together with the calls made to the allocator. *)
Inductive mrun (c : cfg) (cap : N) : trace → store → stp → calls → Prop :=
| mrun_init s k h : store_with_capacity (c_mode c) cap = POk s → m_store_new cap [] = ROk h k → mrun c cap [] s k h
| mrun_step tr s k h o s' r k' h' :
    mrun c cap tr s k h → step c o s = ROk s' r → m_step c o s k h = ROk h' k' → mrun c cap (tr ++ [(o, r)]) s' k' h'.

(** Executable versions, for concrete examples *)
Fixpoint m_exec (c : cfg) (tr : trace) (s : store) (k : stp) : M calls (store * stp) :=
  match tr with
  | [] => mret (s, k)
  | (o, _) :: r =>
    k' ← m_step c o s k;
    match step c o s with
    | ROk s' _ => m_exec c r s' k'
    | _ => panic
    end
  end.
(** all calls made by a store created, used as in [tr], and dropped *)
Definition m_life (c : cfg) (cap : N) (tr : trace) : res calls unit :=
  match store_with_capacity (c_mode c) cap with
  | POk s => (k ← m_store_new cap; x ← m_exec c tr s k; m_store_drop x.1 x.2) []
  | _ => RPanic []
  end.

(** ** ResourceStore, for a resource type of the given size and alignment *)
Section resource.
Context {T : Type} (t : ety).

(** resource_store.rs:5-8 *)
Record rsp := RSP { pr_elems : N; pr_ec : ecp }.
(** resource_store.rs:11-16 new *)
Definition m_rs_new : M calls rsp := e ← m_ec_new 0; mret (RSP 0 e).
(** resource_store.rs:18-23 with_capacity *)
Definition m_rs_with_capacity (capacity : N) : M calls rsp :=
  p ← mem_alloc t capacity; e ← m_ec_new capacity; mret (RSP p e).
(** resource_store.rs:25-45 create *)
Definition m_rs_create (md : mode) (s : rs T) (k : rsp) : M calls rsp :=
  e ← m_ec_create (rs_ec s) (pr_ec k);
  match ec_create md (rs_ec s) with
  | ROk s1 cr =>
    if container_was_grow cr then
      p ← mem_realloc t (pr_elems k) (ec_cap (rs_ec s)) (ec_cap s1); mret (RSP p e)
    else mret (RSP (pr_elems k) e)
  | _ => mret (RSP (pr_elems k) e)
  end.
(** resource_store.rs:25-80: release and index_mut make no calls *)
Definition m_rstep (md : mode) (o : rop T) (s : rs T) (k : rsp) : M calls rsp :=
  match o with
  | RCreate _ => m_rs_create md s k
  | _ => mret k
  end.
(** resource_store.rs:82-92 drop, followed by the drop of the field entities_container *)
Definition m_rs_drop (s : rs T) (k : rsp) : M calls unit := m_ec_drop (rs_ec s) (pr_ec k).

(** [rrun] of Resource.v, for a store with the given initial state, with the calls made to the allocator. *)
Inductive mrrun (md : mode) (s0 : rs T) (new : M calls rsp) : rtrace T → rs T → rsp → calls → Prop :=
| mrrun_init k h : new [] = ROk h k → mrrun md s0 new [] s0 k h
| mrrun_step tr s k h o s' r k' h' :
    mrrun md s0 new tr s k h → rstep md o s = ROk s' r → m_rstep md o s k h = ROk h' k' →
    mrrun md s0 new (tr ++ [(o, r)]) s' k' h'.
End resource.
