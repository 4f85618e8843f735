(** Unwind.v — the calls made to the global allocator by calls of the API that panic, up to the panic and while the stack is
    unwound.

    A function [u_f s k] gives the allocator calls of f on a container whose contents are [s] and whose pointers are [k], and
    the pointers afterwards, whether f returns or panics; [w_f] is used for the case that f panics. Local variables that own
    blocks are dropped while unwinding; blocks known only by a raw pointer in a local variable are not freed. Panics inside
    the allocator and in user code are left out. *)
From Verif.Model Require Export Heap.
Local Open Scope N_scope.

(** go on if [p] returned; if it panicked, nothing further happens to the pointers [k] *)
Definition if_returned {A B} (p : pres A) (k : B) (f : A → M calls B) : M calls B :=
  match p with POk a => f a | _ => mret k end.

(** entities_container.rs:71-102 create_entity: the addition in line 78 comes before the growth, the one in line 93 after it *)
Definition w_ec_create (md : mode) (s : ec) (k : ecp) : M calls ecp :=
  match last (ec_gaps s) with
  | Some _ => mret k
  | None => if_returned (u32_add md (ec_next s) 1) k (λ _, m_ec_create s k)
  end.
(** store.rs:76-83 register_new_entity with 291-312 grow_entities_internal: a panic in create_entity, or in the subtraction of
    OrderGroupContainer::grow (order_group_container.rs:167), which comes before the links are reallocated *)
Definition w_register (c : cfg) (s : store) (k : stp) : M calls stp :=
  match ec_create (c_mode c) (st_ec s) with
  | ROk s1 cr =>
    e ← m_ec_create (st_ec s) (ps_ec k);
    let old := cr_before cr in let new := ec_cap s1 in
    p ← mem_realloc u32_t (ps_page k) old new;
    i ← mem_realloc u32_t (ps_idx k) old new;
    h ← bits_realloc (ps_has k) old new;
    t ← m_tags_grow (st_tags s) new (ps_tags k);
    mret (STP e (ps_ac k) t (ps_orders k) p i h)
  | _ => e ← w_ec_create (c_mode c) (st_ec s) (ps_ec k); mret (ps_set_ec e k)
  end.
(** store.rs:76-83 register_new_entity, returning or not *)
Definition u_register (c : cfg) (s : store) (k : stp) : M calls stp :=
  match register_new_entity c s with ROk _ _ => m_register c s k | _ => w_register c s k end.

(** tag_container.rs:32-52 add_tag: the bits are allocated before the two insertions, either of which may panic *)
Definition w_tags_add (c : cfg) (s : tags) (t : tid) (ps : list N) : M calls (list N) :=
  match c_bs c (tg_ids s) t with
  | BFound _ => mret ps
  | BMissing _ => _ ← bits_alloc (tg_cap s); mret ps
  end.
Definition u_tags_add (c : cfg) (s : tags) (t : tid) (id : N) (ps : list N) : M calls (list N) :=
  match tags_add c t id s with ROk _ _ => m_tags_add c s t ps | _ => w_tags_add c s t ps end.

(** order_group_container.rs:198-215 reserve_group: the first insertion comes before the allocations, the others after them *)
Definition w_reserve_group (c : cfg) (s : orders) (t : tid) (k : ogp) : M calls ogp :=
  match c_bs c (og_ids s) t with
  | BFound _ => mret k
  | BMissing i =>
    if_returned (vinsert (og_ids s) i t) k (λ _,
      f ← mem_alloc u32_t (og_cap s);
      b ← mem_alloc u32_t (og_cap s);
      if_returned (vinsert (po_fwd k) i f) k (λ fs,
        if_returned (vinsert (po_bwd k) i b) (OGP fs (po_bwd k)) (λ bs, mret (OGP fs bs))))
  end.
(** order_group_container.rs:198-216 reserve_group, returning or not *)
Definition u_reserve_group (c : cfg) (s : orders) (t : tid) (k : ogp) : M calls ogp :=
  match reserve_group c t s with ROk _ _ => m_reserve_group c s t k | _ => w_reserve_group c s t k end.

(** archetypes_container.rs:207-236 reserve_archetype. Places where it can panic: the removal in line 211; the layout, where
    calculate_entities_capacity (archetype_layout.rs:30-52) comes before the allocation of the offsets and the assertion of
    calculate_offsets (archetype_layout.rs:77) after it, when only a raw pointer knows the block; the two index expressions,
    where the new archetype and the layout are dropped. *)
Definition w_reserve_archetype (c : cfg) (a : archetype) (s : ac) (k : acp) : M calls acp :=
  match find_arch (ac_archs s) 0 a with
  | Some _ => mret k
  | None =>
    if_returned (calc_capacity (c_mode c) a) k (λ _,
      l ← m_layout_new (arch_count a);
      if_returned (layout_new (c_mode c) a) k (λ _,
        n ← m_arch_new (arch_count a);
        match last (ac_free_archs s) with
        | Some i =>
          match ac_archs s !! i, pc_archs k !! i with
          | Some old, Some oldp =>
            _ ← m_arch_drop oldp (arch_count old);
            _ ← m_layout_drop l (arch_count a);
            mret (ACP (<[i := n]> (pc_archs k)) (pc_layouts k) (pc_pages k))
          | _, _ => _ ← m_arch_drop n (arch_count a); _ ← m_layout_drop l (arch_count a); mret k
          end
        | None => mret k
        end))
  end.
(** archetypes_container.rs:207-236 reserve_archetype, returning or not *)
Definition u_reserve_archetype (c : cfg) (a : archetype) (s : ac) (k : acp) : M calls acp :=
  match reserve_archetype c a s with ROk _ _ => m_reserve_archetype a s k | _ => w_reserve_archetype c a s k end.
(** archetypes_container.rs:238-286 reserve_page: the index expressions before the new page may panic, those after it do not
    change what is allocated *)
Definition u_reserve_page (ai : nat) (s : ac) (k : acp) : M calls acp :=
  if_returned (vidx (ac_pages_of s) ai) k (λ ps,
    if_returned (find_room (ac_pages s) (reverse ps)) k (λ _, m_reserve_page ai s k)).
(** archetypes_container.rs:61-68 add_entity, and 95-126 move_entity_to_other_archetype, which begins in the same way *)
Definition u_add_entity (c : cfg) (a : archetype) (s : ac) (k : acp) : M calls acp :=
  k1 ← u_reserve_archetype c a s k;
  match reserve_archetype c a s with
  | ROk s1 ai => u_reserve_page ai s1 k1
  | _ => mret k1
  end.

(** store.rs:63-74 create_entity_with_archetype *)
Definition u_create_with (c : cfg) (a : archetype) (s : store) (k : stp) : M calls stp :=
  k1 ← u_register c s k;
  match register_new_entity c s with
  | ROk s1 _ => m_on_ac (u_add_entity c a (st_ac s1)) k1
  | _ => mret k1
  end.
(** store.rs:131-136, 139-141, 179-182: the local archetype is dropped at the end of the block, or while unwinding *)
Definition u_with_temporary (c : cfg) (a : archetype) (s : store) (k : stp) : M calls stp :=
  t ← m_arch_new (arch_count a);
  k1 ← m_on_ac (u_add_entity c a (st_ac s)) k;
  _ ← m_arch_drop t (arch_count a);
  mret k1.
(** store.rs:113-149, in add_components. Archetype::new (archetype.rs:28-62) asserts before it allocates. *)
Definition u_ensure_types (c : cfg) (e : entity) (T : list tid) (s : store) (k : stp) : M calls stp :=
  if_returned (has_archetype s (e_id e)) k (λ has : bool,
    if has then
      if_returned (get_eia s (e_id e)) k (λ l,
      if_returned (arch_index_by_page (st_ac s) (ea_page l)) k (λ ai,
      if_returned (vget_unchecked (ac_archs (st_ac s)) ai) k (λ a,
        if is_include_ids c a T then mret k
        else
          if_returned (arch_new (sort_cts (bld_include (bld_include bld_new a) (ctype_of c <$> T)))) k (λ new_arch,
            u_with_temporary c new_arch s k))))
    else
      if_returned (with_components c T) k (λ a, u_with_temporary c a s k)).
(** store.rs:106-161 add_components *)
Definition u_add_components (c : cfg) (e : entity) (T : list tid) (s : store) (k : stp) : M calls stp :=
  if_returned (is_alive c s e) k (λ alive : bool, if negb alive then mret k else u_ensure_types c e T s k).
(** store.rs:163-185 remove_components *)
Definition u_remove_components (c : cfg) (e : entity) (T : list tid) (s : store) (k : stp) : M calls stp :=
  if_returned (is_valid_with_archetype c s e) k (λ ok : bool,
    if negb ok then mret k
    else
      if_returned (get_eia s (e_id e)) k (λ l,
      if_returned (arch_index_by_page (st_ac s) (ea_page l)) k (λ ai,
      if_returned (vget_unchecked (ac_archs (st_ac s)) ai) k (λ a,
      if_returned (arch_new (sort_cts (bld_exclude (bld_include bld_new a) (ctype_of c <$> T)))) k (λ new_arch,
        u_with_temporary c new_arch s k))))).

(** The allocator calls of one call of the API (store.rs:53-228) on the store [s]. Calls not listed make none. *)
Definition u_step (c : cfg) (o : op) (s : store) (k : stp) : M calls stp :=
  match o with
  | OCreate => u_register c s k
  | OCreateWith a => u_create_with c a s k
  | OAdd e vals => u_add_components c e vals.*1 s k
  | ORemove e T => u_remove_components c e T s k
  | OTagAdd t e => ps ← u_tags_add c (st_tags s) t (e_id e) (ps_tags k); mret (ps_set_tags ps k)
  | OOrdAdd g _ | OOrdNext g _ _ | OOrdPrev g _ _ =>
    o ← u_reserve_group c (st_orders s) g (ps_orders k); mret (ps_set_orders o k)
  | _ => mret k
  end.

(** What became of a call. *)
Inductive outcome := Returned (r : out) | Panicked.
(** A call was made on the store [s] and is over; the store is now [s']. After a panic the caller catches it and goes on. *)
Definition ends (c : cfg) (o : op) (s : store) (x : outcome) (s' : store) : Prop :=
  match x with
  | Returned r => step c o s = ROk s' r
  | Panicked => step c o s = RPanic s'
  end.

(** [prun c cap tr s]: a store created with capacity [cap] went through the calls of [tr], some of which may have panicked, and
    is now [s]. *)
Inductive prun (c : cfg) (cap : N) : list (op * outcome) → store → Prop :=
| prun_init s : store_with_capacity (c_mode c) cap = POk s → prun c cap [] s
| prun_step tr s o x s' : prun c cap tr s → ends c o s x s' → prun c cap (tr ++ [(o, x)]) s'.
(** The same with the calls made to the allocator. *)
Inductive pmrun (c : cfg) (cap : N) : list (op * outcome) → store → stp → calls → Prop :=
| pmrun_init s k h : store_with_capacity (c_mode c) cap = POk s → m_store_new cap [] = ROk h k → pmrun c cap [] s k h
| pmrun_step tr s k h o x s' k' h' :
    pmrun c cap tr s k h → ends c o s x s' → u_step c o s k h = ROk h' k' → pmrun c cap (tr ++ [(o, x)]) s' k' h'.

(** Executable version, for concrete examples: makes the calls, catching panics; the outcomes, the store and the pointers at the end. *)
Fixpoint p_exec (c : cfg) (ops : list (list entity → op)) (hs : list entity) (tr : list (op * outcome)) (s : store) (k : stp)
    : M calls (list (op * outcome) * store * stp) :=
  match ops with
  | [] => mret (tr, s, k)
  | o :: r =>
    k' ← u_step c (o hs) s k;
    match step c (o hs) s with
    | ROk s' x => p_exec c r (match x with Some e => hs ++ [e] | None => hs end) (tr ++ [(o hs, Returned x)]) s' k'
    | RPanic s' => p_exec c r hs (tr ++ [(o hs, Panicked)]) s' k'
    | RUB w => lift (PUB w)
    end
  end.
Definition p_exec0 (c : cfg) (cap : N) (ops : list (list entity → op)) : res calls (list (op * outcome) * store * stp) :=
  match store_with_capacity (c_mode c) cap with
  | POk s => (k ← m_store_new cap; p_exec c ops [] [] s k) []
  | _ => RPanic []
  end.
