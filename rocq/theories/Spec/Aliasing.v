(** Aliasing.v — references handed out at the same time. *)
From Verif.Model Require Import Heap.
From Verif.Spec Require Export Queries Components Orders.
Local Open Scope N_scope.

(** Where references come from: get_components_refs(_mut) for an entity, or an iterator run to its end. *)
Inductive source := FromEntity (e : entity) | FromComponents | FromEntities (ents : list entity) | FromOrdered (g : tid).
(** The references returned, one list for each item. In it the references for reading come first, then the exclusive ones.
    All these borrow the store as shared (store.rs:235, query/component.rs:62, query/entity_component.rs:59,
    query/ordered_component.rs:66), except get_components_refs_mut. *)
Definition hands_out (c : cfg) (s : store) (src : source) (q : access) (l : list (list cref)) : Prop :=
  match src with
  | FromEntity e => ∃ rs, get_components_refs c s e (q_types q) = POk (Some rs) ∧ l = [rs]
  | FromComponents => ∃ it it', component_query c q s = POk it ∧ yields qiter_next it l it'
  | FromEntities ents => ∃ it it', entity_query c q s ents = POk it ∧ yields eiter_next it l it'
  | FromOrdered g => ∃ fuel it it', ordered_query fuel c q s g = Some (POk it) ∧ yields oiter_next it l it'
  end.

(** No byte of an exclusive reference belongs to another reference of the same source. *)
Definition exclusive (q : access) (l : list (list cref)) : Prop :=
  ∀ n1 n2 x1 x2 i1 i2 r1 r2 p b, l !! n1 = Some x1 → l !! n2 = Some x2 → x1 !! i1 = Some r1 → x2 !! i2 = Some r2 →
    (length (q_read q) ≤ i1)%nat → covers r1 p b → covers r2 p b → n1 = n2 ∧ i1 = i2.
(** Bytes of references of two sources are only shared for reading. *)
Definition exclusive_of (q1 : access) (l1 : list (list cref)) (q2 : access) (l2 : list (list cref)) : Prop :=
  ∀ x1 x2 i1 i2 r1 r2 p b, x1 ∈ l1 → x2 ∈ l2 → x1 !! i1 = Some r1 → x2 !! i2 = Some r2 → covers r1 p b → covers r2 p b →
    (i1 < length (q_read q1))%nat ∧ (i2 < length (q_read q2))%nat.

(** Sources whose results are known (C32, C36, C37). [once]: no entity is listed twice. *)
Definition known (tr : trace) (src : source) : Prop :=
  match src with
  | FromEntity e => e ∈ issued tr
  | FromComponents => True
  | FromEntities ents => ∀ e, e ∈ ents → had_components tr e
  | FromOrdered g => orders_proper tr ∧ ∀ e, e ∈ members tr g → had_components tr e
  end.
Definition once (src : source) : Prop := match src with FromEntities ents => NoDup ents | _ => True end.
(** What one of them writes, the other does not access. *)
Definition compatible (q1 q2 : access) : Prop :=
  (∀ t, t ∈ q_write q1 → t ∉ q_types q2) ∧ (∀ t, t ∈ q_write q2 → t ∉ q_types q1).
(** The claim that references of one source are exclusive, for sources and accesses that meet [P]. *)
Definition single_exclusive (P : source → access → Prop) : Prop :=
  ∀ c cap tr s src q l, cfg_ok c → c_mode c = Debug → hrun c cap tr s → q_types q ≠ [] → known tr src → P src q →
    hands_out c s src q l → exclusive q l.

(** ** What a reference must be: aligned, of its type's size, inside its allocation, pointing to initialised memory *)
(** Rust's types: sizes are multiples of the alignment. *)
Definition rust_types (c : cfg) : Prop := ∀ t, (ti_align (c_ty c t) | ti_size (c_ty c t)).
(** The addresses of the pages, as the allocator may choose them for the layout asked for (mem_utils::alloc::<u8>). *)
Definition page_addresses (base : nat → N) : Prop := ∀ p, (la_align (layout_of u8_t PAGE) | base p).
Definition aligned (c : cfg) (base : nat → N) (q : access) (l : list (list cref)) : Prop :=
  ∀ x i t r, x ∈ l → q_types q !! i = Some t → x !! i = Some r → (ti_align (c_ty c t) | base (r_page r) + r_off r).
Definition in_bounds (c : cfg) (s : store) (q : access) (l : list (list cref)) : Prop :=
  ∀ x, x ∈ l → length x = length (q_types q) ∧ ∀ i t r, q_types q !! i = Some t → x !! i = Some r →
    r_len r = ti_size (c_ty c t) ∧ r_off r + r_len r ≤ PAGE ∧ is_Some (ac_pages (st_ac s) !! r_page r).
Definition initialised (s : store) (l : list (list cref)) : Prop :=
  ∀ x r, x ∈ l → r ∈ x → Forall is_Some (read_ref (ac_pages (st_ac s)) r).
(** create_entity_with_archetype is not used. *)
Definition given (tr : trace) : Prop := ∀ a r, (OCreateWith a, r) ∉ tr.
(** The components of [e] that have no value yet: create_entity_with_archetype makes all of them such; adding, setting and writing
    give values. [S]: the types of [e], see Spec/Components.v. *)
Definition unset_step (e : entity) (S : option (gset tid)) (u : gset tid) (o : op) (r : option entity) : gset tid :=
  match o with
  | OCreate => if decide (r = Some e) then ∅ else u
  | OCreateWith a => if decide (r = Some e) then list_to_set (arch_ids a) else u
  | ODestroy e' => if decide (e' = e) then ∅ else u
  | OAdd e' vals => if decide (e' = e) then u ∖ list_to_set vals.*1 else u
  | ORemove e' T => if decide (e' = e) then u ∖ list_to_set T else u
  | OSet e' vals => if decide (e' = e ∧ list_to_set vals.*1 ⊆ default ∅ S) then u ∖ list_to_set vals.*1 else u
  | OWrite q _ => if decide (list_to_set (q_types q) ⊆ default ∅ S) then u ∖ list_to_set (q_write q) else u
  | _ => u
  end.
Definition unset (tr : trace) (e : entity) : gset tid :=
  (foldl (λ x or, (types_step e x.1 or.1 or.2, unset_step e x.1 x.2 or.1 or.2)) (None, ∅) tr).2.
(** All components of these types have been given a value. *)
Definition assigned (tr : trace) (T : list tid) : Prop := ∀ e t, alive_in tr e → t ∈ T → t ∉ unset tr e.
