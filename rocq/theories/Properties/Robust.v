(** Robust.v — the null handle, panicking calls, growth, contents of new components: C47 - C50. *)
From Verif.Spec Require Import Env Handles Tags Orders Components.
From Verif.Proofs Require Import RobustP StaleP.
Local Open Scope N_scope.

(** C47 does not hold: in a release build is_alive reads out of bounds for the null handle, ... *)
Theorem C47_null_is_alive_refuted : ¬ ∀ c cap tr s, cfg_ok c → c_mode c = Release → run c cap tr s →
  is_alive c s entity_null = POk false ∨ is_alive c s entity_null = PPanic.
Proof. exact null_release_refuted. Qed.
Print Assumptions C47_null_is_alive_refuted.
(** ... always, for any id not below the capacity. *)
Theorem C47_is_alive_out_of_bounds : ∀ c cap tr s e, c_mode c = Release → run c cap tr s → entities_capacity s ≤ e_id e →
  is_alive c s e = PUB OutOfBounds.
Proof. exact alive_release_beyond. Qed.
Print Assumptions C47_is_alive_out_of_bounds.
(** destroy_entity reads out of bounds in both builds, ... *)
Theorem C47_null_destroy_refuted : ∀ md, ¬ ∀ c cap tr s, cfg_ok c → c_mode c = md → run c cap tr s →
  ∀ w, step c (ODestroy entity_null) s ≠ RUB w.
Proof. exact null_destroy_refuted. Qed.
Print Assumptions C47_null_destroy_refuted.
Theorem C47_destroy_out_of_bounds : ∀ c cap tr s e, run c cap tr s → entities_capacity s + 32 ≤ e_id e →
  step c (ODestroy e) s = RUB OutOfBounds.
Proof. exact destroy_beyond. Qed.
Print Assumptions C47_destroy_out_of_bounds.
(** ... and so do the tag operations. *)
Theorem C47_null_tag_refuted : ∀ md, ¬ ∀ c cap tr s t, cfg_ok c → c_mode c = md → run c cap tr s →
  ∀ w, has_tag c s t entity_null ≠ PUB w.
Proof. exact null_tag_refuted. Qed.
Print Assumptions C47_null_tag_refuted.
Theorem C47_add_tag_out_of_bounds : ∀ c cap tr s t e, search_ok (c_bs c) → run c cap tr s → entities_capacity s + 32 ≤ e_id e →
  step c (OTagAdd t e) s = RUB OutOfBounds.
Proof. exact add_tag_beyond. Qed.
Print Assumptions C47_add_tag_out_of_bounds.
(** What holds: in a debug build is_alive and all component calls panic, without changing anything. Missing: release
    builds, destroy_entity and the tag operations, which go wrong. *)
Theorem C47_beyond_detected_partial : ∀ c s e, c_mode c = Debug → entities_capacity s ≤ e_id e →
  is_alive c s e = PPanic ∧
  (∀ vals, add_components c e vals s = RPanic s ∧ set_components c e vals s = RPanic s) ∧
  (∀ T, remove_components c e T s = RPanic s ∧ get_components_refs c s e T = PPanic) ∧
  get_entity_archetype c s e = PPanic.
Proof. exact beyond_detected. Qed.
Print Assumptions C47_beyond_detected_partial.
Example C47_example :
  let s md := end_store (ex_cfg md) 4 null_tagged in
  is_alive (ex_cfg Debug) (s Debug) entity_null = PPanic ∧ is_alive (ex_cfg Release) (s Release) entity_null = PUB OutOfBounds ∧
  destroy_entity (ex_cfg Debug) entity_null (s Debug) = RUB OutOfBounds ∧
  destroy_entity (ex_cfg Release) entity_null (s Release) = RUB OutOfBounds ∧
  has_tag (ex_cfg Debug) (s Debug) 9 entity_null = PUB OutOfBounds.
Proof. vm_compute. done. Qed.

(** C48 does not hold: destroying a handle twice panics after a row of another entity has been removed, ... *)
Theorem C48_panic_changes_nothing_refuted : ¬ ∀ c cap tr s o s' e T x, cfg_ok c → c_mode c = Debug → hrun c cap tr s → healthy c (st_ac s) (asks tr o) →
  args_ok c o → room c tr o → step c o s = RPanic s' → alive_in tr e → read_components c s e T = POk x → read_components c s' e T = POk x.
Proof. exact panic_refuted. Qed.
Print Assumptions C48_panic_changes_nothing_refuted.
(** ... and creating an entity with an archetype too large for a page panics after the entity was made. *)
Theorem C48_panicking_creation_refuted : ¬ ∀ c cap tr s o s' e b, cfg_ok c → c_mode c = Debug → hrun c cap tr s → args_ok c o →
  step c o s = RPanic s' → is_alive c s e = POk b → is_alive c s' e = POk b.
Proof. exact leak_refuted. Qed.
Print Assumptions C48_panicking_creation_refuted.
(** What holds: component calls and queries in page-healthy states, ... *)
Theorem C48_component_calls_partial : ∀ c cap tr s o s',
  cfg_ok c → c_mode c = Debug → hrun c cap tr s → healthy c (st_ac s) (asks tr o) → args_ok c o → room c tr o →
  match o with OAdd _ _ | ORemove _ _ | OSet _ _ | OWrite _ _ => True | _ => False end →
  step c o s = RPanic s' → s' = s.
Proof. exact (λ c cap tr s o s' Hc Hmd, component_panic_clean c Hc Hmd cap tr s o s'). Qed.
Print Assumptions C48_component_calls_partial.
(** ... order calls, whatever their arguments, after a proper history, ... *)
Theorem C48_order_calls_partial : ∀ c cap tr s o s',
  search_ok (c_bs c) → c_mode c = Debug → run c cap tr s → orders_proper tr →
  match o with OOrdAdd _ _ | OOrdNext _ _ _ | OOrdPrev _ _ _ | OOrdDel _ _ => True | _ => False end →
  step c o s = RPanic s' → s' = s.
Proof. exact (λ c cap tr s o s' Hbs, order_panic_clean c Hbs cap tr s o s'). Qed.
Print Assumptions C48_order_calls_partial.
(** ... tag calls, which never panic, ... *)
Theorem C48_tag_calls_partial : ∀ c cap tr s o s',
  search_ok (c_bs c) → run c cap tr s → match o with OTagAdd _ _ | OTagDel _ _ => True | _ => False end →
  step c o s ≠ RPanic s'.
Proof. exact (λ c cap tr s o s' Hbs, tag_panic_clean c Hbs cap tr s o s'). Qed.
Print Assumptions C48_tag_calls_partial.
(** ... and the destruction of a stale handle whose id is now used by an entity without components. Missing: other
    destructions of dead handles and creations, which go wrong: the former take at most one row away (below). *)
Theorem C48_destroy_stale_partial : ∀ c cap tr s e e',
  cfg_ok c → c_mode c = Debug → run c cap tr s → ¬ alive_in tr e → e_id e' = e_id e → alive_in tr e' →
  get_entity_archetype c s e' = POk None → step c (ODestroy e) s = RPanic s.
Proof. exact (λ c cap tr s e e' Hc Hmd, destroy_stale_clean c Hc Hmd cap tr s e e'). Qed.
Print Assumptions C48_destroy_stale_partial.
(** The destruction of any dead handle: handles, tags and orders stay as they are, and at most one entity can be damaged. *)
Theorem C48_destroy_confined_partial : ∀ c cap tr s e s',
  cfg_ok c → c_mode c = Debug → hrun c cap tr s → ¬ alive_in tr e → step c (ODestroy e) s = RPanic s' →
  (st_ec s', st_tags s', st_orders s') = (st_ec s, st_tags s, st_orders s) ∧
  ∃ e0, ∀ e2 x, e2 ≠ e0 → e_id e2 < entities_capacity s → observed c s e2 x → observed c s' e2 x.
Proof. exact (λ c cap tr s e s' Hc, destroy_confined c Hc cap tr s e s'). Qed.
Print Assumptions C48_destroy_confined_partial.
(** As below: entity 2 is damaged, entity 1 is not, although its row is moved. *)
Example C48_confined_example :
  let c := ex_cfg Debug in let s := end_store c 4 twice_three in
  let s' := left_by (step c (ODestroy (Entity 0 1)) s) s in
  read_components c s (Entity 1 1) [1] = POk (Some [Some <$> [2; 2; 2; 2]]) ∧
  read_components c s' (Entity 1 1) [1] = POk (Some [Some <$> [2; 2; 2; 2]]) ∧
  get_eia s 1 ≠ get_eia s' 1.
Proof. vm_compute. split_and!; try done. Qed.
(** The second destruction: entity 2 now has the value of entity 1. And a panic that changes nothing. *)
Example C48_example :
  let c := ex_cfg Debug in let s := end_store c 4 twice_three in
  let s' := left_by (step c (ODestroy (Entity 0 1)) s) s in
  is_panic (step c (ODestroy (Entity 0 1)) s) = true ∧ is_alive c s (Entity 2 1) = POk true ∧
  read_components c s (Entity 2 1) [1] = POk (Some [Some <$> [3; 3; 3; 3]]) ∧
  read_components c s' (Entity 2 1) [1] = POk (Some [Some <$> [2; 2; 2; 2]]) ∧
  is_panic (step c (ORemove (Entity 2 1) [1]) s) = true ∧
  read_components c (left_by (step c (ORemove (Entity 2 1) [1]) s) s) (Entity 2 1) [1] = POk (Some [Some <$> [3; 3; 3; 3]]).
Proof. vm_compute. done. Qed.

(** C49: a creation, in particular one that grows the store, changes nothing observable of the existing entities. *)
Theorem C49_growth_invisible : ∀ c cap tr s o s' r,
  cfg_ok c → c_mode c = Debug → hrun c cap tr s → healthy c (st_ac s) (asks tr o) → args_ok c o → room c tr o →
  match o with OCreate | OCreateWith _ => True | _ => False end → step c o s = ROk s' r →
  (∀ e x, alive_in tr e → observed c s e x → observed c s' e x) ∧
  (∀ e t, e_id e < entities_capacity s → has_tag c s' t e = has_tag c s t e) ∧
  (orders_proper tr → ∀ g, first_ordered c s' g = first_ordered c s g ∧ last_ordered c s' g = last_ordered c s g ∧
    ∀ e, alive_in tr e → next_ordered c s' g e = next_ordered c s g e ∧ previous_ordered c s' g e = previous_ordered c s g e).
Proof. exact (λ c cap tr s o s' r Hc Hmd, growth_invisible c Hc Hmd cap tr s o s' r). Qed.
Print Assumptions C49_growth_invisible.
Definition ex_grow : list (list entity → op) :=
  [ λ _, OCreate; λ hs, OAdd (h 0 hs) [(1, [1; 2; 3; 4])]; λ _, OCreate; λ hs, OTagAdd 9 (h 1 hs);
    λ hs, OOrdAdd 8 (h 1 hs); λ hs, OOrdAdd 8 (h 0 hs) ].
Example C49_example :
  let c := ex_cfg Debug in let s := end_store c 2 ex_grow in let s' := end_store c 2 (ex_grow ++ [λ _, OCreateWith (ex_arch [1])]) in
  hend_ok c 2 (ex_grow ++ [λ _, OCreateWith (ex_arch [1])]) = true ∧ proper_check [] (end_trace c 2 ex_grow) = true ∧
  entities_capacity s = 2 ∧ entities_capacity s' = 4 ∧
  read_components c s' (Entity 0 1) [1] = POk (Some [Some <$> [1; 2; 3; 4]]) ∧
  has_tag c s' 9 (Entity 1 1) = POk true ∧ has_tag c s' 9 (Entity 0 1) = POk false ∧
  first_ordered c s' 8 = POk (Some (Entity 1 1)) ∧ next_ordered c s' 8 (Entity 1 1) = POk (Some (Entity 0 1)).
Proof. vm_compute. done. Qed.

(** C50 does not hold: create_entity_with_archetype leaves the components uninitialised, ... *)
Theorem C50_initialised_refuted : ¬ ∀ c cap tr s e T vs, cfg_ok c → c_mode c = Debug → hrun c cap tr s → alive_in tr e →
  read_components c s e T = POk (Some vs) → Forall (Forall is_Some) vs.
Proof. exact uninit_refuted. Qed.
Print Assumptions C50_initialised_refuted.
(** ... or with the bytes of a destroyed entity. *)
Theorem C50_stale_bytes_refuted : ¬ ∀ c cap tr s e0 a e s' t v, cfg_ok c → c_mode c = Debug → hrun c cap tr s →
  hrun c cap (tr ++ [(ODestroy e0, None); (OCreateWith a, Some e)]) s' →
  read_components c s e0 [t] = POk (Some [v]) → v ≠ [] → Forall is_Some v → read_components c s' e [t] ≠ POk (Some [v]).
Proof. exact stale_refuted. Qed.
Print Assumptions C50_stale_bytes_refuted.
(** What holds: all components of entities made by create_entity are initialised at all times, ... *)
Theorem C50_create_entity_partial : ∀ c cap tr s e T vs,
  cfg_ok c → c_mode c = Debug → hrun c cap tr s → (∀ a, (OCreateWith a, Some e) ∉ tr) → T ≠ [] →
  read_components c s e T = POk (Some vs) → Forall (Forall is_Some) vs.
Proof. exact (λ c cap tr s e T vs Hc Hmd, reads_initialised c Hc Hmd cap tr s e T vs). Qed.
Print Assumptions C50_create_entity_partial.
(** ... and assigning all components of any entity initialises them. *)
Theorem C50_assigned_partial : ∀ c cap tr s e vals m,
  cfg_ok c → c_mode c = Debug → hrun c cap tr s → healthy_for c (st_ac s) (dom m) → e_id e < entities_capacity s →
  observed c s e (Some m) → vals ≠ [] → NoDup vals.*1 → vals_ok c vals → (∀ t, is_Some (m !! t) ↔ t ∈ vals.*1) → fits_types c (dom m) →
  ∃ s', add_components c e vals s = ROk s' () ∧ ∀ t v, (t, v) ∈ vals → read_components c s' e [t] = POk (Some [Some <$> v]).
Proof. exact (λ c cap tr s e vals m Hc Hmd, assigned_initialised c Hc Hmd cap tr s e vals m). Qed.
Print Assumptions C50_assigned_partial.
Example C50_example :
  let c := ex_cfg Debug in
  hend_ok c 4 stale_bytes = true ∧ read_components c (end_store c 4 stale_bytes) (Entity 0 2) [1] = POk (Some [Some <$> [7; 8; 9; 10]]) ∧
  read_components c (end_store c 4 fresh_bytes) (Entity 0 1) [1] = POk (Some [[None; None; None; None]]) ∧
  read_components c (end_store c 4 (fresh_bytes ++ [λ hs, OAdd (h 0 hs) [(1, [1; 2; 3; 4])]])) (Entity 0 1) [1] = POk (Some [Some <$> [1; 2; 3; 4]]).
Proof. vm_compute. done. Qed.
