(** Components.v — components of entities: C07 - C13.
    [hrun]: histories of an entity store in which the archetype each call puts its entity in was healthy (see
    Spec/Components.v), with distinct component types in each tuple and archetypes of which a page holds at least one row. *)
From Verif.Spec Require Import Env Handles Components.
From Verif.Proofs Require Import CompX.
Local Open Scope N_scope.

(** C07: what can be observed of the components of any handle is what the history says. *)
Theorem C07_values_persist : ∀ c cap tr s e,
  cfg_ok c → c_mode c = Debug → hrun c cap tr s → e_id e < entities_capacity s →
  ∃ x, comps tr e x ∧ observed c s e x ∧ (is_Some x ↔ alive_in tr e).
Proof. exact (λ c cap tr s e Hc Hmd, values_persist c Hc Hmd cap tr s e). Qed.
Print Assumptions C07_values_persist.
(** One call at a time: the observation after the call follows from the one before. *)
Theorem C07_values_step : ∀ c cap tr s o s' r e x,
  cfg_ok c → c_mode c = Debug → hrun c cap tr s → healthy c (st_ac s) (asks tr o) → args_ok c o → room c tr o →
  step c o s = ROk s' r → e_id e < entities_capacity s → observed c s e x →
  ∃ x', comp_step e x o r x' ∧ observed c s' e x'.
Proof. exact (λ c cap tr s o s' r e x Hc Hmd, step_observed c Hc Hmd cap tr s o s' r e x). Qed.
Print Assumptions C07_values_step.
(** An observation determines the component map. *)
Theorem C07_observation_unique : ∀ c s e x y, observed c s e x → observed c s e y → x = y.
Proof. exact observed_inj. Qed.
Print Assumptions C07_observation_unique.
Example C07_example :
  let c := ex_cfg Debug in let tr := end_trace c 1 ex_comps in let s := end_store c 1 ex_comps in
  hrun c 1 tr s ∧ entities_capacity s = 4 ∧
  read_components c s (Entity 0 1) [3; 1] = POk (Some [[Some 99]; [Some 50; Some 51; Some 52; Some 53]]) ∧
  read_components c s (Entity 1 1) [1; 2] = POk (Some [Some <$> [60; 61; 62; 63]; Some <$> [21; 22; 23; 24; 25; 26; 27; 28]]) ∧
  read_components c s (Entity 2 2) [4] = POk (Some [[Some 8; Some 9]]) ∧
  read_components c s (Entity 2 2) [3] = POk None ∧ read_components c s (Entity 2 1) [3] = POk None.
Proof.
  intros c tr s. split; [apply hend_run; vm_compute; reflexivity|]. vm_compute. done.
Qed.

(** C08: a call leaves the components of the other live entities alone. *)
Theorem C08_others_untouched : ∀ c cap tr s o s' r e x,
  cfg_ok c → c_mode c = Debug → hrun c cap tr s → healthy c (st_ac s) (asks tr o) → args_ok c o → room c tr o →
  step c o s = ROk s' r → alive_in tr e → concerns o e = false → observed c s e x → observed c s' e x.
Proof. exact (λ c cap tr s o s' r e x Hc Hmd, others_untouched c Hc Hmd cap tr s o s' r e x). Qed.
Print Assumptions C08_others_untouched.
(** Destroying entity 0 moves the row of entity 1. *)
Example C08_example :
  let c := ex_cfg Debug in let ops := take 4 ex_comps in
  let s := end_store c 1 ops in let s' := end_store c 1 (ops ++ [λ hs, ODestroy (h 0 hs)]) in
  hend_ok c 1 (ops ++ [λ hs, ODestroy (h 0 hs)]) = true ∧
  concerns (ODestroy (Entity 0 1)) (Entity 1 1) = false ∧
  get_index_in_page s 1 = POk 1%nat ∧ get_index_in_page s' 1 = POk 0%nat ∧
  read_components c s (Entity 1 1) [1; 2] = read_components c s' (Entity 1 1) [1; 2] ∧
  read_components c s' (Entity 1 1) [1] = POk (Some [Some <$> [31; 32; 33; 34]]).
Proof. vm_compute. done. Qed.

(** C09: add_components returns, sets the given values and keeps the others. *)
Theorem C09_add_union : ∀ c cap tr s e vals m,
  cfg_ok c → c_mode c = Debug → hrun c cap tr s → healthy_for c (st_ac s) (dom m ∪ list_to_set vals.*1) →
  e_id e < entities_capacity s →
  observed c s e (Some m) → vals ≠ [] → NoDup vals.*1 → vals_ok c vals → fits_types c (dom m ∪ list_to_set vals.*1) →
  ∃ s' m', add_components c e vals s = ROk s' () ∧ observed c s' e (Some m') ∧
    (∀ t v, (t, v) ∈ vals → m' !! t = Some (Some <$> v)) ∧ (∀ t, t ∉ vals.*1 → m' !! t = m !! t).
Proof. exact (λ c cap tr s e vals m Hc Hmd, add_union c Hc Hmd cap tr s e vals m). Qed.
Print Assumptions C09_add_union.
Example C09_example :
  let c := ex_cfg Debug in let s := end_store c 1 (take 6 ex_comps) in let s' := end_store c 1 (take 7 ex_comps) in
  read_components c s (Entity 0 1) [1; 2] = POk (Some [Some <$> [10; 11; 12; 13]; Some <$> [1; 2; 3; 4; 5; 6; 7; 8]]) ∧
  read_components c s' (Entity 0 1) [1; 2; 3] = POk (Some [Some <$> [50; 51; 52; 53]; Some <$> [1; 2; 3; 4; 5; 6; 7; 8]; [Some 99]]) ∧
  fits_typesb c ({[1; 2]} ∪ list_to_set [3; 1]) = true.
Proof. vm_compute. done. Qed.

(** C10: remove_components returns, the given types are gone and the other values are kept. *)
Theorem C10_remove_diff : ∀ c cap tr s e T m,
  cfg_ok c → c_mode c = Debug → hrun c cap tr s → healthy_for c (st_ac s) (dom m ∖ list_to_set T) →
  e_id e < entities_capacity s →
  observed c s e (Some m) → (m = ∅ ∨ ∃ t, is_Some (m !! t) ∧ t ∉ T) → fits_types c (dom m ∖ list_to_set T) →
  ∃ s' m', remove_components c e T s = ROk s' () ∧ observed c s' e (Some m') ∧
    (∀ t, t ∈ T → m' !! t = None) ∧ (∀ t, t ∉ T → m' !! t = m !! t).
Proof. exact (λ c cap tr s e T m Hc Hmd, remove_diff c Hc Hmd cap tr s e T m). Qed.
Print Assumptions C10_remove_diff.
Example C10_example :
  let c := ex_cfg Debug in let s := end_store c 1 (take 8 ex_comps) in let s' := end_store c 1 (take 9 ex_comps) in
  ids_of_arch (get_entity_archetype c s (Entity 0 1)) = Some [1; 2; 3] ∧
  ids_of_arch (get_entity_archetype c s' (Entity 0 1)) = Some [1; 3] ∧
  read_components c s' (Entity 0 1) [3; 1] = POk (Some [[Some 99]; Some <$> [50; 51; 52; 53]]).
Proof. vm_compute. done. Qed.

(** C11: access succeeds exactly when the entity is alive and has the types. [observed] contains the exact archetype. *)
Theorem C11_access_exact : ∀ c cap tr s e,
  cfg_ok c → c_mode c = Debug → hrun c cap tr s → e_id e < entities_capacity s →
  ∃ x, comps tr e x ∧ observed c s e x ∧ ∀ T, T ≠ [] →
    (∃ rs, get_components_refs c s e T = POk (Some rs) ∧ ∃ m, x = Some m ∧ ∀ t, t ∈ T → is_Some (m !! t)) ∨
    (get_components_refs c s e T = POk None ∧ ¬ ∃ m, x = Some m ∧ ∀ t, t ∈ T → is_Some (m !! t)).
Proof. exact (λ c cap tr s e Hc Hmd, access_exact c Hc Hmd cap tr s e). Qed.
Print Assumptions C11_access_exact.
Example C11_example :
  let c := ex_cfg Debug in let s := end_store c 1 ex_comps in
  get_components_refs c s (Entity 0 1) [1; 2] = POk None ∧ get_components_refs c s (Entity 0 1) [3; 1] ≠ POk None ∧
  get_components_refs c s (Entity 3 1) [1] = POk None ∧ get_entity_archetype c s (Entity 2 1) = POk None ∧
  ids_of_arch (get_entity_archetype c s (Entity 2 2)) = Some [4].
Proof. vm_compute. split_and!; done. Qed.

(** C12: component calls on a handle that is not alive change and return nothing, in both build modes ... *)
Theorem C12_dead_handles_ignored : ∀ c s e vals T, is_alive c s e = POk false →
  add_components c e vals s = ROk s () ∧ remove_components c e T s = ROk s () ∧ set_components c e vals s = ROk s () ∧
  get_components_refs c s e T = POk None ∧ get_entity_archetype c s e = POk None.
Proof. exact dead_noop. Qed.
Print Assumptions C12_dead_handles_ignored.
(** ... and in a debug build the handles that is_alive answers false for are the dead ones. *)
Theorem C12_dead_is_not_alive : ∀ c cap tr s e,
  c_mode c = Debug → run c cap tr s → e_id e < entities_capacity s → ¬ alive_in tr e → is_alive c s e = POk false.
Proof. exact (λ c cap tr s e Hmd, dead_alive c Hmd cap tr s e). Qed.
Print Assumptions C12_dead_is_not_alive.
Example C12_example :
  let s := end_store (ex_cfg Release) 1 ex_comps in let c := ex_cfg Release in
  is_alive c s (Entity 2 1) = POk false ∧ is_alive c s (Entity 2 2) = POk true ∧ is_alive c s (Entity 3 1) = POk true ∧
  is_alive c s (Entity 3 0) = POk false ∧ end_ok (ex_cfg Release) 1 ex_comps = true.
Proof. vm_compute. done. Qed.

(** C13: removing all components panics, and the store is exactly as before. *)
Theorem C13_remove_all_rejected : ∀ c cap tr s e T m,
  cfg_ok c → c_mode c = Debug → hrun c cap tr s → e_id e < entities_capacity s →
  observed c s e (Some m) → m ≠ ∅ → (∀ t, is_Some (m !! t) → t ∈ T) → remove_components c e T s = RPanic s.
Proof. exact (λ c cap tr s e T m Hc Hmd, remove_all_panics c Hc Hmd cap tr s e T m). Qed.
Print Assumptions C13_remove_all_rejected.
Example C13_example :
  let c := ex_cfg Debug in let s := end_store c 1 ex_comps in
  ids_of_arch (get_entity_archetype c s (Entity 0 1)) = Some [1; 3] ∧
  match remove_components c (Entity 0 1) [3; 2; 1] s with RPanic _ => True | _ => False end ∧
  match remove_components c (Entity 0 1) [3; 2] s with ROk _ _ => True | _ => False end.
Proof. vm_compute. done. Qed.
