(** Aliasing.v — the references handed out by component accesses and queries: C55 - C57.
    [hands_out c s src q l]: the source [src] with access [q] returns the references [l] (Spec/Aliasing.v).
    [known]: the listed entities, or the members of the group, have had components. *)
From Verif.Spec Require Import Env Handles Components Queries Aliasing.
From Verif.Proofs Require Import AliasP.
Local Open Scope N_scope.

(** C55: exclusive references are not exclusive in general. An entity listed twice in an entity query, ... *)
Theorem C55_listed_twice_refuted : ¬ single_exclusive (λ _ q, NoDup (q_types q)).
Proof. exact listed_twice. Qed.
Print Assumptions C55_listed_twice_refuted.
(** ... a type named twice in get_components_refs_mut or in a query, ... *)
Theorem C55_type_twice_refuted : ¬ single_exclusive (λ src _, src = FromEntity (Entity 1 1)) ∧ ¬ single_exclusive (λ src _, src = FromComponents).
Proof. exact (conj (type_twice _ (or_introl eq_refl)) (type_twice _ (or_intror eq_refl))). Qed.
Print Assumptions C55_type_twice_refuted.
(** ... a type both read and written by a query, ... *)
Theorem C55_read_and_write_refuted : ¬ single_exclusive (λ src q, src = FromComponents ∧ NoDup (q_read q) ∧ NoDup (q_write q)).
Proof. exact read_and_write. Qed.
Print Assumptions C55_read_and_write_refuted.
(** ... and two queries at the same time, which the borrow checker accepts because queries borrow the store as shared. *)
Theorem C55_two_writers_refuted : ¬ ∀ c cap tr s q1 l1 q2 l2,
  cfg_ok c → c_mode c = Debug → hrun c cap tr s → NoDup (q_types q1) → NoDup (q_types q2) →
  hands_out c s FromComponents q1 l1 → hands_out c s FromComponents q2 l2 → exclusive_of q1 l1 q2 l2.
Proof. exact two_writers. Qed.
Print Assumptions C55_two_writers_refuted.
(** Apart from these cases they are exclusive, for each source ... *)
Theorem C55_exclusive_partial : ∀ c cap tr s src q l,
  cfg_ok c → c_mode c = Debug → hrun c cap tr s → NoDup (q_types q) → q_types q ≠ [] → known tr src → once src →
  hands_out c s src q l → exclusive q l.
Proof. exact (λ c cap tr s src q l Hc Hmd, source_exclusive c Hc Hmd cap tr s src q l). Qed.
Print Assumptions C55_exclusive_partial.
(** ... and for two sources used at the same time. *)
Theorem C55_two_sources_partial : ∀ c cap tr s src1 q1 l1 src2 q2 l2,
  cfg_ok c → c_mode c = Debug → hrun c cap tr s →
  NoDup (q_types q1) → q_types q1 ≠ [] → NoDup (q_types q2) → q_types q2 ≠ [] → known tr src1 → known tr src2 →
  compatible q1 q2 → hands_out c s src1 q1 l1 → hands_out c s src2 q2 l2 → exclusive_of q1 l1 q2 l2.
Proof. exact (λ c cap tr s src1 q1 l1 src2 q2 l2 Hc Hmd, sources_exclusive c Hc Hmd cap tr s src1 q1 l1 src2 q2 l2). Qed.
Print Assumptions C55_two_sources_partial.
Example C55_example :
  let c := ex_cfg Debug in let s := end_store c 4 two_ents in
  hrun c 4 (end_trace c 4 two_ents) s ∧ compatible (Access [1] [2]) (Access [1] []) ∧
  (it ← component_query c (Access [1] [2]) s; drain 9 qiter_next it) = POk [[Ref 3 0 4; Ref 3 4096 8]] ∧
  get_components_refs c s (Entity 1 1) [1] = POk (Some [Ref 3 0 4]).
Proof. intros c s. split_and!; [apply two_ents_run| |vm_compute; reflexivity..]. split; simpl; set_solver. Qed.
(** The two items of an entity listed twice are the same. *)
Example C55_witness_listed_twice :
  let c := ex_cfg Debug in let s := end_store c 4 two_ents in
  (it ← entity_query c (Access [] [1]) s [Entity 0 1; Entity 0 1]; drain 9 eiter_next it) = POk [[Ref 4 0 4]; [Ref 4 0 4]].
Proof. vm_compute. reflexivity. Qed.

(** C56: the address of a reference is not in general a multiple of the alignment of its type, because pages are allocated
    with alignment 1. *)
Theorem C56_aligned_refuted : ¬ ∀ c cap tr s src q l base,
  cfg_ok c → c_mode c = Debug → rust_types c → hrun c cap tr s → NoDup (q_types q) → q_types q ≠ [] →
  known tr src → page_addresses base → hands_out c s src q l → aligned c base q l.
Proof. exact base_one_refuted. Qed.
Print Assumptions C56_aligned_refuted.
(** It is if the allocator happens to return addresses that are sufficiently aligned. *)
Theorem C56_aligned_partial : ∀ c cap tr s src q l base,
  cfg_ok c → c_mode c = Debug → rust_types c → hrun c cap tr s → NoDup (q_types q) → q_types q ≠ [] →
  known tr src → (∀ p t, t ∈ q_types q → (ti_align (c_ty c t) | base p)) → hands_out c s src q l → aligned c base q l.
Proof. exact (λ c cap tr s src q l base Hc Hmd, source_aligned c Hc Hmd cap tr s src q l base). Qed.
Print Assumptions C56_aligned_partial.
(** References have the size of their type and stay inside an existing page. *)
Theorem C56_in_bounds : ∀ c cap tr s src q l,
  cfg_ok c → c_mode c = Debug → hrun c cap tr s → NoDup (q_types q) → q_types q ≠ [] →
  known tr src → hands_out c s src q l → in_bounds c s q l.
Proof. exact (λ c cap tr s src q l Hc Hmd, source_bounds c Hc Hmd cap tr s src q l). Qed.
Print Assumptions C56_in_bounds.
Example C56_example :
  let c := ex_cfg Debug in let s := end_store c 4 two_ents in
  hrun c 4 (end_trace c 4 two_ents) s ∧ get_components_refs c s (Entity 1 1) [2; 1] = POk (Some [Ref 3 4096 8; Ref 3 0 4]) ∧
  (ti_align (c_ty c 2) | 8192 + 4096) ∧ ¬ (ti_align (c_ty c 2) | 1 + 4096).
Proof. intros c s. split_and!; [apply two_ents_run|vm_compute; reflexivity|by apply N.mod_divide|by intros ?%N.mod_divide]. Qed.

(** C57: references can point to memory that was never written, after create_entity_with_archetype. *)
Theorem C57_initialised_refuted : ¬ ∀ c cap tr s src q l,
  cfg_ok c → c_mode c = Debug → hrun c cap tr s → NoDup (q_types q) → q_types q ≠ [] →
  known tr src → hands_out c s src q l → initialised s l.
Proof. exact init_refuted. Qed.
Print Assumptions C57_initialised_refuted.
(** They point to values if every queried component of every live entity has been given one: [unset] (Spec/Aliasing.v) has the
    components without. *)
Theorem C57_assigned_partial : ∀ c cap tr s src q l,
  cfg_ok c → c_mode c = Debug → hrun c cap tr s → assigned tr (q_types q) → NoDup (q_types q) → q_types q ≠ [] →
  known tr src → hands_out c s src q l → initialised s l.
Proof. exact (λ c cap tr s src q l Hc Hmd, source_init c Hc Hmd cap tr s src q l). Qed.
Print Assumptions C57_assigned_partial.
(** So they do without create_entity_with_archetype. *)
Theorem C57_initialised_partial : ∀ c cap tr s src q l,
  cfg_ok c → c_mode c = Debug → hrun c cap tr s → given tr → NoDup (q_types q) → q_types q ≠ [] →
  known tr src → hands_out c s src q l → initialised s l.
Proof. exact (λ c cap tr s src q l Hc Hmd, given_source_init c Hc Hmd cap tr s src q l). Qed.
Print Assumptions C57_initialised_partial.
Example C57_example :
  let c := ex_cfg Debug in let ops := [λ _, OCreate; λ hs, OAdd (h 0 hs) [(1, [1; 2; 3; 4])]] in let s := end_store c 4 ops in
  hrun c 4 (end_trace c 4 ops) s ∧ given (end_trace c 4 ops) ∧
  read_components c s (Entity 0 1) [1] = POk (Some [Some <$> [1; 2; 3; 4]]) ∧
  read_components c (end_store c 4 two_ents) (Entity 0 1) [1] = POk (Some [[None; None; None; None]]).
Proof.
  intros c ops s. split_and!; [apply hend_run; vm_compute; reflexivity| |vm_compute; reflexivity..].
  intros a r. change (end_trace c 4 ops) with [(OCreate, Some (Entity 0 1)); (OAdd (Entity 0 1) [(1, [1; 2; 3; 4])], None)].
  intros [[=]|[[=]|[]%elem_of_nil]%elem_of_cons]%elem_of_cons.
Qed.
(** C50: more exactly than in Properties/Robust.v, a component reads as initialised whenever it is not [unset]. *)
Theorem C50_values_partial : ∀ c cap tr s e T vs,
  cfg_ok c → c_mode c = Debug → hrun c cap tr s → (∀ t, t ∈ T → t ∉ unset tr e) → T ≠ [] →
  read_components c s e T = POk (Some vs) → Forall (Forall is_Some) vs.
Proof. exact (λ c cap tr s e T vs Hc Hmd, reads_unset c Hc Hmd cap tr s e T vs). Qed.
Print Assumptions C50_values_partial.
(** Type 1 is set, type 2 is not: setting types 2 and 3 has no effect, the entity does not have type 3. *)
Example C50_values_example :
  let c := ex_cfg Debug in
  let ops := [λ _, OCreateWith (ex_arch [1; 2]); λ hs, OSet (h 0 hs) [(1, [1; 2; 3; 4])]; λ hs, OSet (h 0 hs) [(2, [1; 2; 3; 4; 5; 6; 7; 8]); (3, [9])]] in
  let tr := end_trace c 4 ops in let s := end_store c 4 ops in let e := Entity 0 1 in
  hrun c 4 tr s ∧ 1 ∉ unset tr e ∧ 2 ∈ unset tr e ∧
  read_components c s e [1] = POk (Some [Some <$> [1; 2; 3; 4]]) ∧ read_components c s e [2] = POk (Some [repeat None 8]).
Proof.
  intros c ops tr s e. split_and!; [apply hend_run; vm_compute; reflexivity| | |vm_compute; reflexivity..].
  - apply (proj1 (bool_decide_eq_false (1 ∈ unset tr e))). vm_compute. reflexivity.
  - apply (proj1 (bool_decide_eq_true (2 ∈ unset tr e))). vm_compute. reflexivity.
Qed.
