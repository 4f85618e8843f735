(** Safety.v — no undefined behaviour: C46.
    [hrun], [healthy], [args_ok], [room]: see Properties/Components.v. [orders_proper], [order_use_ok]: see Properties/Orders.v. *)
From Verif.Spec Require Import Env Handles Tags Orders Components Queries Safety.
From Verif.Proofs Require Import SafeP.
Local Open Scope N_scope.

(** C46: no mutating call with handles of this store, dead or alive, is undefined, ... *)
Theorem C46_calls_defined : ∀ c cap tr s o,
  cfg_ok c → c_mode c = Debug → hrun c cap tr s → healthy c (st_ac s) (asks tr o) → args_ok c o → room c tr o →
  orders_proper tr → order_use_ok tr o → own tr o → defined c o s.
Proof. exact (λ c cap tr s o Hc Hmd, own_defined c Hc Hmd cap tr s o). Qed.
Print Assumptions C46_calls_defined.
(** ... all reading calls with such handles return normally, ... *)
Theorem C46_reads_return : ∀ c cap tr s e,
  cfg_ok c → c_mode c = Debug → hrun c cap tr s → orders_proper tr → e ∈ issued tr →
  (∃ b, is_alive c s e = POk b) ∧ (∀ T, T ≠ [] → ∃ x, read_components c s e T = POk x) ∧
  (∃ a, get_entity_archetype c s e = POk a) ∧ (∀ t, ∃ b, has_tag c s t e = POk b) ∧
  ∀ g, (∃ x, first_ordered c s g = POk x) ∧ (∃ x, last_ordered c s g = POk x) ∧
    (∃ x, next_ordered c s g e = POk x) ∧ (∃ x, previous_ordered c s g e = POk x).
Proof. exact (λ c cap tr s e Hc Hmd, reads_defined c Hc Hmd cap tr s e). Qed.
Print Assumptions C46_reads_return.
(** ... and so do queries, if the entities they are given have had components. *)
Theorem C46_queries_return : ∀ c cap tr s q,
  cfg_ok c → c_mode c = Debug → hrun c cap tr s → NoDup (q_types q) → q_types q ≠ [] →
  (∃ it l it', component_query c q s = POk it ∧ yields (qiter_next_with (ec_ver (st_ec s))) it l it') ∧
  (∀ ents, (∀ e, e ∈ ents → had_components tr e) →
    ∃ it l it', entity_query c q s ents = POk it ∧ yields eiter_next_with it l it') ∧
  (∀ g fuel, orders_proper tr → (∀ e, e ∈ members tr g → had_components tr e) → (length (members tr g) < fuel)%nat →
    ∃ it l it', ordered_query fuel c q s g = Some (POk it) ∧ yields oiter_next it l it').
Proof. exact queries_defined. Qed.
Print Assumptions C46_queries_return.
(** Insertions next to members only: the condition is needed. With live handles only, insertions next to non-members can
    lead to a group with a first but no last member, and then to a write outside of the allocated links. *)
Theorem C46_non_members_refuted : ¬ ∀ c cap tr s o,
  cfg_ok c → c_mode c = Debug → hrun c cap tr s → healthy c (st_ac s) (asks tr o) → args_ok c o → room c tr o →
  all_on_live tr → on_live tr o → defined c o s.
Proof. exact non_members_refuted. Qed.
Print Assumptions C46_non_members_refuted.

(** Destroying a dead handle panics; the tag of a dead handle; and the write outside of the links. *)
Example C46_example :
  let c := ex_cfg Debug in
  let ops := [λ _, OCreate; λ hs, OAdd (h 0 hs) [(1, [1; 2; 3; 4])]; λ _, OCreate; λ hs, OAdd (h 1 hs) [(1, [5; 6; 7; 8])];
    λ hs, OOrdAdd 9 (h 1 hs); λ hs, ODestroy (h 0 hs); λ _, OCreate] in
  let s := end_store c 1 ops in
  hend_ok c 1 ops = true ∧ healthyb c (st_ac s) (asks (end_trace c 1 ops) (OAdd (Entity 0 2) [(1, [1; 2; 3; 4])])) = true ∧ proper_check [] (end_trace c 1 ops) = true ∧
  issued (end_trace c 1 ops) = [Entity 0 1; Entity 1 1; Entity 0 2] ∧
  match step c (ODestroy (Entity 0 1)) s with RPanic _ => True | _ => False end ∧ is_alive c s (Entity 0 1) = POk false ∧ has_tag c s 7 (Entity 0 1) = POk false ∧
  next_ordered c s 9 (Entity 0 1) = POk None ∧
  step c (OOrdAdd 9 (Entity 4 1)) (end_store c 5 tail_lost) = RUB OutOfBounds ∧
  first_ordered c (end_store c 5 tail_lost) 9 = POk (Some (Entity 3 1)) ∧ last_ordered c (end_store c 5 tail_lost) 9 = POk None.
Proof. vm_compute. done. Qed.
