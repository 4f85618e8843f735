(** Visits.v — the order of component queries: C64. [drun (healthy c) c]: disciplined histories of the build [c_mode c]
    (Spec/Discipline.v); [settled], [entries], [in_order]: Spec/Visits.v. *)
From Verif.Spec Require Import Env Handles Orders Components Queries Discipline Visits.
From Verif.Proofs Require Import VisitP.
Local Open Scope N_scope.

(** C64: while no entity with components is destroyed, loses components or is given other types, a component query visits
    the sets of types in the order of their first use and the entities of a set in the order in which they got their
    components, across any number of pages, in both builds. *)
Theorem C64_insertion_order : ∀ c cap tr s q,
  cfg_ok c → drun (healthy c) c cap tr s → settled tr → NoDup (q_types q) → q_types q ≠ [] →
  ∃ it l it1, component_query c q s = POk it ∧ yields (qiter_next_with (ec_ver (st_ec s))) it l it1 ∧
    l.*1 = in_order (q_types q) (entries tr) ∧
    ∀ e rs, (e, rs) ∈ l → ∃ m, observed c s e (Some m) ∧ read_ref (ac_pages (st_ac s)) <$> rs = values m (q_types q).
Proof. exact both_visits. Qed.
Print Assumptions C64_insertion_order.

(** Pages of one row: the entities are on different pages. Without [settled] the order is another one: the entity taking the
    place of a destroyed one is visited first. *)
Example C64_example :
  let c := MemP.big_cfg Release in
  let mk n := (λ _, OCreateWith (MemP.big_arch n)) : list entity → op in
  let ops := [mk 2; mk 1; (λ _, OCreate); (λ hs, OAdd (h 2 hs) [(2, replicate (Pos.to_nat 16000) 7)]); mk 1; mk 2; (λ _, OCreate); (λ hs, OTagAdd 5 (h 0 hs));
              (λ hs, ODestroy (h 5 hs))] in
  let tr := end_trace c 8 ops in let s := end_store c 8 ops in
  drun (healthy c) c 8 tr s ∧ settled tr ∧ in_order [2] (entries tr) = [Entity 0 1; Entity 2 1; Entity 4 1] ∧
  (it ← component_query c (Access [2] []) s; l ← drain 9 (qiter_next_with (ec_ver (st_ec s))) it; mret l.*1 : pres (list entity))
    = POk [Entity 0 1; Entity 2 1; Entity 4 1] ∧
  let d := ex_cfg Debug in
  let ops := [(λ _, OCreateWith (ex_arch [1])); (λ _, OCreateWith (ex_arch [1])); (λ _, OCreateWith (ex_arch [1])); (λ hs, ODestroy (h 0 hs))] in
  let tr := end_trace d 8 ops in let s := end_store d 8 ops in
  drun (healthy d) d 8 tr s ∧ ¬ settled tr ∧ in_order [1] (entries (take 3 tr)) = [Entity 0 1; Entity 1 1; Entity 2 1] ∧
  (it ← component_query d (Access [1] []) s; l ← drain 9 (qiter_next_with (ec_ver (st_ec s))) it; mret l.*1 : pres (list entity))
    = POk [Entity 2 1; Entity 1 1].
Proof.
  intros c mk ops tr s. split; [apply dhend_run; vm_compute; reflexivity|]. split; [apply settledb_ok; vm_compute; reflexivity|].
  split; [vm_compute; reflexivity|]. split; [vm_compute; reflexivity|]. clear.
  intros d ops tr s. split; [apply dhend_run; vm_compute; reflexivity|]. split; [|split; vm_compute; reflexivity].
  intros H. destruct (H (take 3 tr) (ODestroy (Entity 0 1)) None []) as [E|E]; [vm_compute; reflexivity|vm_compute in E; discriminate|].
  apply (bool_decide_eq_true_2 _) in E. vm_compute in E. discriminate.
Qed.
