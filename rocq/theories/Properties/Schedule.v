(** Schedule.v — independent loops over write queries can run in any order: C84. *)
From Verif.Spec Require Import Env Handles Components Discipline Caught Schedule.
From Verif.Proofs Require Import UsageR UsageP DiscP ExecP ScheduleP.
Local Open Scope N_scope.

(** C84: consecutive loops over write queries (systems) none of which writes what another one reads or writes return in any order if they do
    in one, in both builds, and afterwards the store answers alike about all entities and groups: liveness, components and, except for contents
    that create_entity_with_archetype left open, values; the order of each group; and the tags, if they are put on live entities only.
    [frugal]: Spec/Discipline.v, asked of the history before the loops. *)
Theorem C84_any_order : ∀ c cap tr s ls ls',
  cfg_ok c → frugal c tr → drun (λ _ _, True) c cap (tr ++ loops ls) s → ls ≡ₚ ls' → independent ls →
  ∃ s', drun (λ _ _, True) c cap (tr ++ loops ls') s' ∧
  (∀ e, e ∈ issued tr →
    is_alive c s e = is_alive c s' e ∧
    (∃ a a', get_entity_archetype c s e = POk a ∧ get_entity_archetype c s' e = POk a' ∧ arch_ids <$> a = arch_ids <$> a') ∧
    ∀ T, T ≠ [] → (∀ t, t ∈ T → t ∉ untold (tr ++ loops ls) e) → read_components c s e T = read_components c s' e T) ∧
  (∀ g, first_ordered c s g = first_ordered c s' g ∧ last_ordered c s g = last_ordered c s' g ∧
    ∀ e, alive_in tr e → next_ordered c s g e = next_ordered c s' g e ∧ previous_ordered c s g e = previous_ordered c s' g e) ∧
  (tags_on_live tr → ∀ t e, alive_in tr e → has_tag c s t e = has_tag c s' t e).
Proof. exact schedules. Qed.
Print Assumptions C84_any_order.
(** The answers also for all histories with healthy states, Spec/Components.v; capacities may differ. *)
Theorem C84_healthy : ∀ c cap cap' tr s s' ls ls',
  cfg_ok c → drun (healthy c) c cap (tr ++ loops ls) s → drun (healthy c) c cap' (tr ++ loops ls') s' → ls ≡ₚ ls' → independent ls →
  (∀ e, e ∈ issued tr →
    is_alive c s e = is_alive c s' e ∧
    (∃ a a', get_entity_archetype c s e = POk a ∧ get_entity_archetype c s' e = POk a' ∧ arch_ids <$> a = arch_ids <$> a') ∧
    ∀ T, T ≠ [] → (∀ t, t ∈ T → t ∉ untold (tr ++ loops ls) e) → read_components c s e T = read_components c s' e T) ∧
  (∀ g, first_ordered c s g = first_ordered c s' g ∧ last_ordered c s g = last_ordered c s' g ∧
    ∀ e, alive_in tr e → next_ordered c s g e = next_ordered c s' g e ∧ previous_ordered c s g e = previous_ordered c s' g e) ∧
  (tags_on_live tr → ∀ t e, alive_in tr e → has_tag c s t e = has_tag c s' t e).
Proof. exact schedule_same. Qed.
Print Assumptions C84_healthy.
(** And when calls panic and the panics are caught, which may be other calls in the two histories. *)
Theorem C84_caught : ∀ c cap cap' tr1 tr2 s s' tr ls ls',
  cfg_ok c → crun c cap tr1 s → crun c cap' tr2 s' → answered tr1 = tr ++ loops ls → answered tr2 = tr ++ loops ls' →
  ls ≡ₚ ls' → independent ls →
  (∀ e, e ∈ issued tr →
    is_alive c s e = is_alive c s' e ∧
    (∃ a a', get_entity_archetype c s e = POk a ∧ get_entity_archetype c s' e = POk a' ∧ arch_ids <$> a = arch_ids <$> a') ∧
    ∀ T, T ≠ [] → (∀ t, t ∈ T → t ∉ untold (tr ++ loops ls) e) → read_components c s e T = read_components c s' e T) ∧
  (ec_cap (st_ec s) < 2 ^ 32 → ec_cap (st_ec s') < 2 ^ 32 →
    (∀ g, first_ordered c s g = first_ordered c s' g ∧ last_ordered c s g = last_ordered c s' g ∧
      ∀ e, alive_in tr e → next_ordered c s g e = next_ordered c s' g e ∧ previous_ordered c s g e = previous_ordered c s' g e) ∧
    (tags_on_live tr → ∀ t e, alive_in tr e → has_tag c s t e = has_tag c s' t e)).
Proof. exact schedule_caught. Qed.
Print Assumptions C84_caught.

(** Three loops that read type 1 and write the types 2, 3 and 4. *)
Definition ex_sched : list (list entity → op) :=
  [λ _, OCreate; λ _, OCreate; λ hs, OAdd (h 0 hs) [(1, [1; 2; 3; 4]); (2, [0; 0; 0; 0; 0; 0; 0; 0]); (3, [0]); (4, [0; 0])];
   λ hs, OAdd (h 1 hs) [(1, [5; 6; 7; 8]); (3, [0]); (4, [0; 0])]; λ hs, OTagAdd 7 (h 0 hs); λ hs, OOrdAdd 9 (h 1 hs)].
Definition ex_low (l : list (list cell)) : N := match l with (Some b :: _) :: _ => b | _ => 0 end.
Definition ex_l2 : loop := (Access [1] [2], λ _ l, [replicate 8 (ex_low l)]).
Definition ex_l3 : loop := (Access [1] [3], λ e l, [[ex_low l + e_id e]]).
Definition ex_l4 : loop := (Access [1] [4], λ e l, [[ex_low l; e_id e]]).
Example C84_example : ∀ md,
  let c := ex_cfg md in let a := Entity 0 1 in let b := Entity 1 1 in let ls := [ex_l2; ex_l3; ex_l4] in let ls' := [ex_l4; ex_l2; ex_l3] in
  let tr := end_trace c 8 ex_sched in let s0 := end_store c 8 ex_sched in let s := after_loops c ls s0 in let s' := after_loops c ls' s0 in
  independent ls ∧ ls ≡ₚ ls' ∧ frugal c tr ∧ drun (λ _ _, True) c 8 (tr ++ loops ls) s ∧ drun (λ _ _, True) c 8 (tr ++ loops ls') s' ∧
  read_components c s0 a [3; 4] = POk (Some [[Some 0]; Some <$> [0; 0]]) ∧
  read_components c s a [2; 3; 4] = POk (Some [Some <$> [1; 1; 1; 1; 1; 1; 1; 1]; [Some 1]; Some <$> [1; 0]]) ∧
  read_components c s' a [2; 3; 4] = POk (Some [Some <$> [1; 1; 1; 1; 1; 1; 1; 1]; [Some 1]; Some <$> [1; 0]]) ∧
  read_components c s b [3; 4] = POk (Some [[Some 6]; Some <$> [5; 1]]) ∧ read_components c s' b [3; 4] = POk (Some [[Some 6]; Some <$> [5; 1]]).
Proof.
  intros md c a b ls ls' tr s0 s s'.
  assert (drun (λ _ _, True) c 8 tr s0) as H0 by (apply dend_run; destruct md; vm_compute; reflexivity).
  assert (Forall (λ l : loop, args_ok c (OWrite l.1 l.2)) ls) as Ha. { repeat constructor; try set_solver; intros t v [= -> ->]%elem_of_list_singleton; by destruct md. }
  assert (ls ≡ₚ ls') as Hp. { apply (Permutation_app_comm [ex_l2; ex_l3] [ex_l4]). }
  split.
  { intros [|[|[|i]]] [|[|[|j]]] x y t Hi Hj Hn; simplify_eq/=; intros ->%elem_of_list_singleton; unfold q_types; simpl; rewrite !elem_of_cons, elem_of_nil; intros [?|[?|[]]]; lia. }
  split; [done|]. split. { split; [apply one_abandonedb_ok|right; apply below_capacityb_ok]; destruct md; vm_compute; reflexivity. }
  split. { apply after_loops_run; [done|done|]. destruct md; vm_compute; reflexivity. }
  split. { apply after_loops_run; [done|by rewrite <- Hp|]. destruct md; vm_compute; reflexivity. }
  split_and!; destruct md; vm_compute; reflexivity.
Qed.
(** Loops that are not independent: one reads what another writes. *)
Definition ex_l5 : loop := (Access [3] [4], λ e l, [[ex_low l; e_id e]]).
Example C84_dependent_example : ∀ md,
  let c := ex_cfg md in let b := Entity 1 1 in let s0 := end_store c 8 ex_sched in
  ¬ independent [ex_l3; ex_l5] ∧
  read_components c (after_loops c [ex_l3; ex_l5] s0) b [4] = POk (Some [Some <$> [6; 1]]) ∧ read_components c (after_loops c [ex_l5; ex_l3] s0) b [4] = POk (Some [Some <$> [0; 1]]).
Proof.
  intros md c b s0. split; [|split; destruct md; vm_compute; reflexivity].
  intros H. apply (H 0%nat 1%nat ex_l3 ex_l5 3); [done|done|done|by left|by left].
Qed.
