(** Merge.v — merged calls: C87. *)
From Verif.Spec Require Import Env Handles Components Discipline Caught Alike Merge.
From Verif.Proofs Require Import UsageR UsageP DiscP ExecP MergeP.
Local Open Scope N_scope.

(** C87: calls can be merged, any number of times and anywhere in the history, and together with the simplifications of C86
    (Spec/Merge.v): components given, taken or set one after the other might as well be given, taken or set at once; an entity created with an
    archetype whose components are then set might as well be created empty and given them; the order of the types in a tuple does not
    matter. The stores answer alike about all entities and groups: liveness, components and, except for contents that
    create_entity_with_archetype left open, values; the order of each group; and the tags, if they are put on live entities only. In both
    builds; the capacities may differ. *)
Theorem C87_healthy : ∀ c cap cap' T T' s s',
  cfg_ok c → drun (healthy c) c cap T s → drun (healthy c) c cap' T' s' → reduces T T' →
  (∀ e, e ∈ issued T →
    is_alive c s e = is_alive c s' e ∧
    (∃ a a', get_entity_archetype c s e = POk a ∧ get_entity_archetype c s' e = POk a' ∧ arch_ids <$> a = arch_ids <$> a') ∧
    ∀ U, U ≠ [] → (∀ t, t ∈ U → t ∉ untold T' e) → read_components c s e U = read_components c s' e U) ∧
  (∀ g, first_ordered c s g = first_ordered c s' g ∧ last_ordered c s g = last_ordered c s' g ∧
    ∀ e, alive_in T e → next_ordered c s g e = next_ordered c s' g e ∧ previous_ordered c s g e = previous_ordered c s' g e) ∧
  (tags_on_live T → ∀ t e, alive_in T e → has_tag c s t e = has_tag c s' t e).
Proof. exact reduces_same. Qed.
Print Assumptions C87_healthy.
(** And when calls panic and the panics are caught, which may be other calls in the two histories. *)
Theorem C87_caught : ∀ c cap cap' tr1 tr2 s s',
  cfg_ok c → crun c cap tr1 s → crun c cap' tr2 s' → reduces (answered tr1) (answered tr2) →
  let T := answered tr1 in let T' := answered tr2 in
  (∀ e, e ∈ issued T →
    is_alive c s e = is_alive c s' e ∧
    (∃ a a', get_entity_archetype c s e = POk a ∧ get_entity_archetype c s' e = POk a' ∧ arch_ids <$> a = arch_ids <$> a') ∧
    ∀ U, U ≠ [] → (∀ t, t ∈ U → t ∉ untold T' e) → read_components c s e U = read_components c s' e U) ∧
  (ec_cap (st_ec s) < 2 ^ 32 → ec_cap (st_ec s') < 2 ^ 32 →
    (∀ g, first_ordered c s g = first_ordered c s' g ∧ last_ordered c s g = last_ordered c s' g ∧
      ∀ e, alive_in T e → next_ordered c s g e = next_ordered c s' g e ∧ previous_ordered c s g e = previous_ordered c s' g e) ∧
    (tags_on_live T → ∀ t e, alive_in T e → has_tag c s t e = has_tag c s' t e)).
Proof. exact reduces_caught. Qed.
Print Assumptions C87_caught.
(** Component queries then visit the same entities with the same values, and ordered queries in the same order (C82), if the values of the queried
    components are told by the calls. *)
Theorem C87_component_query : ∀ c cap cap' T T' s s' q,
  cfg_ok c → drun (healthy c) c cap T s → drun (healthy c) c cap' T' s' → reduces T T' →
  NoDup (q_types q) → q_types q ≠ [] → (∀ e t, alive_in T e → t ∈ q_types q → t ∉ untold T' e) → visited_alike c s c s' q.
Proof. exact reduces_queries. Qed.
Print Assumptions C87_component_query.
Theorem C87_ordered_query : ∀ c cap cap' T T' s s' q g fuel,
  cfg_ok c → drun (healthy c) c cap T s → drun (healthy c) c cap' T' s' → reduces T T' →
  NoDup (q_types q) → q_types q ≠ [] → (∀ e t, alive_in T e → t ∈ q_types q → t ∉ untold T' e) →
  (∀ e, e ∈ members T g → had_components T e ∧ had_components T' e) → (length (members T g) < fuel)%nat → ordered_alike c s c s' q g fuel.
Proof. exact reduces_ordered. Qed.
Print Assumptions C87_ordered_query.
Theorem C87_caught_component_query : ∀ c cap cap' tr1 tr2 s s' q,
  let T := answered tr1 in let T' := answered tr2 in cfg_ok c → crun c cap tr1 s → crun c cap' tr2 s' → reduces T T' →
  NoDup (q_types q) → q_types q ≠ [] → (∀ e t, alive_in T e → t ∈ q_types q → t ∉ untold T' e) → visited_alike c s c s' q.
Proof. exact reduces_queries_caught. Qed.
Print Assumptions C87_caught_component_query.
(** If the calls of a history return, so do those of the history with one merge, with the same results, if the arguments of the new calls are
    proper (their types are distinct). *)
Theorem C87_returns : ∀ c cap tr xs ys tr2 s,
  cfg_ok c → drun (λ _ _, True) c cap (tr ++ xs ++ tr2) s → merges tr xs ys → (∀ y, y ∈ ys → args_ok c y.1) →
  frugal c (tr ++ ys ++ tr2) → ∃ s', drun (λ _ _, True) c cap (tr ++ ys ++ tr2) s'.
Proof. exact merged_returns. Qed.
Print Assumptions C87_returns.

(** Beside an entity with types 1 and 2, one is created with these types, which are then set, and given type 3 and then type 4; or it is created
    empty, given 1 and 2, and then 4 and 3. *)
Definition ex_v1 : tid * list N := (1, [1; 2; 3; 4]).
Definition ex_v2 : tid * list N := (2, [1; 2; 3; 4; 5; 6; 7; 8]).
Definition ex_v4 : tid * list N := (4, [6; 7]).
Definition ex_long : list (list entity → op) :=
  [λ _, OCreateWith (ex_arch [1; 2]); λ _, OCreateWith (ex_arch [1; 2]); λ hs, OSet (h 1 hs) [ex_v2; ex_v1]; λ hs, OAdd (h 1 hs) [(3, [9])];
   λ hs, OAdd (h 1 hs) [ex_v4]].
Definition ex_short : list (list entity → op) :=
  [λ _, OCreateWith (ex_arch [1; 2]); λ _, OCreate; λ hs, OAdd (h 1 hs) [ex_v2; ex_v1]; λ hs, OAdd (h 1 hs) [ex_v4; (3, [9])]].
Example C87_example : ∀ md,
  let c := ex_cfg md in let a := Entity 1 1 in
  let T := end_trace c 8 ex_long in let s := end_store c 8 ex_long in let T' := end_trace c 8 ex_short in let s' := end_store c 8 ex_short in
  reduces T T' ∧ drun (λ _ _, True) c 8 T s ∧ frugal c T ∧ drun (λ _ _, True) c 8 T' s' ∧ frugal c T' ∧
  read_components c s a [1; 3] = POk (Some [Some <$> [1; 2; 3; 4]; [Some 9]]) ∧ read_components c s' a [1; 3] = POk (Some [Some <$> [1; 2; 3; 4]; [Some 9]]).
Proof.
  intros md c a T s T' s'. set (b := Entity 0 1). set (k := (OCreateWith (ex_arch [1; 2]), Some b)).
  assert (T = [k; (OCreateWith (ex_arch [1; 2]), Some a); (OSet a [ex_v2; ex_v1], None); (OAdd a [(3, [9])], None); (OAdd a [ex_v4], None)]) as ET
    by (destruct md; vm_compute; reflexivity).
  assert (T' = [k; (OCreate, Some a); (OAdd a [ex_v2; ex_v1], None); (OAdd a [ex_v4; (3, [9])], None)]) as ES by (destruct md; vm_compute; reflexivity).
  split.
  { rewrite ET, ES.
    eapply rd_more; [apply (rd_merged [k] [(OCreateWith (ex_arch [1; 2]), Some a); (OSet a [ex_v2; ex_v1], None)]), me_create|].
    { intros t. change (t ∈ [1; 2] ↔ t ∈ [2; 1]). set_solver. }
    eapply rd_more; [apply (rd_merged [k; (OCreate, Some a); (OAdd a [ex_v2; ex_v1], None)] [(OAdd a [(3, [9])], None); (OAdd a [ex_v4], None)]), me_add|].
    apply (rd_merged [k; (OCreate, Some a); (OAdd a [ex_v2; ex_v1], None)] [(OAdd a [(3, [9]); ex_v4], None)] [(OAdd a [ex_v4; (3, [9])], None)] []).
    apply me_add_order; [constructor|]. repeat constructor; set_solver. }
  split; [apply dend_run; destruct md; vm_compute; reflexivity|].
  split. { split; [apply one_abandonedb_ok|right; apply below_capacityb_ok]; destruct md; vm_compute; reflexivity. }
  split; [apply dend_run; destruct md; vm_compute; reflexivity|].
  split. { split; [apply one_abandonedb_ok|right; apply below_capacityb_ok]; destruct md; vm_compute; reflexivity. }
  split_and!; destruct md; vm_compute; reflexivity.
Qed.
(** Beside an entity with types 1, 2 and 3, types 2 and 3 are taken from another one after the other, or at once. *)
Example C87_remove_example : ∀ md,
  let c := ex_cfg md in let a := Entity 1 1 in
  let ops := [λ _, OCreateWith (ex_arch [1; 2; 3]); λ _, OCreate; λ hs, OAdd (h 1 hs) [ex_v1; ex_v2; (3, [9])]] in
  let tr := end_trace c 8 ops in let s0 := end_store c 8 ops in
  let T := tr ++ calls [ORemove a [2]; ORemove a [3]] in let s := after_calls c [ORemove a [2]; ORemove a [3]] s0 in
  let T' := tr ++ calls [ORemove a [2; 3]] in let s' := after_calls c [ORemove a [2; 3]] s0 in
  reduces T T' ∧ drun (λ _ _, True) c 8 T s ∧ frugal c T ∧ drun (λ _ _, True) c 8 T' s' ∧ frugal c T' ∧
  read_components c s a [1] = POk (Some [Some <$> [1; 2; 3; 4]]) ∧ read_components c s' a [1] = POk (Some [Some <$> [1; 2; 3; 4]]) ∧
  read_components c s a [3] = POk None ∧ read_components c s' a [3] = POk None.
Proof.
  intros md c a ops tr s0 T s T' s'.
  assert (drun (λ _ _, True) c 8 tr s0) as H0 by (apply dend_run; destruct md; vm_compute; reflexivity).
  split. { exact (rd_merged tr (calls [ORemove a [2]; ORemove a [3]]) (calls [ORemove a [2; 3]]) [] (me_remove tr a [2] [3])). }
  split. { apply calls_run; [done| |destruct md; vm_compute; reflexivity]. intros q f Hq. repeat (apply elem_of_cons in Hq as [Hq|Hq]; [discriminate Hq|]). by apply elem_of_nil in Hq. }
  split. { split; [apply one_abandonedb_ok|right; apply below_capacityb_ok]; destruct md; vm_compute; reflexivity. }
  split. { apply calls_run; [done| |destruct md; vm_compute; reflexivity]. intros q f Hq. repeat (apply elem_of_cons in Hq as [Hq|Hq]; [discriminate Hq|]). by apply elem_of_nil in Hq. }
  split. { split; [apply one_abandonedb_ok|right; apply below_capacityb_ok]; destruct md; vm_compute; reflexivity. }
  split_and!; destruct md; vm_compute; reflexivity.
Qed.
