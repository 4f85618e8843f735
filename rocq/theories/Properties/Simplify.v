(** Simplify.v — simplified histories: C86. *)
From Verif.Spec Require Import Env Handles Components Discipline Caught Alike Simplify.
From Verif.Proofs Require Import UsageR UsageP DiscP ExecP SimplifyP.
Local Open Scope N_scope.

(** C86: a history cannot be told from a simpler one, in which calls that have nothing to do with each other come in another order, and calls are
    left out that the next call takes back or makes superfluous, any number of times and anywhere in the history (Spec/Simplify.v): the
    stores answer alike about all entities and groups: liveness, components and, except for contents that create_entity_with_archetype left
    open, values; the order of each group; and the tags, if they are put on live entities only. In both builds; the capacities may differ. *)
Theorem C86_healthy : ∀ c cap cap' T T' s s',
  cfg_ok c → drun (healthy c) c cap T s → drun (healthy c) c cap' T' s' → simpler T T' →
  (∀ e, e ∈ issued T →
    is_alive c s e = is_alive c s' e ∧
    (∃ a a', get_entity_archetype c s e = POk a ∧ get_entity_archetype c s' e = POk a' ∧ arch_ids <$> a = arch_ids <$> a') ∧
    ∀ U, U ≠ [] → (∀ t, t ∈ U → t ∉ untold T' e) → read_components c s e U = read_components c s' e U) ∧
  (∀ g, first_ordered c s g = first_ordered c s' g ∧ last_ordered c s g = last_ordered c s' g ∧
    ∀ e, alive_in T e → next_ordered c s g e = next_ordered c s' g e ∧ previous_ordered c s g e = previous_ordered c s' g e) ∧
  (tags_on_live T → ∀ t e, alive_in T e → has_tag c s t e = has_tag c s' t e).
Proof. exact simpler_same. Qed.
Print Assumptions C86_healthy.
(** And when calls panic and the panics are caught, which may be other calls in the two histories. *)
Theorem C86_caught : ∀ c cap cap' tr1 tr2 s s',
  cfg_ok c → crun c cap tr1 s → crun c cap' tr2 s' → simpler (answered tr1) (answered tr2) →
  let T := answered tr1 in let T' := answered tr2 in
  (∀ e, e ∈ issued T →
    is_alive c s e = is_alive c s' e ∧
    (∃ a a', get_entity_archetype c s e = POk a ∧ get_entity_archetype c s' e = POk a' ∧ arch_ids <$> a = arch_ids <$> a') ∧
    ∀ U, U ≠ [] → (∀ t, t ∈ U → t ∉ untold T' e) → read_components c s e U = read_components c s' e U) ∧
  (ec_cap (st_ec s) < 2 ^ 32 → ec_cap (st_ec s') < 2 ^ 32 →
    (∀ g, first_ordered c s g = first_ordered c s' g ∧ last_ordered c s g = last_ordered c s' g ∧
      ∀ e, alive_in T e → next_ordered c s g e = next_ordered c s' g e ∧ previous_ordered c s g e = previous_ordered c s' g e) ∧
    (tags_on_live T → ∀ t e, alive_in T e → has_tag c s t e = has_tag c s' t e)).
Proof. exact simpler_caught. Qed.
Print Assumptions C86_caught.
(** Component queries then visit the same entities with the same values, and ordered queries in the same order (C82), if the values of the queried
    components are told by the calls. *)
Theorem C86_component_query : ∀ c cap cap' T T' s s' q,
  cfg_ok c → drun (healthy c) c cap T s → drun (healthy c) c cap' T' s' → simpler T T' →
  NoDup (q_types q) → q_types q ≠ [] → (∀ e t, alive_in T e → t ∈ q_types q → t ∉ untold T' e) → visited_alike c s c s' q.
Proof. exact simpler_queries. Qed.
Print Assumptions C86_component_query.
Theorem C86_ordered_query : ∀ c cap cap' T T' s s' q g fuel,
  cfg_ok c → drun (healthy c) c cap T s → drun (healthy c) c cap' T' s' → simpler T T' →
  NoDup (q_types q) → q_types q ≠ [] → (∀ e t, alive_in T e → t ∈ q_types q → t ∉ untold T' e) →
  (∀ e, e ∈ members T g → had_components T e ∧ had_components T' e) → (length (members T g) < fuel)%nat → ordered_alike c s c s' q g fuel.
Proof. exact simpler_ordered. Qed.
Print Assumptions C86_ordered_query.
Theorem C86_caught_component_query : ∀ c cap cap' tr1 tr2 s s' q,
  let T := answered tr1 in let T' := answered tr2 in cfg_ok c → crun c cap tr1 s → crun c cap' tr2 s' → simpler T T' →
  NoDup (q_types q) → q_types q ≠ [] → (∀ e t, alive_in T e → t ∈ q_types q → t ∉ untold T' e) → visited_alike c s c s' q.
Proof. exact simpler_queries_caught. Qed.
Print Assumptions C86_caught_component_query.
(** If the calls of a history return, so do those that are left after one such omission anywhere in the history, with the same results. *)
Theorem C86_undone_returns : ∀ c cap tr x y tr2 s,
  cfg_ok c → drun (λ _ _, True) c cap (tr ++ [x; y] ++ tr2) s → undoes tr x y → x.2 = None →
  frugal c (tr ++ tr2) → ∃ s', drun (λ _ _, True) c cap (tr ++ tr2) s'.
Proof. exact undone_returns. Qed.
Print Assumptions C86_undone_returns.
Theorem C86_overridden_returns : ∀ c cap tr x y tr2 s,
  cfg_ok c → drun (λ _ _, True) c cap (tr ++ [x; y] ++ tr2) s → overrides x.1 y.1 →
  frugal c (tr ++ [x; y] ++ tr2) → frugal c (tr ++ [y] ++ tr2) → ∃ s', drun (λ _ _, True) c cap (tr ++ [y] ++ tr2) s'.
Proof. exact overridden_returns. Qed.
Print Assumptions C86_overridden_returns.

(** Type 1 is set, another entity tagged, type 1 set once more, the entity put into a group and taken out again, and a component removed from
    the other entity. The simpler history only tags, sets the second value and removes. *)
Definition ex_base : list (list entity → op) :=
  [λ _, OCreate; λ _, OCreate; λ hs, OAdd (h 0 hs) [(1, [1; 2; 3; 4]); (2, [0; 0; 0; 0; 0; 0; 0; 0])];
   λ hs, OAdd (h 1 hs) [(1, [5; 6; 7; 8]); (2, [0; 0; 0; 0; 0; 0; 0; 0])]; λ hs, OOrdAdd 9 (h 1 hs)].
Example C86_example : ∀ md,
  let c := ex_cfg md in let a := Entity 0 1 in let b := Entity 1 1 in
  let x := OSet a [(1, [9; 9; 9; 9])] in let y := OTagAdd 7 b in let x2 := OSet a [(1, [1; 1; 1; 1])] in
  let i := OOrdAdd 9 a in let o := OOrdDel 9 a in let z := ORemove b [1] in
  let tr := end_trace c 8 ex_base in let s0 := end_store c 8 ex_base in
  let T := tr ++ calls [x; y; x2; i; o; z] in let T' := tr ++ calls [y; x2; z] in
  let s := after_calls c [x; y; x2; i; o; z] s0 in let s' := after_calls c [y; x2; z] s0 in
  simpler T T' ∧ drun (λ _ _, True) c 8 T s ∧ frugal c T ∧ drun (λ _ _, True) c 8 T' s' ∧ frugal c T' ∧
  read_components c s a [1] = POk (Some [Some <$> [1; 1; 1; 1]]) ∧ read_components c s' a [1] = POk (Some [Some <$> [1; 1; 1; 1]]) ∧
  has_tag c s 7 b = POk true ∧ has_tag c s' 7 b = POk true ∧
  first_ordered c s 9 = POk (Some b) ∧ first_ordered c s' 9 = POk (Some b) ∧ last_ordered c s 9 = POk (Some b) ∧ last_ordered c s' 9 = POk (Some b).
Proof.
  intros md c a b x y x2 i o z tr s0 T T' s s'.
  assert (drun (λ _ _, True) c 8 tr s0) as H0 by (apply dend_run; destruct md; vm_compute; reflexivity).
  assert (apart (x, None) (y, None)) as Hap.
  { split; [intros [e|t e|g] H1 H2; try done|]. split; (split; [intros e [He|He]; done|by intros [? ?]]). }
  split.
  { eapply si_more; [exact (si_rearranged _ _ (re_apart tr (x, None) (y, None) (calls [x2; i; o; z]) Hap))|].
    eapply si_more.
    - pose proof (si_overridden (tr ++ [(y, None)]) (x, None) (x2, None) (calls [i; o; z])) as H. rewrite <- !app_assoc in H. apply H.
      split; [done|]. by split.
    - pose proof (si_undone (tr ++ [(y, None); (x2, None)]) (i, None) (o, None) (calls [z])) as H. rewrite <- !app_assoc in H. apply H; [done|done|].
      pose proof (discb_ok c (tr ++ [(y, None); (x2, None)]) i) as Hd. destruct Hd as (_ & _ & Ho & _); [destruct md; vm_compute; reflexivity|exact Ho]. }
  split. { apply calls_run; [done| |destruct md; vm_compute; reflexivity]. intros q f Hq. repeat (apply elem_of_cons in Hq as [Hq|Hq]; [discriminate Hq|]). by apply elem_of_nil in Hq. }
  split. { split; [apply one_abandonedb_ok|right; apply below_capacityb_ok]; destruct md; vm_compute; reflexivity. }
  split. { apply calls_run; [done| |destruct md; vm_compute; reflexivity]. intros q f Hq. repeat (apply elem_of_cons in Hq as [Hq|Hq]; [discriminate Hq|]). by apply elem_of_nil in Hq. }
  split. { split; [apply one_abandonedb_ok|right; apply below_capacityb_ok]; destruct md; vm_compute; reflexivity. }
  split_and!; destruct md; vm_compute; reflexivity.
Qed.
(** Why a creation with its destruction is not left out: the next creation gives another handle. *)
Example C86_creation_example : ∀ md,
  let c := ex_cfg md in let a := Entity 0 1 in
  undoes [] (OCreate, Some a) (ODestroy a, None) ∧
  end_trace c 8 [λ _, OCreate; λ _, ODestroy a] = [(OCreate, Some a); (ODestroy a, None)] ∧
  issued (end_trace c 8 [λ _, OCreate; λ _, ODestroy a; λ _, OCreate]) = [a; Entity 0 2] ∧ issued (end_trace c 8 [λ _, OCreate]) = [a].
Proof. intros md c a. split; [done|]. split_and!; destruct md; vm_compute; reflexivity. Qed.
