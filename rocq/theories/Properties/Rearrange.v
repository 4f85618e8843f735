(** Rearrange.v — rearranged histories: C85. *)
From Verif.Spec Require Import Env Handles Components Discipline Caught Alike Rearrange.
From Verif.Proofs Require Import UsageR UsageP DiscP ExecP RearrangeP.
Local Open Scope N_scope.

(** C85: two histories that differ in the order of neighbouring calls that have nothing to do with each other, exchanged any number of times
    anywhere in the history (Spec/Rearrange.v), cannot be told apart: the stores answer alike about all entities and groups: liveness,
    components and, except for contents that create_entity_with_archetype left open, values; the order of each group; and the tags, if they
    are put on live entities only. In both builds; the capacities may differ. *)
Theorem C85_healthy : ∀ c cap cap' T T' s s',
  cfg_ok c → drun (healthy c) c cap T s → drun (healthy c) c cap' T' s' → rearranged T T' →
  (∀ e, e ∈ issued T →
    is_alive c s e = is_alive c s' e ∧
    (∃ a a', get_entity_archetype c s e = POk a ∧ get_entity_archetype c s' e = POk a' ∧ arch_ids <$> a = arch_ids <$> a') ∧
    ∀ U, U ≠ [] → (∀ t, t ∈ U → t ∉ untold T e) → read_components c s e U = read_components c s' e U) ∧
  (∀ g, first_ordered c s g = first_ordered c s' g ∧ last_ordered c s g = last_ordered c s' g ∧
    ∀ e, alive_in T e → next_ordered c s g e = next_ordered c s' g e ∧ previous_ordered c s g e = previous_ordered c s' g e) ∧
  (tags_on_live T → ∀ t e, alive_in T e → has_tag c s t e = has_tag c s' t e).
Proof. exact rearranged_same. Qed.
Print Assumptions C85_healthy.
(** And when calls panic and the panics are caught, which may be other calls in the two histories. *)
Theorem C85_caught : ∀ c cap cap' tr1 tr2 s s',
  cfg_ok c → crun c cap tr1 s → crun c cap' tr2 s' → rearranged (answered tr1) (answered tr2) →
  let T := answered tr1 in
  (∀ e, e ∈ issued T →
    is_alive c s e = is_alive c s' e ∧
    (∃ a a', get_entity_archetype c s e = POk a ∧ get_entity_archetype c s' e = POk a' ∧ arch_ids <$> a = arch_ids <$> a') ∧
    ∀ U, U ≠ [] → (∀ t, t ∈ U → t ∉ untold T e) → read_components c s e U = read_components c s' e U) ∧
  (ec_cap (st_ec s) < 2 ^ 32 → ec_cap (st_ec s') < 2 ^ 32 →
    (∀ g, first_ordered c s g = first_ordered c s' g ∧ last_ordered c s g = last_ordered c s' g ∧
      ∀ e, alive_in T e → next_ordered c s g e = next_ordered c s' g e ∧ previous_ordered c s g e = previous_ordered c s' g e) ∧
    (tags_on_live T → ∀ t e, alive_in T e → has_tag c s t e = has_tag c s' t e)).
Proof. exact rearranged_caught. Qed.
Print Assumptions C85_caught.
(** Component queries then visit the same entities with the same values, and ordered queries in the same order (C82), if the values of the queried
    components are told by the calls. *)
Theorem C85_component_query : ∀ c cap cap' T T' s s' q,
  cfg_ok c → drun (healthy c) c cap T s → drun (healthy c) c cap' T' s' → rearranged T T' →
  NoDup (q_types q) → q_types q ≠ [] → (∀ e t, alive_in T e → t ∈ q_types q → t ∉ untold T e) → visited_alike c s c s' q.
Proof. exact rearranged_queries. Qed.
Print Assumptions C85_component_query.
Theorem C85_ordered_query : ∀ c cap cap' T T' s s' q g fuel,
  cfg_ok c → drun (healthy c) c cap T s → drun (healthy c) c cap' T' s' → rearranged T T' →
  NoDup (q_types q) → q_types q ≠ [] → (∀ e t, alive_in T e → t ∈ q_types q → t ∉ untold T e) →
  (∀ e, e ∈ members T g → had_components T e ∧ had_components T' e) → (length (members T g) < fuel)%nat → ordered_alike c s c s' q g fuel.
Proof. exact rearranged_ordered. Qed.
Print Assumptions C85_ordered_query.
Theorem C85_caught_component_query : ∀ c cap cap' tr1 tr2 s s' q,
  let T := answered tr1 in cfg_ok c → crun c cap tr1 s → crun c cap' tr2 s' → rearranged T (answered tr2) →
  NoDup (q_types q) → q_types q ≠ [] → (∀ e t, alive_in T e → t ∈ q_types q → t ∉ untold T e) → visited_alike c s c s' q.
Proof. exact rearranged_queries_caught. Qed.
Print Assumptions C85_caught_component_query.
(** If the calls of one history return, so do those of the other, with the same results, for one exchange anywhere in the history. Two
    destructions are excepted: creations after them would give the ids in the other order. [frugal]: Spec/Discipline.v. *)
Theorem C85_apart_returns : ∀ c cap tr x y tr2 s,
  cfg_ok c → drun (λ _ _, True) c cap (tr ++ [x; y] ++ tr2) s → apart x y → (∀ e e', x.1 = ODestroy e → y.1 ≠ ODestroy e') →
  frugal c (tr ++ [x; y] ++ tr2) → frugal c (tr ++ [y; x] ++ tr2) → ∃ s', drun (λ _ _, True) c cap (tr ++ [y; x] ++ tr2) s'.
Proof. exact apart_returns. Qed.
Print Assumptions C85_apart_returns.
Theorem C85_loop_returns : ∀ c cap tr x q f tr2, cfg_ok c → aside x.1 q → frugal c (tr ++ [x; (OWrite q f, None)] ++ tr2) →
  ((∃ s, drun (λ _ _, True) c cap (tr ++ [x; (OWrite q f, None)] ++ tr2) s) ↔ ∃ s', drun (λ _ _, True) c cap (tr ++ [(OWrite q f, None); x] ++ tr2) s').
Proof. exact loop_returns. Qed.
Print Assumptions C85_loop_returns.

(** A component is added, a tag put on another entity, a loop run that reads type 1 and writes type 2, and then components are removed; in the
    other history the loop comes first, then the tag, then the component. *)
Definition ex_base : list (list entity → op) :=
  [λ _, OCreate; λ _, OCreate; λ hs, OAdd (h 0 hs) [(1, [1; 2; 3; 4]); (2, [0; 0; 0; 0; 0; 0; 0; 0])];
   λ hs, OAdd (h 1 hs) [(1, [5; 6; 7; 8]); (2, [0; 0; 0; 0; 0; 0; 0; 0])]; λ hs, OOrdAdd 9 (h 1 hs)].
Definition ex_head (l : list (list cell)) : N := match l with (Some b :: _) :: _ => b | _ => 0 end.
Definition ex_run : op := OWrite (Access [1] [2]) (λ _ l, [replicate 8 (ex_head l)]).
Example C85_example : ∀ md,
  let c := ex_cfg md in let a := Entity 0 1 in let b := Entity 1 1 in
  let x := OAdd a [(3, [1])] in let y := OTagAdd 7 b in let w := ex_run in let z := ORemove a [1] in
  let tr := end_trace c 8 ex_base in let s0 := end_store c 8 ex_base in
  let T := tr ++ calls [x; y; w; z] in let T' := tr ++ calls [w; y; x; z] in
  let s := after_calls c [x; y; w; z] s0 in let s' := after_calls c [w; y; x; z] s0 in
  rearranged T T' ∧ drun (λ _ _, True) c 8 T s ∧ frugal c T ∧ drun (λ _ _, True) c 8 T' s' ∧ frugal c T' ∧
  read_components c s a [2; 3] = POk (Some [Some <$> [1; 1; 1; 1; 1; 1; 1; 1]; [Some 1]]) ∧ read_components c s' a [2; 3] = POk (Some [Some <$> [1; 1; 1; 1; 1; 1; 1; 1]; [Some 1]]) ∧
  read_components c s b [2] = POk (Some [Some <$> [5; 5; 5; 5; 5; 5; 5; 5]]) ∧ read_components c s' b [2] = POk (Some [Some <$> [5; 5; 5; 5; 5; 5; 5; 5]]) ∧
  has_tag c s 7 b = POk true ∧ has_tag c s' 7 b = POk true.
Proof.
  intros md c a b x y w z tr s0 T T' s s'.
  assert (drun (λ _ _, True) c 8 tr s0) as H0 by (apply dend_run; destruct md; vm_compute; reflexivity).
  assert (args_ok c w) as Hw.
  { split; [repeat constructor; set_solver|]. intros e l. split; [done|]. intros t v [= -> ->]%elem_of_list_singleton. by destruct md. }
  assert (apart (x, None) (y, None)) as Hap.
  { split; [intros [e|t e|g] H1 H2; try done|]. split; (split; [intros e [He|He]; done|by intros [? ?]]). }
  assert (aside x (Access [1] [2])) as Hax. { intros t ->%elem_of_list_singleton. unfold q_types. simpl. rewrite !elem_of_cons, elem_of_nil. intros [?|[?|[]]]; lia. }
  split.
  { eapply re_more; [exact (re_apart tr (x, None) (y, None) [(w, None); (z, None)] Hap)|].
    eapply re_more; [|exact (re_loop tr (y, None) _ _ [(x, None); (z, None)] I)].
    pose proof (re_loop (tr ++ [(y, None)]) (x, None) (Access [1] [2]) (λ _ l, [replicate 8 (ex_head l)]) [(z, None)] Hax) as H. by rewrite <- !app_assoc in H. }
  split. { apply calls_run; [done| |destruct md; vm_compute; reflexivity]. intros q f Hq. repeat (apply elem_of_cons in Hq as [Hq|Hq]; [try discriminate Hq; rewrite Hq; exact Hw|]). by apply elem_of_nil in Hq. }
  split. { split; [apply one_abandonedb_ok|right; apply below_capacityb_ok]; destruct md; vm_compute; reflexivity. }
  split. { apply calls_run; [done| |destruct md; vm_compute; reflexivity]. intros q f Hq. repeat (apply elem_of_cons in Hq as [Hq|Hq]; [try discriminate Hq; rewrite Hq; exact Hw|]). by apply elem_of_nil in Hq. }
  split. { split; [apply one_abandonedb_ok|right; apply below_capacityb_ok]; destruct md; vm_compute; reflexivity. }
  split_and!; destruct md; vm_compute; reflexivity.
Qed.
(** Why two destructions are excepted: they are apart, but a creation after them gives another handle. *)
Example C85_destructions_example : ∀ md,
  let c := ex_cfg md in let a := Entity 0 1 in let b := Entity 1 1 in let ops := [λ _, OCreate; λ _, OCreate; λ _, OCreate] in
  apart (ODestroy a, None) (ODestroy b, None) ∧
  issued (end_trace c 8 (ops ++ [λ _, ODestroy a; λ _, ODestroy b; λ _, OCreate])) ≠ issued (end_trace c 8 (ops ++ [λ _, ODestroy b; λ _, ODestroy a; λ _, OCreate])).
Proof.
  intros md c a b ops. split; [|destruct md; vm_compute; congruence]. clear ops. assert (a ≠ b) as Hab by done. clearbody a b.
  split; [intros [e|t e|g] H1 H2; unfold touches in *; simpl in *; first [done|congruence]|]. split; (split; [|by intros [? ?]]); intros e [He|He]; try done; injection He as <-; intros H%elem_of_list_singleton; congruence.
Qed.
