(** TakeBack.v — what is taken back leaves nothing: C80. *)
From Verif.Spec Require Import Env Handles Components Discipline TakeBack.
From Verif.Proofs Require Import UsageR UsageP DiscP ExecP TakeBackP.
Local Open Scope N_scope.

(** C80: after a call and one that takes it back (Spec/TakeBack.v) the store answers about all entities and groups as before, in both builds:
    liveness, components and, except for contents that create_entity_with_archetype left open, values; the order of each group; and the
    tags, if they are put on live entities only. [frugal]: Spec/Discipline.v. *)
Theorem C80_undo : ∀ c cap tr s s' x y,
  cfg_ok c → drun (λ _ _, True) c cap tr s → drun (λ _ _, True) c cap (tr ++ [x; y]) s' → undoes tr x y → frugal c (tr ++ [x; y]) →
  (∀ e, e ∈ issued tr →
    is_alive c s e = is_alive c s' e ∧
    (∃ a a', get_entity_archetype c s e = POk a ∧ get_entity_archetype c s' e = POk a' ∧ arch_ids <$> a = arch_ids <$> a') ∧
    ∀ T, T ≠ [] → (∀ t, t ∈ T → t ∉ untold tr e) → read_components c s e T = read_components c s' e T) ∧
  (∀ g, first_ordered c s g = first_ordered c s' g ∧ last_ordered c s g = last_ordered c s' g ∧
    ∀ e, alive_in tr e → next_ordered c s g e = next_ordered c s' g e ∧ previous_ordered c s g e = previous_ordered c s' g e) ∧
  (tags_on_live (tr ++ [x; y]) → ∀ t e, alive_in tr e → has_tag c s t e = has_tag c s' t e).
Proof. exact calls_undo. Qed.
Print Assumptions C80_undo.
(** The answers also for all histories with healthy states, Spec/Components.v. *)
Theorem C80_healthy : ∀ c cap tr s s' x y,
  cfg_ok c → drun (healthy c) c cap tr s → drun (healthy c) c cap (tr ++ [x; y]) s' → undoes tr x y →
  (∀ e, e ∈ issued tr →
    is_alive c s e = is_alive c s' e ∧
    (∃ a a', get_entity_archetype c s e = POk a ∧ get_entity_archetype c s' e = POk a' ∧ arch_ids <$> a = arch_ids <$> a') ∧
    ∀ T, T ≠ [] → (∀ t, t ∈ T → t ∉ untold tr e) → read_components c s e T = read_components c s' e T) ∧
  (∀ g, first_ordered c s g = first_ordered c s' g ∧ last_ordered c s g = last_ordered c s' g ∧
    ∀ e, alive_in tr e → next_ordered c s g e = next_ordered c s' g e ∧ previous_ordered c s g e = previous_ordered c s' g e) ∧
  (tags_on_live (tr ++ [x; y]) → ∀ t e, alive_in tr e → has_tag c s t e = has_tag c s' t e).
Proof. exact undo_same. Qed.
Print Assumptions C80_healthy.
(** And the call can be taken back: the second call returns. First components of an entity are an exception, because not all components of an
    entity can be removed (C13). *)
Theorem C80_can_undo : ∀ c cap tr s x o,
  cfg_ok c → drun (λ _ _, True) c cap (tr ++ [x]) s → frugal c (tr ++ [x]) → undoes tr x (o, None) → args_ok c o →
  (∀ e vals, x.1 = OAdd e vals → types tr e ≠ Some ∅) → ∃ s', drun (λ _ _, True) c cap (tr ++ [x; (o, None)]) s'.
Proof. exact undo_returns. Qed.
Print Assumptions C80_can_undo.

(** A component is added to the first of three entities in a page and removed again: the entity is the last one in the page now. *)
Definition ex_three : list (list entity → op) :=
  [λ _, OCreate; λ _, OCreate; λ _, OCreate; λ hs, OAdd (h 0 hs) [(1, [1; 2; 3; 4])]; λ hs, OAdd (h 1 hs) [(1, [5; 6; 7; 8])];
   λ hs, OAdd (h 2 hs) [(1, [9; 9; 9; 9])]; λ hs, OTagAdd 7 (h 0 hs); λ hs, OOrdAdd 9 (h 2 hs); λ hs, OOrdAdd 9 (h 0 hs)].
Example C80_example : ∀ md,
  let c := ex_cfg md in let e := Entity 0 1 in let x := OAdd e [(3, [1])] in let y := ORemove e [3] in let ops := ex_three ++ [λ _, x; λ _, y] in
  let tr := end_trace c 8 ex_three in let s := end_store c 8 ex_three in let s' := end_store c 8 ops in
  end_trace c 8 ops = tr ++ [(x, None); (y, None)] ∧ undoes tr (x, None) (y, None) ∧
  drun (λ _ _, True) c 8 tr s ∧ drun (λ _ _, True) c 8 (end_trace c 8 ops) s' ∧ frugal c (end_trace c 8 ops) ∧ get_eia s 0 ≠ get_eia s' 0 ∧
  read_components c s e [1] = POk (Some [Some <$> [1; 2; 3; 4]]) ∧ read_components c s' e [1] = POk (Some [Some <$> [1; 2; 3; 4]]) ∧
  read_components c s' e [3] = POk None ∧ has_tag c s' 7 e = POk true ∧ last_ordered c s' 9 = POk (Some e).
Proof.
  intros md c e x y ops tr s s'. split; [by destruct md; vm_compute|].
  split. { split; [done|]. split; [done|]. intros t ->%elem_of_list_singleton. apply (bool_decide_eq_true_1 (3 ∉ default ∅ (types tr e))). destruct md; vm_compute; reflexivity. }
  split; [apply dend_run; destruct md; vm_compute; reflexivity|].
  split; [apply dend_run; destruct md; vm_compute; reflexivity|].
  split. { split; [apply one_abandonedb_ok|right; apply below_capacityb_ok]; destruct md; vm_compute; reflexivity. }
  split_and!; destruct md; vm_compute; congruence.
Qed.
(** Calls that do not take back: a component that the entity had is added with another value and removed; and a member of a group leaves it
    and enters it at the end. *)
Example C80_not_example :
  let c := ex_cfg Debug in let e := Entity 2 1 in let s := end_store c 8 ex_three in
  let s1 := end_store c 8 (ex_three ++ [λ _, OAdd e [(3, [1]); (1, [0; 0; 0; 0])]; λ _, ORemove e [1]]) in
  let s2 := end_store c 8 (ex_three ++ [λ _, OOrdDel 9 e; λ _, OOrdAdd 9 e]) in
  read_components c s e [1] = POk (Some [Some <$> [9; 9; 9; 9]]) ∧ read_components c s1 e [1] = POk None ∧
  first_ordered c s 9 = POk (Some e) ∧ first_ordered c s2 9 = POk (Some (Entity 0 1)).
Proof. vm_compute. done. Qed.
(** First components cannot be taken back. *)
Example C80_first_example :
  let c := ex_cfg Debug in let ops := [λ _, OCreate; λ hs, OAdd (h 0 hs) [(1, [1; 2; 3; 4])]] in let e := Entity 0 1 in
  let tr := end_trace c 8 ops in let s := end_store c 8 ops in
  tr = [(OCreate, Some e); (OAdd e [(1, [1; 2; 3; 4])], None)] ∧ types (take 1 tr) e = Some ∅ ∧
  match step c (ORemove e [1]) s with RPanic _ => True | _ => False end.
Proof. split_and!; vm_compute; done. Qed.
(** Which calls take back the one before them. *)
Example C80_undoes_example :
  let c := ex_cfg Debug in let tr := end_trace c 8 ex_three in let a := Entity 0 1 in let b := Entity 1 1 in
  undoes tr (OCreateWith (ex_arch [1; 2]), Some (Entity 3 1)) (ODestroy (Entity 3 1), None) ∧
  undoes tr (OOrdNext 9 b a, None) (OOrdDel 9 b, None) ∧ undoes tr (OTagDel 7 a, None) (OTagAdd 7 a, None) ∧
  undoes tr (OSet a [(1, [0; 0; 0; 0])], None) (OSet a [(1, [1; 2; 3; 4])], None).
Proof.
  intros c tr a b. split; [done|]. split; [done|]. split; [split; [done|]; split; [done|]|split; [done|]; split; [done|]].
  - exists (take 6 tr), (OTagAdd 7 a, None), (drop 7 tr). split; [by vm_compute|]. split; [done|]. vm_compute. repeat constructor; naive_solver.
  - intros m t v Hm [= -> ->]%elem_of_list_singleton. vm_compute in Hm.
    repeat match goal with H : comps (?p :: ?l) ?e ?x |- _ =>
      let q := eval vm_compute in (take (length l) (p :: l)) in let z := eval vm_compute in (drop (length l) (p :: l)) in
      match z with [(?o, ?r)] => change (comps (q ++ [(o, r)]) e x) in H; apply comps_snoc_iff in H as (? & ? & ?) end end.
    match goal with H : comps [] _ _ |- _ => apply comps_nil_iff in H end. cbn [comp_step] in *. subst. vm_compute in *. simplify_eq. done.
Qed.
