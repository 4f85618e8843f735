(** Swap.v — calls that have nothing to do with each other can change places: C79. *)
From Verif.Spec Require Import Env Handles Components Discipline Swap.
From Verif.Proofs Require Import UsageR UsageP DiscP ExecP SwapP.
Local Open Scope N_scope.

(** C79: of two consecutive calls that are apart (Spec/Swap.v) the second can be made first. Both return what they returned, in both builds, and
    afterwards the store answers alike about all entities and groups: liveness, components and, except for contents that
    create_entity_with_archetype left open, values; the order of each group; and the tags, if they are put on live entities only. [frugal]:
    Spec/Discipline.v, asked of both histories. *)
Theorem C79_swap : ∀ c cap tr s x y,
  cfg_ok c → drun (λ _ _, True) c cap (tr ++ [x; y]) s → apart x y → frugal c (tr ++ [x; y]) → frugal c (tr ++ [y; x]) →
  ∃ s', drun (λ _ _, True) c cap (tr ++ [y; x]) s' ∧
  (∀ e, e ∈ issued (tr ++ [x; y]) →
    is_alive c s e = is_alive c s' e ∧
    (∃ a a', get_entity_archetype c s e = POk a ∧ get_entity_archetype c s' e = POk a' ∧ arch_ids <$> a = arch_ids <$> a') ∧
    ∀ T, T ≠ [] → (∀ t, t ∈ T → t ∉ untold (tr ++ [x; y]) e) → read_components c s e T = read_components c s' e T) ∧
  (∀ g, first_ordered c s g = first_ordered c s' g ∧ last_ordered c s g = last_ordered c s' g ∧
    ∀ e, alive_in (tr ++ [x; y]) e → next_ordered c s g e = next_ordered c s' g e ∧ previous_ordered c s g e = previous_ordered c s' g e) ∧
  (tags_on_live (tr ++ [x; y]) → ∀ t e, alive_in (tr ++ [x; y]) e → has_tag c s t e = has_tag c s' t e).
Proof. exact calls_swap. Qed.
Print Assumptions C79_swap.
(** The answers also for all histories with healthy states, Spec/Components.v. *)
Theorem C79_healthy : ∀ c cap tr s s' x y,
  cfg_ok c → drun (healthy c) c cap (tr ++ [x; y]) s → drun (healthy c) c cap (tr ++ [y; x]) s' → apart x y →
  (∀ e, e ∈ issued (tr ++ [x; y]) →
    is_alive c s e = is_alive c s' e ∧
    (∃ a a', get_entity_archetype c s e = POk a ∧ get_entity_archetype c s' e = POk a' ∧ arch_ids <$> a = arch_ids <$> a') ∧
    ∀ T, T ≠ [] → (∀ t, t ∈ T → t ∉ untold (tr ++ [x; y]) e) → read_components c s e T = read_components c s' e T) ∧
  (∀ g, first_ordered c s g = first_ordered c s' g ∧ last_ordered c s g = last_ordered c s' g ∧
    ∀ e, alive_in (tr ++ [x; y]) e → next_ordered c s g e = next_ordered c s' g e ∧ previous_ordered c s g e = previous_ordered c s' g e) ∧
  (tags_on_live (tr ++ [x; y]) → ∀ t e, alive_in (tr ++ [x; y]) e → has_tag c s t e = has_tag c s' t e).
Proof. exact swap_same. Qed.
Print Assumptions C79_healthy.

(** Which calls are apart: calls on the components of different entities; on the components and the tags of the same one; on two groups; a
    creation and a call on another entity; destructions of two entities; and the destruction of an entity and an order call without it. *)
Example C79_apart_example :
  let a := Entity 0 1 in let b := Entity 1 1 in let d := Entity 2 1 in
  apart (OAdd a [(1, [1; 2; 3; 4])], None) (ORemove b [1], None) ∧ apart (OSet a [(3, [9])], None) (OTagAdd 7 a, None) ∧
  apart (OOrdAdd 8 a, None) (OOrdAdd 9 a, None) ∧ apart (OCreateWith (ex_arch [1]), Some b) (OAdd a [(3, [1])], None) ∧
  apart (ODestroy a, None) (ODestroy b, None) ∧ apart (ODestroy a, None) (OOrdNext 9 b d, None) ∧
  ¬ apart (OAdd a [(1, [1; 2; 3; 4])], None) (OAdd a [(3, [9])], None) ∧ ¬ apart (OOrdAdd 9 a, None) (OOrdAdd 9 b, None) ∧
  ¬ apart (OCreate, Some b) (OAdd b [(3, [1])], None) ∧ ¬ apart (OCreate, Some b) (ODestroy a, None) ∧ ¬ apart (ODestroy a, None) (OTagAdd 7 a, None).
Proof.
  assert (∀ x y p, touches x p → touches y p → ¬ apart x y) as Hn by (intros x y p Hx Hy [H _]; by eapply H).
  intros a b d. split_and!.
  7: by apply (Hn _ _ (Comps a)). 7: by apply (Hn _ _ (Group 9)). 7: by apply (Hn _ _ (Comps b)).
  7: { intros (_ & [_ H] & _). destruct (H (ex_intro _ b eq_refl)) as [_ H']. by apply (H' a). }
  7: by apply (Hn _ _ (Tagged 7 a)).
  all: unfold apart, lets, touches, a, b, d; simpl; split; [intros [e|t e|g]; try tauto; intros H1 H2; destruct_and?; subst; congruence|].
  all: split; (split; [intros e [He|He]; simplify_eq; intros He; rewrite ?elem_of_cons, ?elem_of_nil in He; destruct_or?; try done; congruence|]).
  all: intros [? ?]; simplify_eq; done.
Qed.
(** The entities have different places in the two stores. *)
Definition ex_before : list (list entity → op) :=
  [λ _, OCreate; λ _, OCreate; λ hs, OAdd (h 0 hs) [(1, [1; 2; 3; 4])]; λ hs, OOrdAdd 9 (h 1 hs); λ hs, OOrdAdd 9 (h 0 hs); λ hs, OTagAdd 7 (h 1 hs);
   λ _, OCreate; λ hs, OAdd (h 2 hs) [(1, [0; 0; 0; 0])]].
Example C79_example : ∀ md,
  let c := ex_cfg md in let e1 := Entity 1 1 in let e2 := Entity 0 1 in
  let o1 := OAdd e1 [(1, [5; 6; 7; 8])] in let o2 := OAdd e2 [(3, [9])] in
  let ops := ex_before ++ [λ _, o1; λ _, o2] in let ops' := ex_before ++ [λ _, o2; λ _, o1] in
  let tr := end_trace c 8 ex_before in let s := end_store c 8 ops in let s' := end_store c 8 ops' in
  end_trace c 8 ops = tr ++ [(o1, None); (o2, None)] ∧ end_trace c 8 ops' = tr ++ [(o2, None); (o1, None)] ∧
  drun (λ _ _, True) c 8 (end_trace c 8 ops) s ∧ frugal c (end_trace c 8 ops) ∧ drun (λ _ _, True) c 8 (end_trace c 8 ops') s' ∧ frugal c (end_trace c 8 ops') ∧
  get_eia s 1 ≠ get_eia s' 1 ∧
  read_components c s e1 [1] = POk (Some [Some <$> [5; 6; 7; 8]]) ∧ read_components c s' e1 [1] = POk (Some [Some <$> [5; 6; 7; 8]]) ∧
  read_components c s e2 [3; 1] = POk (Some [[Some 9]; Some <$> [1; 2; 3; 4]]) ∧ read_components c s' e2 [3; 1] = POk (Some [[Some 9]; Some <$> [1; 2; 3; 4]]) ∧
  next_ordered c s 9 e1 = POk (Some e2) ∧ next_ordered c s' 9 e1 = POk (Some e2).
Proof.
  intros md c e1 e2 o1 o2 ops ops' tr s s'. split; [by destruct md; vm_compute|]. split; [by destruct md; vm_compute|].
  split; [apply dend_run; destruct md; vm_compute; reflexivity|].
  split. { split; [apply one_abandonedb_ok|right; apply below_capacityb_ok]; destruct md; vm_compute; reflexivity. }
  split; [apply dend_run; destruct md; vm_compute; reflexivity|].
  split. { split; [apply one_abandonedb_ok|right; apply below_capacityb_ok]; destruct md; vm_compute; reflexivity. }
  split_and!; destruct md; vm_compute; congruence.
Qed.
(** The handle that a creation returns depends on the destructions before it. *)
Example C79_creation_example :
  let c := ex_cfg Debug in
  end_trace c 8 [λ _, OCreate; λ hs, ODestroy (h 0 hs); λ _, OCreate] = [(OCreate, Some (Entity 0 1)); (ODestroy (Entity 0 1), None); (OCreate, Some (Entity 0 2))] ∧
  end_trace c 8 [λ _, OCreate; λ _, OCreate; λ hs, ODestroy (h 0 hs)] = [(OCreate, Some (Entity 0 1)); (OCreate, Some (Entity 1 1)); (ODestroy (Entity 0 1), None)].
Proof. vm_compute. done. Qed.
