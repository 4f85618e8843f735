(** Override.v — superfluous calls can be left out: C81. *)
From Verif.Spec Require Import Env Handles Components Discipline Override.
From Verif.Proofs Require Import UsageR UsageP DiscP ExecP OverrideP.
Local Open Scope N_scope.

(** C81: of two consecutive calls of which the second makes the first superfluous (Spec/Override.v), the first can be left out. The second
    returns then too, in both builds, and afterwards the store answers alike about all entities and groups: liveness, components and, except
    for contents that create_entity_with_archetype left open, values; the order of each group; and the tags, if they are put on live entities
    only. [frugal]: Spec/Discipline.v, asked of both histories. *)
Theorem C81_superfluous : ∀ c cap tr s x y,
  cfg_ok c → drun (λ _ _, True) c cap (tr ++ [x; y]) s → overrides x.1 y.1 → frugal c (tr ++ [x; y]) → frugal c (tr ++ [y]) →
  ∃ s', drun (λ _ _, True) c cap (tr ++ [y]) s' ∧
  (∀ e, e ∈ issued tr →
    is_alive c s e = is_alive c s' e ∧
    (∃ a a', get_entity_archetype c s e = POk a ∧ get_entity_archetype c s' e = POk a' ∧ arch_ids <$> a = arch_ids <$> a') ∧
    ∀ T, T ≠ [] → (∀ t, t ∈ T → t ∉ untold (tr ++ [y]) e) → read_components c s e T = read_components c s' e T) ∧
  (∀ g, first_ordered c s g = first_ordered c s' g ∧ last_ordered c s g = last_ordered c s' g ∧
    ∀ e, alive_in (tr ++ [y]) e → next_ordered c s g e = next_ordered c s' g e ∧ previous_ordered c s g e = previous_ordered c s' g e) ∧
  (tags_on_live (tr ++ [x; y]) → ∀ t e, alive_in (tr ++ [y]) e → has_tag c s t e = has_tag c s' t e).
Proof. exact calls_override. Qed.
Print Assumptions C81_superfluous.
(** The answers also for all histories with healthy states, Spec/Components.v. *)
Theorem C81_healthy : ∀ c cap tr s s' x y,
  cfg_ok c → drun (healthy c) c cap (tr ++ [x; y]) s → drun (healthy c) c cap (tr ++ [y]) s' → overrides x.1 y.1 →
  (∀ e, e ∈ issued tr →
    is_alive c s e = is_alive c s' e ∧
    (∃ a a', get_entity_archetype c s e = POk a ∧ get_entity_archetype c s' e = POk a' ∧ arch_ids <$> a = arch_ids <$> a') ∧
    ∀ T, T ≠ [] → (∀ t, t ∈ T → t ∉ untold (tr ++ [y]) e) → read_components c s e T = read_components c s' e T) ∧
  (∀ g, first_ordered c s g = first_ordered c s' g ∧ last_ordered c s g = last_ordered c s' g ∧
    ∀ e, alive_in (tr ++ [y]) e → next_ordered c s g e = next_ordered c s' g e ∧ previous_ordered c s g e = previous_ordered c s' g e) ∧
  (tags_on_live (tr ++ [x; y]) → ∀ t e, alive_in (tr ++ [y]) e → has_tag c s t e = has_tag c s' t e).
Proof. exact override_same. Qed.
Print Assumptions C81_healthy.

(** A component is added to the first of three entities in a page and then once more together with another one, or only the latter is done:
    the same values, in different places. *)
Definition ex_three : list (list entity → op) :=
  [λ _, OCreate; λ _, OCreate; λ _, OCreate; λ hs, OAdd (h 0 hs) [(1, [1; 2; 3; 4])]; λ hs, OAdd (h 1 hs) [(1, [5; 6; 7; 8])];
   λ hs, OAdd (h 2 hs) [(1, [9; 9; 9; 9])]; λ hs, OTagAdd 7 (h 0 hs); λ hs, OOrdAdd 9 (h 2 hs); λ hs, OOrdAdd 9 (h 0 hs)].
Example C81_example : ∀ md,
  let c := ex_cfg md in let e := Entity 0 1 in let x := OAdd e [(3, [1])] in let y := OAdd e [(4, [2; 2]); (3, [7])] in
  let ops := ex_three ++ [λ _, x; λ _, y] in let ops' := ex_three ++ [λ _, y] in
  let tr := end_trace c 8 ex_three in let s := end_store c 8 ops in let s' := end_store c 8 ops' in
  end_trace c 8 ops = tr ++ [(x, None); (y, None)] ∧ end_trace c 8 ops' = tr ++ [(y, None)] ∧ overrides x y ∧
  drun (λ _ _, True) c 8 (end_trace c 8 ops) s ∧ frugal c (end_trace c 8 ops) ∧ drun (λ _ _, True) c 8 (end_trace c 8 ops') s' ∧ frugal c (end_trace c 8 ops') ∧
  get_eia s 0 ≠ get_eia s' 0 ∧
  read_components c s e [1; 3; 4] = POk (Some [Some <$> [1; 2; 3; 4]; [Some 7]; Some <$> [2; 2]]) ∧
  read_components c s' e [1; 3; 4] = POk (Some [Some <$> [1; 2; 3; 4]; [Some 7]; Some <$> [2; 2]]).
Proof.
  intros md c e x y ops ops' tr s s'. split; [by destruct md; vm_compute|]. split; [by destruct md; vm_compute|].
  split. { split; [done|]. intros t ->%elem_of_list_singleton. right. by left. }
  split; [apply dend_run; destruct md; vm_compute; reflexivity|].
  split. { split; [apply one_abandonedb_ok|right; apply below_capacityb_ok]; destruct md; vm_compute; reflexivity. }
  split; [apply dend_run; destruct md; vm_compute; reflexivity|].
  split. { split; [apply one_abandonedb_ok|right; apply below_capacityb_ok]; destruct md; vm_compute; reflexivity. }
  split_and!; destruct md; vm_compute; congruence.
Qed.
(** Which calls are superfluous. Values set before a set of other types are not: the second call does nothing if the entity lacks one of its
    types. *)
Example C81_overrides_example :
  let a := Entity 0 1 in let b := Entity 1 1 in
  overrides (OSet a [(1, [1; 2; 3; 4])]) (ODestroy a) ∧ overrides (OOrdNext 9 a b) (ODestroy a) ∧ overrides (OTagDel 7 a) (OTagAdd 7 a) ∧
  overrides (ORemove a [1]) (OAdd a [(1, [1; 2; 3; 4])]) ∧
  ¬ overrides (OAdd a [(1, [1; 2; 3; 4])]) (OAdd a [(3, [1])]) ∧ ¬ overrides (OTagAdd 7 a) (OTagAdd 8 a) ∧ ¬ overrides (ODestroy a) (ODestroy b) ∧
  ¬ overrides (OSet a [(1, [1; 2; 3; 4])]) (OSet a [(1, [0; 0; 0; 0]); (3, [1])]).
Proof.
  intros a b. do 3 (split; [done|]). split; [by split|]. split; [|split; [|split]].
  - intros [_ H]. specialize (H 1 ltac:(by left)). by apply elem_of_list_singleton in H.
  - by intros [? _].
  - by intros [].
  - intros (_ & _ & H). specialize (H 3 ltac:(right; by left)). by apply elem_of_list_singleton in H.
Qed.
Example C81_set_example :
  let c := ex_cfg Debug in let a := Entity 0 1 in let y := OSet a [(1, [0; 0; 0; 0]); (3, [1])] in
  let s := end_store c 8 (ex_three ++ [λ _, OSet a [(1, [5; 5; 5; 5])]; λ _, y]) in let s' := end_store c 8 (ex_three ++ [λ _, y]) in
  read_components c s a [1] = POk (Some [Some <$> [5; 5; 5; 5]]) ∧ read_components c s' a [1] = POk (Some [Some <$> [1; 2; 3; 4]]).
Proof. vm_compute. done. Qed.
