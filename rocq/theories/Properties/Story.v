(** Story.v — each entity is told from the calls made on it: C78. *)
From Verif.Spec Require Import Env Handles Components Discipline Caught Story.
From Verif.Proofs Require Import UsageR UsageP DiscP ExecP TagsX StoryP StoryC UnwindQ.
Local Open Scope N_scope.

(** C78: two stores in which the same calls were made on [e], in the same order, answer alike about [e]: whether it is alive, which components
    it has and, except for contents that create_entity_with_archetype left open, their values. What was done with other entities and in which
    order, the capacities, the standard libraries and the sizes of other types do not matter. *)
Theorem C78_components : ∀ c cap tr s c' cap' tr' s' e,
  cfg_ok c → c_mode c = Debug → cfg_ok c' → c_mode c' = Debug → hrun c cap tr s → hrun c' cap' tr' s' →
  e ∈ issued tr → story e tr = story e tr' →
  is_alive c s e = is_alive c' s' e ∧
  (∃ a a', get_entity_archetype c s e = POk a ∧ get_entity_archetype c' s' e = POk a' ∧ arch_ids <$> a = arch_ids <$> a') ∧
  ∀ T, T ≠ [] → (∀ t, t ∈ T → t ∉ untold tr e) → read_components c s e T = read_components c' s' e T.
Proof. exact story_told. Qed.
Print Assumptions C78_components.
(** The same for disciplined histories of both builds; also of one build and the other. *)
Theorem C78_both_builds : ∀ c cap tr s c' cap' tr' s' e,
  cfg_ok c → cfg_ok c' → drun (healthy c) c cap tr s → drun (healthy c') c' cap' tr' s' →
  e ∈ issued tr → story e tr = story e tr' →
  is_alive c s e = is_alive c' s' e ∧
  (∃ a a', get_entity_archetype c s e = POk a ∧ get_entity_archetype c' s' e = POk a' ∧ arch_ids <$> a = arch_ids <$> a') ∧
  ∀ T, T ≠ [] → (∀ t, t ∈ T → t ∉ untold tr e) → read_components c s e T = read_components c' s' e T.
Proof. exact story_told_both. Qed.
Print Assumptions C78_both_builds.
(** The same when calls panic and the panics are caught, in both builds; only the calls that returned are part of the story. *)
Theorem C78_caught : ∀ c cap tr s c' cap' tr' s' e,
  cfg_ok c → cfg_ok c' → crun c cap tr s → crun c' cap' tr' s' →
  e ∈ issued (answered tr) → story e (answered tr) = story e (answered tr') →
  is_alive c s e = is_alive c' s' e ∧
  (∃ a a', get_entity_archetype c s e = POk a ∧ get_entity_archetype c' s' e = POk a' ∧ arch_ids <$> a = arch_ids <$> a') ∧
  ∀ T, T ≠ [] → (∀ t, t ∈ T → t ∉ untold (answered tr) e) → read_components c s e T = read_components c' s' e T.
Proof. exact story_caught. Qed.
Print Assumptions C78_caught.
(** Tags likewise, if they are put on live entities only. *)
Theorem C78_tags : ∀ c cap tr s c' cap' tr' s' t e,
  search_ok (c_bs c) → c_mode c = Debug → search_ok (c_bs c') → c_mode c' = Debug →
  run c cap tr s → run c' cap' tr' s' → tags_on_live tr → tags_on_live tr' → alive_in tr e → story e tr = story e tr' →
  has_tag c s t e = has_tag c' s' t e.
Proof. exact story_tags. Qed.
Print Assumptions C78_tags.

(** The entity (1, 1) in two stores: of the second one the capacity is different, and other entities share its archetypes, are moved and
    destroyed. *)
Definition ex_alone : list (list entity → op) :=
  [λ _, OCreate; λ _, OCreate; λ hs, OAdd (h 1 hs) [(1, [1; 2; 3; 4])]; λ hs, OTagAdd 7 (h 1 hs); λ hs, OAdd (h 1 hs) [(3, [9])];
   λ hs, OSet (h 1 hs) [(1, [5; 6; 7; 8])]].
Definition ex_crowd : list (list entity → op) :=
  [λ _, OCreate; λ hs, OAdd (h 0 hs) [(1, [0; 0; 0; 0])]; λ _, OCreate; λ hs, OAdd (h 1 hs) [(1, [1; 2; 3; 4])]; λ _, OCreateWith (ex_arch [1; 3]);
   λ hs, OAdd (h 0 hs) [(4, [1; 2])]; λ hs, ODestroy (h 0 hs); λ hs, OTagAdd 7 (h 1 hs); λ hs, OTagAdd 7 (h 2 hs); λ hs, OAdd (h 1 hs) [(3, [9])];
   λ _, OCreate; λ hs, OAdd (h 3 hs) [(3, [1])]; λ hs, OSet (h 1 hs) [(1, [5; 6; 7; 8])]; λ hs, OAdd (h 3 hs) [(1, [4; 4; 4; 4])]].
Example C78_example :
  let c := ex_cfg Debug in let e := Entity 1 1 in
  let tr := end_trace c 8 ex_alone in let s := end_store c 8 ex_alone in let tr' := end_trace c 1 ex_crowd in let s' := end_store c 1 ex_crowd in
  hrun c 8 tr s ∧ hrun c 1 tr' s' ∧ story e tr = story e tr' ∧
  story e tr = [(OCreate, Some e); (OAdd e [(1, [1; 2; 3; 4])], None); (OTagAdd 7 e, None); (OAdd e [(3, [9])], None); (OSet e [(1, [5; 6; 7; 8])], None)] ∧
  get_eia s 1 ≠ get_eia s' 1 ∧ has_tag c s 7 e = POk true ∧ has_tag c s' 7 e = POk true ∧
  read_components c s e [3; 1] = POk (Some [[Some 9]; Some <$> [5; 6; 7; 8]]) ∧ read_components c s' e [3; 1] = POk (Some [[Some 9]; Some <$> [5; 6; 7; 8]]).
Proof. intros c e tr s tr' s'. split_and!; [apply hend_run; vm_compute; reflexivity..| | | | | | |]; vm_compute; try done; congruence. Qed.
(** What is not told may differ: the component 1 of the second entity is unwritten in one store, and has what a destroyed entity left in the
    other. *)
Example C78_untold_example :
  let c := ex_cfg Debug in let e := Entity 1 1 in
  let ops := [λ _, OCreate; λ _, OCreateWith (ex_arch [1])] in
  let ops' := [λ _, OCreate; λ hs, OAdd (h 0 hs) [(1, [1; 2; 3; 4])]; λ hs, ODestroy (h 0 hs); λ _, OCreate; λ _, OCreateWith (ex_arch [1])] in
  let tr := end_trace c 8 ops in let s := end_store c 8 ops in let tr' := end_trace c 8 ops' in let s' := end_store c 8 ops' in
  story e tr = story e tr' ∧ bool_decide (1 ∈ untold tr e) = true ∧
  read_components c s e [1] = POk (Some [[None; None; None; None]]) ∧ read_components c s' e [1] = POk (Some [Some <$> [1; 2; 3; 4]]).
Proof. split_and!; vm_compute; done. Qed.
(** Entity (1, 1) in a store with panicking calls, of which one is on this entity, see Properties/CaughtC.v, and in one without. *)
Example C78_caught_example : ∀ md,
  let c := ex_cfg md in let e := Entity 1 1 in
  let ops' := [λ _, OCreate; λ _, OCreateWith (ex_arch [1; 2]); λ hs, OAdd (h 1 hs) [(1, [5; 6; 7; 8])]; λ hs, OSet (h 1 hs) [(2, [1; 1; 1; 1; 1; 1; 1; 1])]] in
  ∃ tr s tr' s', cexec0 c 1 ex_caught = Some (tr, s) ∧ crun c 1 tr s ∧ cexec0 c 4 ops' = Some (tr', s') ∧ crun c 4 tr' s' ∧
  story e (answered tr) = story e (answered tr') ∧
  story e (answered tr) = [(OCreateWith (ex_arch [1; 2]), Some e); (OAdd e [(1, [5; 6; 7; 8])], None); (OSet e [(2, [1; 1; 1; 1; 1; 1; 1; 1])], None)] ∧
  read_components c s e [2; 1] = POk (Some [Some <$> [1; 1; 1; 1; 1; 1; 1; 1]; Some <$> [5; 6; 7; 8]]) ∧
  read_components c s' e [2; 1] = POk (Some [Some <$> [1; 1; 1; 1; 1; 1; 1; 1]; Some <$> [5; 6; 7; 8]]).
Proof.
  intros md c e ops'. destruct (cexec0 c 1 ex_caught) as [[tr s]|] eqn:E; [|by destruct md; vm_compute in E].
  destruct (cexec0 c 4 ops') as [[tr' s']|] eqn:E'; [|by destruct md; vm_compute in E'].
  exists tr, s, tr', s'. split; [done|]. split; [by eapply cexec0_run|]. split; [done|]. split; [by eapply cexec0_run|].
  assert ((λ r, (story e (answered r.1), read_components c r.2 e [2; 1])) <$> cexec0 c 1 ex_caught =
    Some ([(OCreateWith (ex_arch [1; 2]), Some e); (OAdd e [(1, [5; 6; 7; 8])], None); (OSet e [(2, [1; 1; 1; 1; 1; 1; 1; 1])], None)],
      POk (Some [Some <$> [1; 1; 1; 1; 1; 1; 1; 1]; Some <$> [5; 6; 7; 8]]))) as H by (destruct md; vm_compute; reflexivity).
  assert ((λ r, (story e (answered r.1), read_components c r.2 e [2; 1])) <$> cexec0 c 4 ops' =
    Some ([(OCreateWith (ex_arch [1; 2]), Some e); (OAdd e [(1, [5; 6; 7; 8])], None); (OSet e [(2, [1; 1; 1; 1; 1; 1; 1; 1])], None)],
      POk (Some [Some <$> [1; 1; 1; 1; 1; 1; 1; 1]; Some <$> [5; 6; 7; 8]]))) as H' by (destruct md; vm_compute; reflexivity).
  rewrite E in H. rewrite E' in H'. injection H as H1 H2. injection H' as H1' H2'. split_and!; [by etrans|done..].
Qed.
