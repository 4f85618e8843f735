(** LawsC.v — the laws C79, C80 and C81 when calls panic and the panics are caught. *)
From Verif.Spec Require Import Env Handles Components Discipline Caught Swap TakeBack Override.
From Verif.Proofs Require Import UsageR UsageP DiscP ExecP LawsC.
Local Open Scope N_scope.

(** C79 in both builds, when calls panic and the panics are caught, which may be other calls in the two histories: calls that returned can change
    places if they are apart. Capacities may differ. *)
Theorem C79_caught : ∀ c cap tr1 s cap' tr2 s' tr x y, cfg_ok c → crun c cap tr1 s → crun c cap' tr2 s' →
  answered tr1 = tr ++ [x; y] → answered tr2 = tr ++ [y; x] → apart x y →
  (∀ e, e ∈ issued (tr ++ [x; y]) →
    is_alive c s e = is_alive c s' e ∧
    (∃ a a', get_entity_archetype c s e = POk a ∧ get_entity_archetype c s' e = POk a' ∧ arch_ids <$> a = arch_ids <$> a') ∧
    ∀ T, T ≠ [] → (∀ t, t ∈ T → t ∉ untold (tr ++ [x; y]) e) → read_components c s e T = read_components c s' e T) ∧
  (ec_cap (st_ec s) < 2 ^ 32 → ec_cap (st_ec s') < 2 ^ 32 →
    (∀ g, first_ordered c s g = first_ordered c s' g ∧ last_ordered c s g = last_ordered c s' g ∧
      ∀ e, alive_in (tr ++ [x; y]) e → next_ordered c s g e = next_ordered c s' g e ∧ previous_ordered c s g e = previous_ordered c s' g e) ∧
    (tags_on_live (tr ++ [x; y]) → ∀ t e, alive_in (tr ++ [x; y]) e → has_tag c s t e = has_tag c s' t e)).
Proof. exact swap_caught. Qed.
Print Assumptions C79_caught.
(** C80 likewise: what was taken back leaves nothing. *)
Theorem C80_caught : ∀ c cap tr1 s cap' tr2 s' tr x y, cfg_ok c → crun c cap tr1 s → crun c cap' tr2 s' →
  answered tr1 = tr → answered tr2 = tr ++ [x; y] → undoes tr x y →
  (∀ e, e ∈ issued tr →
    is_alive c s e = is_alive c s' e ∧
    (∃ a a', get_entity_archetype c s e = POk a ∧ get_entity_archetype c s' e = POk a' ∧ arch_ids <$> a = arch_ids <$> a') ∧
    ∀ T, T ≠ [] → (∀ t, t ∈ T → t ∉ untold tr e) → read_components c s e T = read_components c s' e T) ∧
  (ec_cap (st_ec s) < 2 ^ 32 → ec_cap (st_ec s') < 2 ^ 32 →
    (∀ g, first_ordered c s g = first_ordered c s' g ∧ last_ordered c s g = last_ordered c s' g ∧
      ∀ e, alive_in tr e → next_ordered c s g e = next_ordered c s' g e ∧ previous_ordered c s g e = previous_ordered c s' g e) ∧
    (tags_on_live (tr ++ [x; y]) → ∀ t e, alive_in tr e → has_tag c s t e = has_tag c s' t e)).
Proof. exact undo_caught. Qed.
Print Assumptions C80_caught.
(** C81 likewise: superfluous calls can be left out. *)
Theorem C81_caught : ∀ c cap tr1 s cap' tr2 s' tr x y, cfg_ok c → crun c cap tr1 s → crun c cap' tr2 s' →
  answered tr1 = tr ++ [x; y] → answered tr2 = tr ++ [y] → overrides x.1 y.1 →
  (∀ e, e ∈ issued tr →
    is_alive c s e = is_alive c s' e ∧
    (∃ a a', get_entity_archetype c s e = POk a ∧ get_entity_archetype c s' e = POk a' ∧ arch_ids <$> a = arch_ids <$> a') ∧
    ∀ T, T ≠ [] → (∀ t, t ∈ T → t ∉ untold (tr ++ [y]) e) → read_components c s e T = read_components c s' e T) ∧
  (ec_cap (st_ec s) < 2 ^ 32 → ec_cap (st_ec s') < 2 ^ 32 →
    (∀ g, first_ordered c s g = first_ordered c s' g ∧ last_ordered c s g = last_ordered c s' g ∧
      ∀ e, alive_in (tr ++ [y]) e → next_ordered c s g e = next_ordered c s' g e ∧ previous_ordered c s g e = previous_ordered c s' g e) ∧
    (tags_on_live (tr ++ [x; y]) → ∀ t e, alive_in (tr ++ [y]) e → has_tag c s t e = has_tag c s' t e)).
Proof. exact override_caught. Qed.
Print Assumptions C81_caught.

(** Histories with panics, see Properties/CaughtC.v, and between the two calls one more. *)
Local Ltac seen r E := match goal with |- ?x = ?v => let y := eval pattern r in x in match y with ?f _ =>
  match type of E with ?z = _ => assert (f <$> z = Some v) as HS by (match goal with md : mode |- _ => destruct md end; vm_compute; reflexivity); rewrite E in HS; injection HS as HS; exact HS end end end.
Example C79_caught_example : ∀ md,
  let c := ex_cfg md in let a := Entity 1 1 in let b := Entity 2 1 in
  let x := OAdd a [(3, [1])] in let y := OAdd b [(4, [2; 3])] in
  let ops1 := ex_caught ++ [λ _, x; λ _, OAdd b [(7, [])]; λ _, y] in let ops2 := ex_caught ++ [λ _, y; λ _, x] in
  ∃ r0 r1 r2, cexec0 c 1 ex_caught = Some r0 ∧ cexec0 c 1 ops1 = Some r1 ∧ cexec0 c 4 ops2 = Some r2 ∧ crun c 1 r1.1 r1.2 ∧ crun c 4 r2.1 r2.2 ∧
  answered r1.1 = answered r0.1 ++ [(x, None); (y, None)] ∧ answered r2.1 = answered r0.1 ++ [(y, None); (x, None)] ∧
  read_components c r1.2 a [3; 1] = POk (Some [[Some 1]; Some <$> [5; 6; 7; 8]]) ∧ read_components c r2.2 a [3; 1] = POk (Some [[Some 1]; Some <$> [5; 6; 7; 8]]).
Proof.
  intros md c a b x y ops1 ops2.
  destruct (cexec0 c 1 ex_caught) as [r0|] eqn:E0; [|by destruct md; vm_compute in E0].
  destruct (cexec0 c 1 ops1) as [r1|] eqn:E1; [|by destruct md; vm_compute in E1].
  destruct (cexec0 c 4 ops2) as [r2|] eqn:E2; [|by destruct md; vm_compute in E2].
  exists r0, r1, r2. split_and!; [done|done|done|eapply cexec0_run; [done|]; by rewrite E1, <- surjective_pairing|eapply cexec0_run; [done|]; by rewrite E2, <- surjective_pairing|..].
  all: try seen r1 E1. all: try seen r2 E2.
  - assert ((λ r, answered r.1) <$> cexec0 c 1 ops1 = (λ r, answered r.1 ++ [(x, None); (y, None)]) <$> cexec0 c 1 ex_caught) as H by (destruct md; vm_compute; reflexivity).
    rewrite E0, E1 in H. by injection H as H.
  - assert ((λ r, answered r.1) <$> cexec0 c 4 ops2 = (λ r, answered r.1 ++ [(y, None); (x, None)]) <$> cexec0 c 1 ex_caught) as H by (destruct md; vm_compute; reflexivity).
    rewrite E0, E2 in H. by injection H as H.
Qed.
Example C80_caught_example : ∀ md,
  let c := ex_cfg md in let a := Entity 1 1 in let b := Entity 2 1 in
  let x := OAdd a [(3, [1])] in let y := ORemove a [3] in
  let ops1 := ex_caught in let ops2 := ex_caught ++ [λ _, x; λ _, OAdd a [(7, [])]; λ _, y] in
  ∃ r0 r1 r2, cexec0 c 1 ex_caught = Some r0 ∧ cexec0 c 1 ops1 = Some r1 ∧ cexec0 c 4 ops2 = Some r2 ∧ crun c 1 r1.1 r1.2 ∧ crun c 4 r2.1 r2.2 ∧
  answered r1.1 = answered r0.1 ++ [] ∧ answered r2.1 = answered r0.1 ++ [(x, None); (y, None)] ∧
  read_components c r2.2 a [2; 1] = POk (Some [Some <$> [1; 1; 1; 1; 1; 1; 1; 1]; Some <$> [5; 6; 7; 8]]) ∧ read_components c r2.2 a [3] = POk None.
Proof.
  intros md c a b x y ops1 ops2.
  destruct (cexec0 c 1 ex_caught) as [r0|] eqn:E0; [|by destruct md; vm_compute in E0].
  destruct (cexec0 c 1 ops1) as [r1|] eqn:E1; [|by destruct md; vm_compute in E1].
  destruct (cexec0 c 4 ops2) as [r2|] eqn:E2; [|by destruct md; vm_compute in E2].
  exists r0, r1, r2. split_and!; [done|done|done|eapply cexec0_run; [done|]; by rewrite E1, <- surjective_pairing|eapply cexec0_run; [done|]; by rewrite E2, <- surjective_pairing|..].
  all: try seen r1 E1. all: try seen r2 E2.
  - assert ((λ r, answered r.1) <$> cexec0 c 1 ops1 = (λ r, answered r.1 ++ []) <$> cexec0 c 1 ex_caught) as H by (destruct md; vm_compute; reflexivity).
    rewrite E0, E1 in H. by injection H as H.
  - assert ((λ r, answered r.1) <$> cexec0 c 4 ops2 = (λ r, answered r.1 ++ [(x, None); (y, None)]) <$> cexec0 c 1 ex_caught) as H by (destruct md; vm_compute; reflexivity).
    rewrite E0, E2 in H. by injection H as H.
Qed.
Example C81_caught_example : ∀ md,
  let c := ex_cfg md in let a := Entity 1 1 in let b := Entity 2 1 in
  let x := OSet a [(1, [0; 0; 0; 0])] in let y := ODestroy a in
  let ops1 := ex_caught ++ [λ _, x; λ _, OAdd a [(7, [])]; λ _, y] in let ops2 := ex_caught ++ [λ _, y] in
  ∃ r0 r1 r2, cexec0 c 1 ex_caught = Some r0 ∧ cexec0 c 1 ops1 = Some r1 ∧ cexec0 c 4 ops2 = Some r2 ∧ crun c 1 r1.1 r1.2 ∧ crun c 4 r2.1 r2.2 ∧
  answered r1.1 = answered r0.1 ++ [(x, None); (y, None)] ∧ answered r2.1 = answered r0.1 ++ [(y, None)] ∧
  first_ordered c r1.2 5 = POk (Some b) ∧ first_ordered c r2.2 5 = POk (Some b) ∧ is_alive c r1.2 a = POk false.
Proof.
  intros md c a b x y ops1 ops2.
  destruct (cexec0 c 1 ex_caught) as [r0|] eqn:E0; [|by destruct md; vm_compute in E0].
  destruct (cexec0 c 1 ops1) as [r1|] eqn:E1; [|by destruct md; vm_compute in E1].
  destruct (cexec0 c 4 ops2) as [r2|] eqn:E2; [|by destruct md; vm_compute in E2].
  exists r0, r1, r2. split_and!; [done|done|done|eapply cexec0_run; [done|]; by rewrite E1, <- surjective_pairing|eapply cexec0_run; [done|]; by rewrite E2, <- surjective_pairing|..].
  all: try seen r1 E1. all: try seen r2 E2.
  - assert ((λ r, answered r.1) <$> cexec0 c 1 ops1 = (λ r, answered r.1 ++ [(x, None); (y, None)]) <$> cexec0 c 1 ex_caught) as H by (destruct md; vm_compute; reflexivity).
    rewrite E0, E1 in H. by injection H as H.
  - assert ((λ r, answered r.1) <$> cexec0 c 4 ops2 = (λ r, answered r.1 ++ [(y, None)]) <$> cexec0 c 1 ex_caught) as H by (destruct md; vm_compute; reflexivity).
    rewrite E0, E2 in H. by injection H as H.
Qed.
