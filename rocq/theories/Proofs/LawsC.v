(** LawsC.v — the laws of calls when calls panic and the panics are caught. *)
From Verif.Spec Require Export Caught.
From Verif.Proofs Require Import UnwindH.
From Verif.Proofs Require Export StoryC SwapP TakeBackP OverrideP.
Local Open Scope N_scope.

Lemma members_alive tr g e : orders_proper tr → e ∈ members tr g → alive_in tr e.
Proof.
  induction tr as [|[o r] tr IH] using rev_ind; intros Hp; [by intros ?%elem_of_nil|].
  assert (orders_proper tr) as Hp0. { intros tr1 o' r' tr2 ->. eapply (Hp tr1 o' r' (tr2 ++ [(o, r)])). by rewrite <- app_assoc. }
  specialize (IH Hp0). pose proof (Hp tr o r [] eq_refl) as Ho. unfold members. rewrite foldl_app. simpl. change (foldl _ [] tr) with (members tr g).
  assert (∀ to e' l, e ∈ insert_after to e' l → e = e' ∨ e ∈ l) as Haft.
  { clear. intros to e' l. induction l as [|z l IH]; simpl; [by intros ?%elem_of_nil|]. case_bool_decide; rewrite !elem_of_cons; naive_solver. }
  assert (∀ to e' l, e ∈ insert_before to e' l → e = e' ∨ e ∈ l) as Hbef.
  { clear. intros to e' l. induction l as [|z l IH]; simpl; [by intros ?%elem_of_nil|]. case_bool_decide; rewrite !elem_of_cons; naive_solver. }
  intros He. apply alive_snoc. right. destruct o; simpl in *; try (split; [by apply IH|done]); repeat case_bool_decide; try (split; [by apply IH|done]).
  - apply elem_of_list_filter in He as [Hne He]. split; [by apply IH|congruence].
  - apply elem_of_app in He as [He|He%elem_of_list_singleton]; (split; [|done]); [by apply IH|]. subst. apply Ho.
  - apply Haft in He as [->|He]; (split; [|done]); [apply Ho|by apply IH].
  - apply Hbef in He as [->|He]; (split; [|done]); [apply Ho|by apply IH].
  - apply elem_of_list_filter in He as [Hne He]. split; [by apply IH|done].
Qed.
Section caught.
Context (c : cfg) (Hc : cfg_ok c).
Lemma crun_answers cap tr s x : crun c cap tr s → x ∈ answered tr → answers x.
Proof using.
  induction 1 as [s _ _|tr s o z s' Hr IH _ _ _ _ _ _ _ H]; [by intros ?%elem_of_nil|]. rewrite story_answered_snoc.
  intros [Hx|Hx]%elem_of_app; [by apply IH|]. destruct z as [r|]; [|by apply elem_of_nil in Hx]. apply elem_of_list_singleton in Hx as ->.
  apply (iff_sym). simpl in H. apply step_ec in H. destruct H as [o cr s1 Ho _|e s1 _|o H1 H2 H3].
  - split; [by eauto|done].
  - split; [|by intros [? ?]]. naive_solver.
  - split; [|by intros [? ?]]. naive_solver.
Qed.
Lemma crun_nodup cap tr s : crun c cap tr s → NoDup (issued (answered tr)).
Proof using Hc.
  intros Hr. by destruct (caught_handles (in_mode Debug c) cap eq_refl tr s (dcrun_prun _ _ _ _ (crun_debug c Hc _ _ _ Hr))).
Qed.
Lemma caught_alike cap tr1 s cap' tr2 s' (I : list entity) (A : entity → Prop) (T0 : trace) :
  let T1 := answered tr1 in let T2 := answered tr2 in
  crun c cap tr1 s → crun c cap' tr2 s' → (∀ e, e ∈ I → e ∈ issued T1 ∧ e ∈ issued T2) → (∀ e, e ∈ I → full_writes e T0) →
  (∀ e m, e ∈ I → comps T1 e m → comps T0 e m) → (∀ e m, e ∈ I → comps T2 e m → comps T0 e m) →
  (∀ e, A e → alive_in T1 e ∧ alive_in T2 e) → (∀ g, members T1 g = members T2 g) →
  (∀ t e, A e → tagged T1 t e ↔ tagged T2 t e) →
  (∀ e, e ∈ I →
    is_alive c s e = is_alive c s' e ∧
    (∃ a a', get_entity_archetype c s e = POk a ∧ get_entity_archetype c s' e = POk a' ∧ arch_ids <$> a = arch_ids <$> a') ∧
    ∀ T, T ≠ [] → (∀ t, t ∈ T → t ∉ untold T0 e) → read_components c s e T = read_components c s' e T) ∧
  (ec_cap (st_ec s) < 2 ^ 32 → ec_cap (st_ec s') < 2 ^ 32 →
    (∀ g, first_ordered c s g = first_ordered c s' g ∧ last_ordered c s g = last_ordered c s' g ∧
      ∀ e, A e → next_ordered c s g e = next_ordered c s' g e ∧ previous_ordered c s g e = previous_ordered c s' g e) ∧
    (tags_on_live T1 → tags_on_live T2 → ∀ t e, A e → has_tag c s t e = has_tag c s' t e)).
Proof using Hc.
  intros T1 T2 Hr Hr' HI Hw H1 H2 HA Hm Ht. split; [|intros Hcap Hcap'; split].
  - intros e He. destruct (HI e He) as [He1 He2].
    destruct (both_values c Hc cap tr1 s e Hr He1) as (x & Hx & Ho & _). destruct (both_values c Hc cap' tr2 s' e Hr' He2) as (y & Hy & Ho' & _).
    eapply observed_same; [done|done|]. eapply comps_told; [by apply Hw|by apply H1|by apply H2].
  - intros g. destruct (both_order c Hc cap tr1 s g Hr Hcap) as (_ & _ & F & La & N & O).
    destruct (both_order c Hc cap' tr2 s' g Hr' Hcap') as (_ & _ & F' & La' & N' & O').
    unfold T1, T2 in Hm. rewrite Hm in F, La, N, O. split; [by rewrite F, F'|]. split; [by rewrite La, La'|].
    intros e Ha. destruct (HA e Ha) as [Ha1 Ha2].
    destruct (decide (e ∈ members (answered tr2) g)) as [[i Hi]%elem_of_list_lookup|Hi].
    + destruct (N i e Hi) as [-> ->], (N' i e Hi) as [-> ->]. done.
    + destruct (O e Ha1 Hi) as [-> ->], (O' e Ha2 Hi) as [-> ->]. done.
  - intros Ht1 Ht2 t e Ha. destruct (HA e Ha) as [Ha1 Ha2].
    destruct (both_has_tag c Hc cap tr1 s t e Hr Hcap Ht1 Ha1) as (b & -> & Hb).
    destruct (both_has_tag c Hc cap' tr2 s' t e Hr' Hcap' Ht2 Ha2) as (b' & -> & Hb').
    f_equal. apply Bool.eq_iff_eq_true. rewrite Hb, Hb'. by apply Ht.
Qed.
End caught.

Lemma swap_caught c cap tr1 s cap' tr2 s' tr x y : cfg_ok c → crun c cap tr1 s → crun c cap' tr2 s' →
  answered tr1 = tr ++ [x; y] → answered tr2 = tr ++ [y; x] → apart x y →
  (∀ e, e ∈ issued (tr ++ [x; y]) →
    is_alive c s e = is_alive c s' e ∧
    (∃ a a', get_entity_archetype c s e = POk a ∧ get_entity_archetype c s' e = POk a' ∧ arch_ids <$> a = arch_ids <$> a') ∧
    ∀ T, T ≠ [] → (∀ t, t ∈ T → t ∉ untold (tr ++ [x; y]) e) → read_components c s e T = read_components c s' e T) ∧
  (ec_cap (st_ec s) < 2 ^ 32 → ec_cap (st_ec s') < 2 ^ 32 →
    (∀ g, first_ordered c s g = first_ordered c s' g ∧ last_ordered c s g = last_ordered c s' g ∧
      ∀ e, alive_in (tr ++ [x; y]) e → next_ordered c s g e = next_ordered c s' g e ∧ previous_ordered c s g e = previous_ordered c s' g e) ∧
    (tags_on_live (tr ++ [x; y]) → ∀ t e, alive_in (tr ++ [x; y]) e → has_tag c s t e = has_tag c s' t e)).
Proof.
  intros Hc Hr Hr' E1 E2 Hap.
  assert (answers x) as Ax. { eapply crun_answers; [exact Hr|]. rewrite E1. apply elem_of_app. right. by left. }
  assert (answers y) as Ay. { eapply crun_answers; [exact Hr|]. rewrite E1. apply elem_of_app. right. right. by left. }
  pose proof (caught_alike c Hc cap tr1 s cap' tr2 s' (issued (tr ++ [x; y])) (alive_in (tr ++ [x; y])) (tr ++ [x; y]) Hr Hr') as H.
  rewrite E1, E2 in H. destruct H as [H1 H2].
  - intros e He. split; [done|]. revert He. destruct x as [o1 r1], y as [o2 r2]. rewrite !app2, !issued_snoc, !elem_of_app. tauto.
  - intros e He. destruct (crun_only _ _ _ _ Hr) as [_ Hf]. rewrite E1 in Hf. apply Hf.
  - done.
  - intros e m He Hm. by apply (comps_swap tr x y e m Ax Ay Hap).
  - intros e Ha. split; [done|by apply alive_swap].
  - intros g. by apply members_swap.
  - intros t e Ha. by apply tagged_swap.
  - split; [exact H1|]. intros C1 C2. destruct (H2 C1 C2) as [Ho Ht]. split; [exact Ho|]. intros T1. apply Ht; [done|]. by apply tags_live_swap.
Qed.
Lemma undo_caught c cap tr1 s cap' tr2 s' tr x y : cfg_ok c → crun c cap tr1 s → crun c cap' tr2 s' →
  answered tr1 = tr → answered tr2 = tr ++ [x; y] → undoes tr x y →
  (∀ e, e ∈ issued tr →
    is_alive c s e = is_alive c s' e ∧
    (∃ a a', get_entity_archetype c s e = POk a ∧ get_entity_archetype c s' e = POk a' ∧ arch_ids <$> a = arch_ids <$> a') ∧
    ∀ T, T ≠ [] → (∀ t, t ∈ T → t ∉ untold tr e) → read_components c s e T = read_components c s' e T) ∧
  (ec_cap (st_ec s) < 2 ^ 32 → ec_cap (st_ec s') < 2 ^ 32 →
    (∀ g, first_ordered c s g = first_ordered c s' g ∧ last_ordered c s g = last_ordered c s' g ∧
      ∀ e, alive_in tr e → next_ordered c s g e = next_ordered c s' g e ∧ previous_ordered c s g e = previous_ordered c s' g e) ∧
    (tags_on_live (tr ++ [x; y]) → ∀ t e, alive_in tr e → has_tag c s t e = has_tag c s' t e)).
Proof.
  intros Hc Hr Hr' E1 E2 Hu.
  assert (answers x) as Ax. { eapply crun_answers; [exact Hr'|]. rewrite E2. apply elem_of_app. right. by left. }
  assert (answers y) as Ay. { eapply crun_answers; [exact Hr'|]. rewrite E2. apply elem_of_app. right. right. by left. }
  assert (∀ e, e ∈ issued tr → x.2 ≠ Some e) as Hn.
  { intros e He Hx. pose proof (crun_nodup c Hc _ _ _ Hr') as Hnd. rewrite E2 in Hnd. unfold issued in Hnd. rewrite omap_app in Hnd. simpl in Hnd. rewrite Hx in Hnd.
    apply NoDup_app in Hnd as (_ & Hnd & _). apply (Hnd e He). by left. }
  pose proof (crun_orders c _ _ _ Hr) as Hp1. pose proof (crun_orders c _ _ _ Hr') as Hp. rewrite E2 in Hp.
  pose proof (caught_alike c Hc cap tr1 s cap' tr2 s' (issued tr) (alive_in tr) tr Hr Hr') as H.
  rewrite E1, E2 in H. destruct H as [H1 H2].
  - intros e He. split; [done|]. unfold issued. rewrite omap_app. apply elem_of_app. by left.
  - intros e He. destruct (crun_only _ _ _ _ Hr) as [_ Hf]. rewrite E1 in Hf. apply Hf.
  - done.
  - intros e m He Hm. by apply (comps_undo tr x y e m Hu (Hn e He) Ax Ay) in Hm.
  - intros e Ha. split; [done|]. destruct (undo_spares tr x y e Hu Ax Ay (Hn e (alive_is_issued _ _ Ha))) as [S1 S2]. rewrite app2, alive_other, alive_other; done.
  - intros g. symmetry. apply members_undo; [done| |].
    + destruct x as [o r]. by apply (Hp tr o r [y]).
    + intros e Hx Hi. apply (Hn e); [|done]. apply alive_is_issued. rewrite E1 in Hp1. by eapply members_alive.
  - intros t e Ha. symmetry. apply tagged_undo; [done|]. apply Hn. by apply alive_is_issued.
  - split; [exact H1|]. intros C1 C2. destruct (H2 C1 C2) as [Ho Ht]. split; [exact Ho|]. intros T1. apply Ht; [|done].
    intros tr3 o r tr4 t' e' -> Ho'. eapply (T1 tr3 o r (tr4 ++ [x; y])); [by rewrite <- app_assoc|done].
Qed.
Lemma override_caught c cap tr1 s cap' tr2 s' tr x y : cfg_ok c → crun c cap tr1 s → crun c cap' tr2 s' →
  answered tr1 = tr ++ [x; y] → answered tr2 = tr ++ [y] → overrides x.1 y.1 →
  (∀ e, e ∈ issued tr →
    is_alive c s e = is_alive c s' e ∧
    (∃ a a', get_entity_archetype c s e = POk a ∧ get_entity_archetype c s' e = POk a' ∧ arch_ids <$> a = arch_ids <$> a') ∧
    ∀ T, T ≠ [] → (∀ t, t ∈ T → t ∉ untold (tr ++ [y]) e) → read_components c s e T = read_components c s' e T) ∧
  (ec_cap (st_ec s) < 2 ^ 32 → ec_cap (st_ec s') < 2 ^ 32 →
    (∀ g, first_ordered c s g = first_ordered c s' g ∧ last_ordered c s g = last_ordered c s' g ∧
      ∀ e, alive_in (tr ++ [y]) e → next_ordered c s g e = next_ordered c s' g e ∧ previous_ordered c s g e = previous_ordered c s' g e) ∧
    (tags_on_live (tr ++ [x; y]) → ∀ t e, alive_in (tr ++ [y]) e → has_tag c s t e = has_tag c s' t e)).
Proof.
  intros Hc Hr Hr' E1 E2 Hu.
  assert (answers x) as Ax. { eapply crun_answers; [exact Hr|]. rewrite E1. apply elem_of_app. right. by left. }
  assert (answers y) as Ay. { eapply crun_answers; [exact Hr|]. rewrite E1. apply elem_of_app. right. right. by left. }
  destruct x as [o r], y as [o2 r2]. simpl in Hu. destruct (override_none _ _ _ _ Hu Ax Ay) as (-> & -> & Hnd). simpl in *.
  pose proof (caught_alike c Hc cap tr1 s cap' tr2 s' (issued tr) (alive_in (tr ++ [(o2, None)])) (tr ++ [(o2, None)]) Hr Hr') as H.
  rewrite E1, E2 in H. destruct H as [H1 H2].
  - intros e He. unfold issued. rewrite !omap_app. split; apply elem_of_app; by left.
  - intros e He. destruct (crun_only _ _ _ _ Hr') as [_ Hf]. rewrite E2 in Hf. apply Hf.
  - intros e m He Hm. rewrite app2 in Hm. by apply (comps_override tr o None o2 None e m Hu) in Hm.
  - done.
  - intros e Ha. split; [|done]. revert Ha. rewrite app2, !alive_snoc. intros [?|[? ?]]; [done|]. right. split; [|done]. right. done.
  - intros g. rewrite app2. by apply members_override.
  - intros t e Ha. rewrite app2. by apply tagged_override.
  - split; [exact H1|]. intros C1 C2. destruct (H2 C1 C2) as [Ho Ht]. split; [exact Ho|]. intros T1. apply Ht; [done|]. by eapply override_live.
Qed.
