(** SimplifyP.v — simplified histories give stores that answer alike. *)
From Verif.Spec Require Export Simplify.
From Verif.Proofs Require Export RearrangeP.
Local Open Scope N_scope.

(** What the specifications say after [T] they say after [T']. *)
Definition refines (T T' : trace) : Prop :=
  (∀ e m, comps T e m → comps T' e m) ∧ (∀ e, alive_in T e ↔ alive_in T' e) ∧ (∀ g, members T g = members T' g) ∧
  (∀ t e, tagged T t e ↔ tagged T' t e) ∧ (tags_on_live T → tags_on_live T') ∧ (∀ e, e ∈ issued T ↔ e ∈ issued T').
Lemma similar_refines T T' : similar T T' → refines T T'.
Proof. intros (H1 & H2 & H3 & H4 & H5 & H6). split; [|split; [|split; [|split; [|split]]]]; try done; [intros e m; apply H1|apply H5]. Qed.
Lemma refines_trans T T' T'' : refines T T' → refines T' T'' → refines T T''.
Proof.
  intros (H1 & H2 & H3 & H4 & H5 & H6) (H1' & H2' & H3' & H4' & H5' & H6'). split; [|split; [|split; [|split; [|split]]]]; intros; try (etrans; eauto); eauto.
Qed.
Lemma refines_snoc T T' x : refines T T' → refines (T ++ [x]) (T' ++ [x]).
Proof.
  intros (H1 & H2 & H3 & H4 & H5 & H6). destruct x as [o r]. split; [|split; [|split; [|split; [|split]]]].
  - intros e m. rewrite !comps_snoc_iff. intros (z & Hz & Hm). exists z. auto.
  - intros e. by rewrite !alive_snoc, H2.
  - intros g. specialize (H3 g). unfold members in *. by rewrite !foldl_app, H3.
  - intros t e. by rewrite !tagged_snoc, H4.
  - rewrite !tags_snoc. setoid_rewrite H2. tauto.
  - intros e. by rewrite !issued_snoc, !elem_of_app, H6.
Qed.
Lemma refines_app T T' tr2 : refines T T' → refines (T ++ tr2) (T' ++ tr2).
Proof. intros H. induction tr2 as [|x tr2 IH] using rev_ind; [by rewrite !app_nil_r|]. rewrite !app_assoc. by apply refines_snoc. Qed.
Lemma simpler_fewer T T' x : simpler T T' → x ∈ T' → x ∈ T.
Proof.
  induction 1 as [tr tr' Hr|tr y z tr2 _ _ _|tr y z tr2 _|tr tr' tr'' _ IH1 _ IH2].
  - by rewrite (rearranged_perm _ _ Hr).
  - rewrite !elem_of_app. tauto.
  - rewrite !elem_of_app, !elem_of_cons. tauto.
  - auto.
Qed.
Lemma undo_none tr x y : undoes tr x y → answers y → y.2 = None.
Proof.
  intros Hu Ay. destruct x as [o r], y as [o2 r2]. unfold undoes, answers in *. simpl in *. destruct r2; [|done].
  destruct (proj1 Ay ltac:(eauto)) as [->|[a ->]]; by destruct o.
Qed.
Lemma simpler_refines T T' : simpler T T' → (∀ x, x ∈ T → answers x) → refines T T'.
Proof.
  induction 1 as [tr tr' Hr|tr x y tr2 Hu Hn Ho|tr x y tr2 Hu|tr tr' tr'' Hr IH1 _ IH2]; intros Hans.
  - by apply similar_refines, rearranged_similar.
  - rewrite app_assoc. apply refines_app.
    assert (answers x) as Ax by (apply Hans; rewrite !elem_of_app; right; left; by left).
    assert (answers y) as Ay by (apply Hans; rewrite !elem_of_app; right; left; right; by left).
    assert (∀ e, x.2 ≠ Some e) as Hne by (intros e; by rewrite Hn).
    split; [|split; [|split; [|split; [|split]]]].
    + intros e m. by apply comps_undo.
    + intros e. symmetry. apply alive_undo; [done..|]. intros ? _. apply Hne.
    + intros g. apply members_undo; [done|done|]. intros e He. by apply Hne in He.
    + intros t e. by apply tagged_undo.
    + rewrite app2. destruct x as [o r], y as [o2 r2]. rewrite !tags_snoc. tauto.
    + pose proof (undo_none _ _ _ Hu Ay) as Hy. intros e. destruct x as [o r], y as [o2 r2]. simpl in *. subst. rewrite app2, !issued_snoc, !elem_of_app. simpl. set_solver.
  - rewrite !app_assoc. apply refines_app.
    assert (answers x) as Ax by (apply Hans; rewrite !elem_of_app; right; left; by left).
    assert (answers y) as Ay by (apply Hans; rewrite !elem_of_app; right; left; right; by left).
    destruct x as [o r], y as [o2 r2]. simpl in Hu. destruct (override_none _ _ _ _ Hu Ax Ay) as (-> & -> & Hd).
    split; [|split; [|split; [|split; [|split]]]].
    + intros e m. rewrite app2. by apply comps_override.
    + intros e. by apply alive_override.
    + intros g. rewrite app2. by apply members_override.
    + intros t e. rewrite app2. by apply tagged_override.
    + apply override_live.
    + intros e. rewrite app2, !issued_snoc, !elem_of_app. simpl. set_solver.
  - eapply refines_trans; [by apply IH1|]. apply IH2. intros x Hx. apply Hans. by eapply simpler_fewer.
Qed.
Lemma simpler_same c cap cap' T T' s s' : cfg_ok c → drun (healthy c) c cap T s → drun (healthy c) c cap' T' s' → simpler T T' →
  (∀ e, e ∈ issued T →
    is_alive c s e = is_alive c s' e ∧
    (∃ a a', get_entity_archetype c s e = POk a ∧ get_entity_archetype c s' e = POk a' ∧ arch_ids <$> a = arch_ids <$> a') ∧
    ∀ U, U ≠ [] → (∀ t, t ∈ U → t ∉ untold T' e) → read_components c s e U = read_components c s' e U) ∧
  (∀ g, first_ordered c s g = first_ordered c s' g ∧ last_ordered c s g = last_ordered c s' g ∧
    ∀ e, alive_in T e → next_ordered c s g e = next_ordered c s' g e ∧ previous_ordered c s g e = previous_ordered c s' g e) ∧
  (tags_on_live T → ∀ t e, alive_in T e → has_tag c s t e = has_tag c s' t e).
Proof.
  intros Hc Hh Hh' Hre.
  destruct (simpler_refines _ _ Hre) as (S1 & S2 & S3 & S4 & S5 & S6). { intros x. exact (run_answers _ _ _ _ _ (drun_run _ _ _ _ _ Hh)). }
  destruct (healthy_alike c cap _ s cap' _ s' (issued T) (alive_in T) T' Hc Hh Hh') as (H1 & H2 & H3).
  - intros e He. split; [done|]. by apply S6.
  - intros e He. destruct (drun_debug _ _ _ _ Hc Hh') as [Hhr _]. by eapply hrun_full.
  - intros e m He. apply S1.
  - done.
  - intros e He. split; [done|by apply S2].
  - done.
  - intros t e _. apply S4.
  - split; [exact H1|]. split; [exact H2|]. intros Ht. apply H3; [done|by apply S5].
Qed.
Lemma simpler_caught c cap cap' tr1 tr2 s s' : cfg_ok c → crun c cap tr1 s → crun c cap' tr2 s' → simpler (answered tr1) (answered tr2) →
  let T := answered tr1 in let T' := answered tr2 in
  (∀ e, e ∈ issued T →
    is_alive c s e = is_alive c s' e ∧
    (∃ a a', get_entity_archetype c s e = POk a ∧ get_entity_archetype c s' e = POk a' ∧ arch_ids <$> a = arch_ids <$> a') ∧
    ∀ U, U ≠ [] → (∀ t, t ∈ U → t ∉ untold T' e) → read_components c s e U = read_components c s' e U) ∧
  (ec_cap (st_ec s) < 2 ^ 32 → ec_cap (st_ec s') < 2 ^ 32 →
    (∀ g, first_ordered c s g = first_ordered c s' g ∧ last_ordered c s g = last_ordered c s' g ∧
      ∀ e, alive_in T e → next_ordered c s g e = next_ordered c s' g e ∧ previous_ordered c s g e = previous_ordered c s' g e) ∧
    (tags_on_live T → ∀ t e, alive_in T e → has_tag c s t e = has_tag c s' t e)).
Proof.
  intros Hc Hr Hr' Hre T T'.
  destruct (simpler_refines _ _ Hre) as (S1 & S2 & S3 & S4 & S5 & S6). { intros x. exact (crun_answers c _ _ _ _ Hr). }
  destruct (caught_alike c Hc cap tr1 s cap' tr2 s' (issued T) (alive_in T) T' Hr Hr') as [H1 H2].
  - intros e He. split; [done|]. by apply S6.
  - intros e He. destruct (crun_only _ _ _ _ Hr') as [_ Hf]. apply Hf.
  - intros e m He. apply S1.
  - done.
  - intros e He. split; [done|by apply S2].
  - done.
  - intros t e _. apply S4.
  - split; [exact H1|]. intros C1 C2. destruct (H2 C1 C2) as [Ho Ht]. split; [exact Ho|]. intros T1. apply Ht; [done|by apply S5].
Qed.
Lemma simpler_reads c cap cap' T T' s s' U : cfg_ok c → drun (healthy c) c cap T s → drun (healthy c) c cap' T' s' → simpler T T' →
  U ≠ [] → (∀ e t, alive_in T e → t ∈ U → t ∉ untold T' e) → reads_alike c T s c T' s' U.
Proof.
  intros Hc Hh Hh' Hre Hne Hu. destruct (simpler_same c cap cap' T T' s s' Hc Hh Hh' Hre) as [H _].
  destruct (simpler_refines _ _ Hre) as (_ & S2 & _). { intros x. exact (run_answers _ _ _ _ _ (drun_run _ _ _ _ _ Hh)). }
  intros e. split; [apply S2|]. intros Ha. destruct (H e (alive_is_issued _ _ Ha)) as (_ & _ & HT). apply HT; [done|]. intros t. by apply Hu.
Qed.
Lemma simpler_queries c cap cap' T T' s s' q : cfg_ok c → drun (healthy c) c cap T s → drun (healthy c) c cap' T' s' → simpler T T' →
  NoDup (q_types q) → q_types q ≠ [] → (∀ e t, alive_in T e → t ∈ q_types q → t ∉ untold T' e) → visited_alike c s c s' q.
Proof.
  intros Hc Hh Hh' Hre Hn Hne Hu. apply (alike_component c c Hc Hc cap cap' T T' s s' Hh Hh' q Hn Hne). by eapply (simpler_reads c cap cap').
Qed.
Lemma simpler_ordered c cap cap' T T' s s' q g fuel : cfg_ok c → drun (healthy c) c cap T s → drun (healthy c) c cap' T' s' → simpler T T' →
  NoDup (q_types q) → q_types q ≠ [] → (∀ e t, alive_in T e → t ∈ q_types q → t ∉ untold T' e) →
  (∀ e, e ∈ members T g → had_components T e ∧ had_components T' e) → (length (members T g) < fuel)%nat → ordered_alike c s c s' q g fuel.
Proof.
  intros Hc Hh Hh' Hre Hn Hne Hu. apply (alike_ordered c c Hc Hc cap cap' T T' s s' Hh Hh' q g fuel Hn Hne); [by eapply (simpler_reads c cap cap')|].
  destruct (simpler_refines _ _ Hre) as (_ & _ & S3 & _); [|apply S3]. intros x. exact (run_answers _ _ _ _ _ (drun_run _ _ _ _ _ Hh)).
Qed.
Lemma simpler_queries_caught c cap cap' tr1 tr2 s s' q : let T := answered tr1 in let T' := answered tr2 in
  cfg_ok c → crun c cap tr1 s → crun c cap' tr2 s' → simpler T T' →
  NoDup (q_types q) → q_types q ≠ [] → (∀ e t, alive_in T e → t ∈ q_types q → t ∉ untold T' e) → visited_alike c s c s' q.
Proof.
  intros T T' Hc Hr Hr' Hre Hn Hne Hu. apply (caught_component c c Hc Hc cap cap' tr1 tr2 s s' Hr Hr' q Hn Hne).
  destruct (simpler_caught c cap cap' tr1 tr2 s s' Hc Hr Hr' Hre) as [H _].
  destruct (simpler_refines _ _ Hre) as (_ & S2 & _). { intros x. exact (crun_answers c _ _ _ _ Hr). }
  intros e. split; [apply S2|]. intros Ha. destruct (H e (alive_is_issued _ _ Ha)) as (_ & _ & HT). apply HT; [done|]. intros t. by apply Hu.
Qed.

(** ** The calls return *)
Lemma refines_types T T' e m' : refines T T' → comps T' e (Some m') → ∃ m, comps T e (Some m) ∧ dom m = dom m'.
Proof.
  intros (H1 & _) Hm'. destruct (comps_total T e) as [x Hx]. pose proof (comps_types _ _ _ (H1 _ _ Hx)) as Ht. rewrite <- (comps_types _ _ _ Hm') in Ht.
  destruct x as [m|]; [|done]. exists m. split; [done|]. by injection Ht.
Qed.
Lemma disciplined_refines c T T' o : refines T T' → issued T = issued T' → disciplined c T o → disciplined c T' o.
Proof.
  intros Href H6 (Ha & Hr & Ho & Hw & Hs). pose proof Href as (H1 & H2 & H3 & _). split; [exact Ha|]. split; [|split; [|split]].
  - destruct o; simpl in *; try done; intros m' Hm'; destruct (refines_types _ _ _ _ Href Hm') as (m & Hm & <-); by apply Hr.
  - destruct o; simpl in *; try done; by rewrite <- ?H2, <- ?H3.
  - intros e He. rewrite <- H6. by apply Hw.
  - destruct o; simpl in *; try done; [by rewrite <- H6|by rewrite <- H6|by apply H2|]. intros m' Hm'. destruct (refines_types _ _ _ _ Href Hm') as (m & Hm & Hd).
    destruct (Hs m Hm) as [->|(t & Ht & Hn)]; [left|right].
    + apply dom_empty_inv_L. rewrite <- Hd. apply dom_empty_L.
    + exists t. split; [|done]. apply elem_of_dom. rewrite <- Hd. by apply elem_of_dom.
Qed.
Lemma continue_refines c cap T T' tr2 s s0' : cfg_ok c → refines T T' → lives T = lives T' → drun (λ _ _, True) c cap (T ++ tr2) s → drun (λ _ _, True) c cap T' s0' →
  frugal c (T' ++ tr2) → ∃ s', drun (λ _ _, True) c cap (T' ++ tr2) s'.
Proof.
  intros Hc Hsim Hl Hd Hd' Hf. revert s Hd Hf. induction tr2 as [|[o r] tr2 IH] using rev_ind; intros s; [rewrite !app_nil_r; eauto|].
  rewrite !app_assoc. intros (s1 & Hd & Hdi & Hst)%drun_snoc Hf. simpl in *. pose proof (frugal_prefix _ _ _ Hf) as Hf1. destruct (IH s1 Hd Hf1) as [s1' Hd1].
  pose proof (drun_run _ _ _ _ _ Hd) as Hr. pose proof (drun_run _ _ _ _ _ Hd1) as Hr1.
  assert (lives (T ++ tr2) = lives (T' ++ tr2)) as Hl2. { unfold lives in *. by rewrite !omap_app, Hl. }
  pose proof (same_lives _ _ _ _ _ _ _ _ Hr Hr1 Hl2) as Hi.
  apply (disciplined_refines c _ (T' ++ tr2)) in Hdi; [|by apply refines_app|done].
  destruct (frugal_returns c cap _ s1' o Hc Hd1 Hf1 Hdi) as (s' & r' & Hst').
  assert (r' = r) as ->.
  { assert (run c cap ((T ++ tr2) ++ [(o, r)]) s) as R1 by by econstructor. assert (run c cap ((T' ++ tr2) ++ [(o, r')]) s') as R2 by by econstructor.
    pose proof (same_lives _ _ _ _ _ _ _ _ R1 R2) as Hsame. rewrite !lives_app, Hl2 in Hsame. specialize (Hsame eq_refl). rewrite !issued_snoc, Hi in Hsame.
    apply app_inv_head in Hsame. destruct r, r'; naive_solver. }
  exists s'. by econstructor.
Qed.
Lemma undone_returns c cap tr x y tr2 s : cfg_ok c → drun (λ _ _, True) c cap (tr ++ [x; y] ++ tr2) s → undoes tr x y → x.2 = None →
  frugal c (tr ++ tr2) → ∃ s', drun (λ _ _, True) c cap (tr ++ tr2) s'.
Proof.
  intros Hc Hd Hu Hn Hf.
  assert (∀ z, z ∈ tr ++ [x; y] ++ tr2 → answers z) as Hans by (intros z; exact (run_answers _ _ _ _ _ (drun_run _ _ _ _ _ Hd))).
  assert (answers x) as Ax by (apply Hans; rewrite !elem_of_app; right; left; by left).
  assert (answers y) as Ay by (apply Hans; rewrite !elem_of_app; right; left; right; by left).
  rewrite app_assoc in Hd. destruct (drun_prefixes _ _ _ _ _ Hd) as [s1 Hd1].
  assert (∃ s0, drun (λ _ _, True) c cap tr s0 ∧ disciplined c tr x.1) as (s0 & Hd0 & Hdi).
  { rewrite app2 in Hd1. apply drun_snoc in Hd1 as (s2 & Hd2 & _). apply drun_snoc in Hd2 as (s0 & Hd0 & Hdi & _). eauto. }
  apply (continue_refines c cap (tr ++ [x; y]) tr tr2 s s0 Hc); [| |done|done|done].
  - pose proof (si_undone tr x y [] Hu Hn) as H. rewrite !app_nil_r in H. apply simpler_refines; [apply H; by destruct Hdi as (_ & _ & ? & _)|].
    intros z Hz. apply Hans. rewrite app_assoc. apply elem_of_app. by left.
  - assert (life_of x = None ∧ life_of y = None) as [Lx Ly].
    { destruct x as [o r], y as [o2 r2]. unfold undoes, answers, life_of in *. simpl in *. subst r.
      destruct o; try done; destruct o2; done. }
    rewrite app2, !lives_app, Lx, Ly. simpl. by rewrite !app_nil_r.
Qed.
Lemma overridden_returns c cap tr x y tr2 s : cfg_ok c → drun (λ _ _, True) c cap (tr ++ [x; y] ++ tr2) s → overrides x.1 y.1 →
  frugal c (tr ++ [x; y] ++ tr2) → frugal c (tr ++ [y] ++ tr2) → ∃ s', drun (λ _ _, True) c cap (tr ++ [y] ++ tr2) s'.
Proof.
  intros Hc Hd Hu Hf Hf'.
  assert (∀ z, z ∈ tr ++ [x; y] ++ tr2 → answers z) as Hans by (intros z; exact (run_answers _ _ _ _ _ (drun_run _ _ _ _ _ Hd))).
  assert (answers x) as Ax by (apply Hans; rewrite !elem_of_app; right; left; by left).
  assert (answers y) as Ay by (apply Hans; rewrite !elem_of_app; right; left; right; by left).
  rewrite app_assoc in Hd, Hf, Hf'. destruct (drun_prefixes _ _ _ _ _ Hd) as [s1 Hd1].
  destruct (calls_override c cap tr s1 x y Hc Hd1 Hu (frugal_prefixes _ _ _ Hf) (frugal_prefixes _ _ _ Hf')) as (s0' & Hd' & _).
  rewrite app_assoc. apply (continue_refines c cap (tr ++ [x; y]) (tr ++ [y]) tr2 s s0' Hc); [| |done|done|done].
  - pose proof (si_overridden tr x y [] Hu) as H. rewrite !app_nil_r in H. apply simpler_refines; [exact H|].
    intros z Hz. apply Hans. rewrite app_assoc. apply elem_of_app. by left.
  - assert (life_of x = None) as Lx. { destruct x as [o r]. simpl in Hu. by destruct o. }
    rewrite app2, !lives_app, Lx. simpl. by rewrite app_nil_r.
Qed.
