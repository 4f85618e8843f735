(** RearrangeP.v — rearranged histories give stores that answer alike. *)
From Verif.Spec Require Export Rearrange Caught Alike.
From Verif.Proofs Require Export AlikeP SystemsP.
Local Open Scope N_scope.

(** What the specifications say of the two histories is the same. *)
Definition similar (T T' : trace) : Prop :=
  (∀ e m, comps T e m ↔ comps T' e m) ∧ (∀ e, alive_in T e ↔ alive_in T' e) ∧ (∀ g, members T g = members T' g) ∧
  (∀ t e, tagged T t e ↔ tagged T' t e) ∧ (tags_on_live T ↔ tags_on_live T') ∧ (∀ e, e ∈ issued T ↔ e ∈ issued T').
Lemma similar_sym T T' : similar T T' → similar T' T.
Proof. intros (H1 & H2 & H3 & H4 & H5 & H6). split; [|split; [|split; [|split; [|split]]]]; intros; symmetry; auto. Qed.
Lemma similar_trans T T' T'' : similar T T' → similar T' T'' → similar T T''.
Proof.
  intros (H1 & H2 & H3 & H4 & H5 & H6) (H1' & H2' & H3' & H4' & H5' & H6'). split; [|split; [|split; [|split; [|split]]]]; intros; etrans; eauto.
Qed.
Lemma similar_snoc T T' x : similar T T' → similar (T ++ [x]) (T' ++ [x]).
Proof.
  intros (H1 & H2 & H3 & H4 & H5 & H6). destruct x as [o r]. split; [|split; [|split; [|split; [|split]]]].
  - intros e m. rewrite !comps_snoc_iff. by setoid_rewrite H1.
  - intros e. by rewrite !alive_snoc, H2.
  - intros g. specialize (H3 g). unfold members in *. by rewrite !foldl_app, H3.
  - intros t e. by rewrite !tagged_snoc, H4.
  - rewrite !tags_snoc, H5. by setoid_rewrite H2.
  - intros e. by rewrite !issued_snoc, !elem_of_app, H6.
Qed.
Lemma similar_app T T' tr2 : similar T T' → similar (T ++ tr2) (T' ++ tr2).
Proof. intros H. induction tr2 as [|x tr2 IH] using rev_ind; [by rewrite !app_nil_r|]. rewrite !app_assoc. by apply similar_snoc. Qed.
Lemma rearranged_perm T T' : rearranged T T' → T ≡ₚ T'.
Proof.
  induction 1 as [tr|tr x y tr2 _|tr x q f tr2 _|tr tr' _ IH|tr tr' tr'' _ IH1 _ IH2]; [done|..|by symmetry|by etrans].
  - apply Permutation_app_head, Permutation_app_tail. constructor.
  - apply Permutation_app_head, Permutation_app_tail. constructor.
Qed.
Lemma rearranged_similar T T' : rearranged T T' → (∀ x, x ∈ T → answers x) → similar T T'.
Proof.
  induction 1 as [tr|tr x y tr2 Hap|tr x q f tr2 Ha|tr tr' Hr IH|tr tr' tr'' Hr IH1 _ IH2]; intros Hans.
  - split; [|split; [|split; [|split; [|split]]]]; done.
  - rewrite !app_assoc. apply similar_app.
    assert (answers x) as Ax by (apply Hans; rewrite !elem_of_app; right; left; by left).
    assert (answers y) as Ay by (apply Hans; rewrite !elem_of_app; right; left; right; by left).
    pose proof (apart_sym _ _ Hap) as Hap'. split; [|split; [|split; [|split; [|split]]]].
    + intros e m. by apply comps_swap.
    + intros e. split; by apply alive_swap.
    + intros g. by apply members_swap.
    + intros t e. by apply tagged_swap.
    + split; by apply tags_live_swap.
    + intros e. destruct x as [o1 r1], y as [o2 r2]. rewrite !app2, !issued_snoc, !elem_of_app. tauto.
  - rewrite !app_assoc. apply similar_app. split; [|split; [|split; [|split; [|split]]]].
    + intros e m. by apply comps_loop.
    + intros e. apply alive_loop.
    + intros g. apply members_loop.
    + intros t e. apply tagged_loop.
    + apply tags_live_loop.
    + intros e. by rewrite issued_loop.
  - apply similar_sym, IH. intros x Hx. apply Hans. by rewrite <- (rearranged_perm _ _ Hr).
  - eapply similar_trans; [by apply IH1|]. apply IH2. intros x Hx. apply Hans. by rewrite (rearranged_perm _ _ Hr).
Qed.
Lemma run_answers c cap tr s x : run c cap tr s → x ∈ tr → answers x.
Proof.
  induction 1 as [s _|tr s o s' r Hr IH Hst]; [by intros ?%elem_of_nil|]. intros [Hx|Hx%elem_of_list_singleton]%elem_of_app; [by apply IH|]. subst x.
  apply (iff_sym). exact (creation_returns c cap _ _ _ _ _ Hr Hst).
Qed.
Lemma rearranged_same c cap cap' T T' s s' : cfg_ok c → drun (healthy c) c cap T s → drun (healthy c) c cap' T' s' → rearranged T T' →
  (∀ e, e ∈ issued T →
    is_alive c s e = is_alive c s' e ∧
    (∃ a a', get_entity_archetype c s e = POk a ∧ get_entity_archetype c s' e = POk a' ∧ arch_ids <$> a = arch_ids <$> a') ∧
    ∀ U, U ≠ [] → (∀ t, t ∈ U → t ∉ untold T e) → read_components c s e U = read_components c s' e U) ∧
  (∀ g, first_ordered c s g = first_ordered c s' g ∧ last_ordered c s g = last_ordered c s' g ∧
    ∀ e, alive_in T e → next_ordered c s g e = next_ordered c s' g e ∧ previous_ordered c s g e = previous_ordered c s' g e) ∧
  (tags_on_live T → ∀ t e, alive_in T e → has_tag c s t e = has_tag c s' t e).
Proof.
  intros Hc Hh Hh' Hre.
  destruct (rearranged_similar _ _ Hre) as (S1 & S2 & S3 & S4 & S5 & S6). { intros x. exact (run_answers _ _ _ _ _ (drun_run _ _ _ _ _ Hh)). }
  destruct (healthy_alike c cap _ s cap' _ s' (issued T) (alive_in T) T Hc Hh Hh') as (H1 & H2 & H3).
  - intros e He. split; [done|]. by apply S6.
  - intros e He. destruct (drun_debug _ _ _ _ Hc Hh) as [Hhr _]. by eapply hrun_full.
  - done.
  - intros e m He Hm. by apply S1.
  - intros e He. split; [done|by apply S2].
  - done.
  - intros t e _. apply S4.
  - split; [exact H1|]. split; [exact H2|]. intros Ht. apply H3; [done|by apply S5].
Qed.
Lemma rearranged_caught c cap cap' tr1 tr2 s s' : cfg_ok c → crun c cap tr1 s → crun c cap' tr2 s' → rearranged (answered tr1) (answered tr2) →
  let T := answered tr1 in
  (∀ e, e ∈ issued T →
    is_alive c s e = is_alive c s' e ∧
    (∃ a a', get_entity_archetype c s e = POk a ∧ get_entity_archetype c s' e = POk a' ∧ arch_ids <$> a = arch_ids <$> a') ∧
    ∀ U, U ≠ [] → (∀ t, t ∈ U → t ∉ untold T e) → read_components c s e U = read_components c s' e U) ∧
  (ec_cap (st_ec s) < 2 ^ 32 → ec_cap (st_ec s') < 2 ^ 32 →
    (∀ g, first_ordered c s g = first_ordered c s' g ∧ last_ordered c s g = last_ordered c s' g ∧
      ∀ e, alive_in T e → next_ordered c s g e = next_ordered c s' g e ∧ previous_ordered c s g e = previous_ordered c s' g e) ∧
    (tags_on_live T → ∀ t e, alive_in T e → has_tag c s t e = has_tag c s' t e)).
Proof.
  intros Hc Hr Hr' Hre T.
  destruct (rearranged_similar _ _ Hre) as (S1 & S2 & S3 & S4 & S5 & S6). { intros x. exact (crun_answers c _ _ _ _ Hr). }
  destruct (caught_alike c Hc cap tr1 s cap' tr2 s' (issued T) (alive_in T) T Hr Hr') as [H1 H2].
  - intros e He. split; [done|]. by apply S6.
  - intros e He. destruct (crun_only _ _ _ _ Hr) as [_ Hf]. apply Hf.
  - done.
  - intros e m He Hm. by apply S1.
  - intros e He. split; [done|by apply S2].
  - done.
  - intros t e _. apply S4.
  - split; [exact H1|]. intros C1 C2. destruct (H2 C1 C2) as [Ho Ht]. split; [exact Ho|]. intros T1. apply Ht; [done|by apply S5].
Qed.

Lemma rearranged_reads c cap cap' T T' s s' U : cfg_ok c → drun (healthy c) c cap T s → drun (healthy c) c cap' T' s' → rearranged T T' →
  U ≠ [] → (∀ e t, alive_in T e → t ∈ U → t ∉ untold T e) → reads_alike c T s c T' s' U.
Proof.
  intros Hc Hh Hh' Hre Hne Hu. destruct (rearranged_same c cap cap' T T' s s' Hc Hh Hh' Hre) as [H _].
  destruct (rearranged_similar _ _ Hre) as (_ & S2 & _). { intros x. exact (run_answers _ _ _ _ _ (drun_run _ _ _ _ _ Hh)). }
  intros e. split; [apply S2|]. intros Ha. destruct (H e (alive_is_issued _ _ Ha)) as (_ & _ & HT). apply HT; [done|]. intros t. by apply Hu.
Qed.
Lemma rearranged_queries c cap cap' T T' s s' q : cfg_ok c → drun (healthy c) c cap T s → drun (healthy c) c cap' T' s' → rearranged T T' →
  NoDup (q_types q) → q_types q ≠ [] → (∀ e t, alive_in T e → t ∈ q_types q → t ∉ untold T e) → visited_alike c s c s' q.
Proof.
  intros Hc Hh Hh' Hre Hn Hne Hu. apply (alike_component c c Hc Hc cap cap' T T' s s' Hh Hh' q Hn Hne). by eapply (rearranged_reads c cap cap').
Qed.
Lemma rearranged_ordered c cap cap' T T' s s' q g fuel : cfg_ok c → drun (healthy c) c cap T s → drun (healthy c) c cap' T' s' → rearranged T T' →
  NoDup (q_types q) → q_types q ≠ [] → (∀ e t, alive_in T e → t ∈ q_types q → t ∉ untold T e) →
  (∀ e, e ∈ members T g → had_components T e ∧ had_components T' e) → (length (members T g) < fuel)%nat → ordered_alike c s c s' q g fuel.
Proof.
  intros Hc Hh Hh' Hre Hn Hne Hu. apply (alike_ordered c c Hc Hc cap cap' T T' s s' Hh Hh' q g fuel Hn Hne); [by eapply (rearranged_reads c cap cap')|].
  destruct (rearranged_similar _ _ Hre) as (_ & _ & S3 & _); [|apply S3]. intros x. exact (run_answers _ _ _ _ _ (drun_run _ _ _ _ _ Hh)).
Qed.
Lemma rearranged_queries_caught c cap cap' tr1 tr2 s s' q : let T := answered tr1 in cfg_ok c → crun c cap tr1 s → crun c cap' tr2 s' → rearranged T (answered tr2) →
  NoDup (q_types q) → q_types q ≠ [] → (∀ e t, alive_in T e → t ∈ q_types q → t ∉ untold T e) → visited_alike c s c s' q.
Proof.
  intros T Hc Hr Hr' Hre Hn Hne Hu. apply (caught_component c c Hc Hc cap cap' tr1 tr2 s s' Hr Hr' q Hn Hne).
  destruct (rearranged_caught c cap cap' tr1 tr2 s s' Hc Hr Hr' Hre) as [H _].
  destruct (rearranged_similar _ _ Hre) as (_ & S2 & _). { intros x. exact (crun_answers c _ _ _ _ Hr). }
  intros e. split; [apply S2|]. intros Ha. destruct (H e (alive_is_issued _ _ Ha)) as (_ & _ & HT). apply HT; [done|]. intros t. by apply Hu.
Qed.

(** ** The calls return *)
Lemma disciplined_similar c T T' o : similar T T' → issued T = issued T' → disciplined c T o → disciplined c T' o.
Proof.
  intros (H1 & H2 & H3 & _) H6 (Ha & Hr & Ho & Hw & Hs). split; [exact Ha|]. split; [|split; [|split]].
  - destruct o; simpl in *; try done; intros m Hm; apply Hr; by apply H1.
  - destruct o; simpl in *; try done; by rewrite <- ?H2, <- ?H3.
  - intros e He. rewrite <- H6. by apply Hw.
  - destruct o; simpl in *; try done; [by rewrite <- H6|by rewrite <- H6|by apply H2|]. intros m Hm. apply Hs. by apply H1.
Qed.
Lemma continue c cap T T' tr2 s s0' : cfg_ok c → similar T T' → lives T = lives T' → drun (λ _ _, True) c cap (T ++ tr2) s → drun (λ _ _, True) c cap T' s0' →
  frugal c (T' ++ tr2) → ∃ s', drun (λ _ _, True) c cap (T' ++ tr2) s'.
Proof.
  intros Hc Hsim Hl Hd Hd' Hf. revert s Hd Hf. induction tr2 as [|[o r] tr2 IH] using rev_ind; intros s; [rewrite !app_nil_r; eauto|].
  rewrite !app_assoc. intros (s1 & Hd & Hdi & Hst)%drun_snoc Hf. simpl in *. pose proof (frugal_prefix _ _ _ Hf) as Hf1. destruct (IH s1 Hd Hf1) as [s1' Hd1].
  pose proof (drun_run _ _ _ _ _ Hd) as Hr. pose proof (drun_run _ _ _ _ _ Hd1) as Hr1.
  assert (lives (T ++ tr2) = lives (T' ++ tr2)) as Hl2. { unfold lives in *. by rewrite !omap_app, Hl. }
  pose proof (same_lives _ _ _ _ _ _ _ _ Hr Hr1 Hl2) as Hi.
  apply (disciplined_similar c _ (T' ++ tr2)) in Hdi; [|by apply similar_app|done].
  destruct (frugal_returns c cap _ s1' o Hc Hd1 Hf1 Hdi) as (s' & r' & Hst').
  assert (r' = r) as ->.
  { assert (run c cap ((T ++ tr2) ++ [(o, r)]) s) as R1 by by econstructor. assert (run c cap ((T' ++ tr2) ++ [(o, r')]) s') as R2 by by econstructor.
    pose proof (same_lives _ _ _ _ _ _ _ _ R1 R2) as Hsame. rewrite !lives_app, Hl2 in Hsame. specialize (Hsame eq_refl). rewrite !issued_snoc, Hi in Hsame.
    apply app_inv_head in Hsame. destruct r, r'; naive_solver. }
  exists s'. by econstructor.
Qed.
Lemma frugal_prefixes c T tr2 : frugal c (T ++ tr2) → frugal c T.
Proof. induction tr2 as [|x tr2 IH] using rev_ind; [by rewrite app_nil_r|]. rewrite app_assoc. intros H%frugal_prefix. by apply IH. Qed.
Lemma drun_prefixes c cap T tr2 s : drun (λ _ _, True) c cap (T ++ tr2) s → ∃ s0, drun (λ _ _, True) c cap T s0.
Proof. revert s. induction tr2 as [|x tr2 IH] using rev_ind; intros s; [rewrite app_nil_r; eauto|]. rewrite app_assoc. intros (s1 & H & _)%drun_snoc. by eapply IH. Qed.
Lemma apart_returns c cap tr x y tr2 s : cfg_ok c → drun (λ _ _, True) c cap (tr ++ [x; y] ++ tr2) s → apart x y → (∀ e e', x.1 = ODestroy e → y.1 ≠ ODestroy e') →
  frugal c (tr ++ [x; y] ++ tr2) → frugal c (tr ++ [y; x] ++ tr2) → ∃ s', drun (λ _ _, True) c cap (tr ++ [y; x] ++ tr2) s'.
Proof.
  intros Hc Hd Hap Hno Hf Hf'.
  assert (∀ z, z ∈ tr ++ [x; y] ++ tr2 → answers z) as Hans by (intros z; exact (run_answers _ _ _ _ _ (drun_run _ _ _ _ _ Hd))).
  assert (answers x) as Ax by (apply Hans; rewrite !elem_of_app; right; left; by left).
  assert (answers y) as Ay by (apply Hans; rewrite !elem_of_app; right; left; right; by left).
  assert (similar (tr ++ [x; y]) (tr ++ [y; x])) as Hsim.
  { apply rearranged_similar. - pose proof (re_apart tr x y [] Hap) as H. by rewrite !app_nil_r in H.
    - intros z Hz. apply Hans. rewrite app_assoc. apply elem_of_app. by left. }
  assert (lives (tr ++ [x; y]) = lives (tr ++ [y; x])) as Hl.
  { rewrite !app2, !lives_app, <- !app_assoc. f_equal. destruct Hap as (_ & L1 & L2).
    destruct (decide (is_Some x.2)) as [Hx|Hx]; [by rewrite (no_life x y Ax Ay L1 Hx), app_nil_r|].
    destruct (decide (is_Some y.2)) as [Hy|Hy]; [by rewrite (no_life y x Ay Ax L2 Hy), app_nil_r|].
    assert (∀ z, answers z → ¬ is_Some z.2 → life_of z = None ∨ ∃ e, z.1 = ODestroy e) as Hz.
    { intros [o r] Hz Hn. unfold life_of. simpl in *. unfold answers in Hz. simpl in Hz. destruct o; try (by left); try (right; by eexists); exfalso; apply Hn, Hz; eauto. }
    destruct (Hz x Ax Hx) as [->|[e He]]; [by rewrite app_nil_r|]. destruct (Hz y Ay Hy) as [->|[e' He']]; [by rewrite app_nil_r|]. by destruct (Hno e e'). }
  rewrite app_assoc in Hd, Hf, Hf'. destruct (drun_prefixes _ _ _ _ _ Hd) as [s1 Hd1].
  destruct (calls_swap c cap tr s1 x y Hc Hd1 Hap (frugal_prefixes _ _ _ Hf) (frugal_prefixes _ _ _ Hf')) as (s0' & Hd' & _).
  rewrite app_assoc. exact (continue c cap _ _ tr2 s s0' Hc Hsim Hl Hd Hd' Hf').
Qed.
Lemma frugal_loop_app c tr x q f tr2 : frugal c (tr ++ [x; (OWrite q f, None)] ++ tr2) ↔ frugal c (tr ++ [(OWrite q f, None); x] ++ tr2).
Proof.
  rewrite !app_assoc.
  assert (same_use (tr ++ [x; (OWrite q f, None)]) (tr ++ [(OWrite q f, None); x]) ∧ (one_abandoned (tr ++ [x; (OWrite q f, None)]) ↔ one_abandoned (tr ++ [(OWrite q f, None); x])) ∧
    ∀ c, below_capacity c (tr ++ [x; (OWrite q f, None)]) ↔ below_capacity c (tr ++ [(OWrite q f, None); x])) as H0.
  { rewrite !app2. pose proof (same_use_snoc _ _ x (same_use_loop tr q f None)) as (A1 & A2 & A3). pose proof (same_use_loop (tr ++ [x]) q f None) as (B1 & B2 & B3).
    assert (same_use ((tr ++ [(OWrite q f, None)]) ++ [x]) (tr ++ [x])) as HA by (split; [|split]; done).
    split; [|split].
    - split; [intros e; by rewrite A1|]. split; intros S; [by rewrite A2|by rewrite A3].
    - rewrite one_abandoned_loop, (one_abandoned_snoc tr x), (one_abandoned_snoc _ x), one_abandoned_loop. split; intros [H1 H2]; (split; [done|]); intros S1 S2 HS1 HS2.
      + apply H2; by apply (same_abandoned _ _ _ HA).
      + apply H2; by apply (same_abandoned _ _ _ HA).
    - intros c'. rewrite below_loop, (below_snoc c' tr x), (below_snoc c' _ x), below_loop. by rewrite (same_below c' _ _ A1). }
  assert (∀ T T', same_use T T' ∧ (one_abandoned T ↔ one_abandoned T') ∧ (∀ c, below_capacity c T ↔ below_capacity c T') →
    same_use (T ++ tr2) (T' ++ tr2) ∧ (one_abandoned (T ++ tr2) ↔ one_abandoned (T' ++ tr2)) ∧ (∀ c, below_capacity c (T ++ tr2) ↔ below_capacity c (T' ++ tr2))) as Happ.
  { clear. intros T T' H. induction tr2 as [|z tr2 IH] using rev_ind; [by rewrite !app_nil_r|]. rewrite !app_assoc. destruct IH as (I1 & I2 & I3).
    pose proof (same_use_snoc _ _ z I1) as HA. split; [done|]. split.
    - rewrite (one_abandoned_snoc (T ++ tr2) z), (one_abandoned_snoc (T' ++ tr2) z), I2. split; intros [H1 H2]; (split; [done|]); intros S1 S2 HS1 HS2.
      + apply H2; by apply (same_abandoned _ _ _ HA).
      + apply H2; by apply (same_abandoned _ _ _ HA).
    - intros c'. rewrite (below_snoc c' (T ++ tr2) z), (below_snoc c' (T' ++ tr2) z), I3. destruct HA as [Ht _]. by rewrite (same_below c' _ _ Ht). }
  destruct (Happ _ _ H0) as (U & O & B). by apply same_use_frugal.
Qed.
Lemma loop_lives tr x q f : lives (tr ++ [x; (OWrite q f, None)]) = lives (tr ++ [(OWrite q f, None); x]).
Proof. rewrite !app2, !lives_app, <- !app_assoc. simpl. by rewrite app_nil_r. Qed.
Lemma loop_similar tr x q f : aside x.1 q → similar (tr ++ [x; (OWrite q f, None)]) (tr ++ [(OWrite q f, None); x]).
Proof.
  intros Ha. split; [|split; [|split; [|split; [|split]]]].
  - intros e m. by apply comps_loop.
  - intros e. apply alive_loop.
  - intros g. apply members_loop.
  - intros t e. apply tagged_loop.
  - apply tags_live_loop.
  - intros e. by rewrite issued_loop.
Qed.
Lemma loop_returns c cap tr x q f tr2 : cfg_ok c → aside x.1 q → frugal c (tr ++ [x; (OWrite q f, None)] ++ tr2) →
  ((∃ s, drun (λ _ _, True) c cap (tr ++ [x; (OWrite q f, None)] ++ tr2) s) ↔ ∃ s', drun (λ _ _, True) c cap (tr ++ [(OWrite q f, None); x] ++ tr2) s').
Proof.
  intros Hc Ha Hf. pose proof (proj1 (frugal_loop_app c tr x q f tr2) Hf) as Hf'. pose proof (loop_lives tr x q f) as Hl. pose proof (loop_similar tr x q f Ha) as Hsim.
  rewrite !app_assoc in *. split; intros [s Hd]; destruct (drun_prefixes _ _ _ _ _ Hd) as [s1 Hd1].
  - destruct (loop_earlier c cap tr s1 x q f Hc Hd1 (frugal_prefixes _ _ _ Hf) (frugal_prefixes _ _ _ Hf')) as [s0' Hd'].
    exact (continue c cap _ _ tr2 s s0' Hc Hsim Hl Hd Hd' Hf').
  - destruct (loop_later c cap tr s1 x q f Hc Hd1 (frugal_prefixes _ _ _ Hf) (frugal_prefixes _ _ _ Hf')) as [s0' Hd'].
    exact (continue c cap _ _ tr2 s s0' Hc (similar_sym _ _ Hsim) (eq_sym Hl) Hd Hd' Hf).
Qed.
(** For examples: calls without results, one after the other. *)
Definition calls (os : list op) : trace := (λ o : op, (o, None)) <$> os.
Definition after_calls (c : cfg) (os : list op) (s : store) : store := foldl (λ s o, after c o s) s os.
Fixpoint calls_okb (c : cfg) (tr : trace) (os : list op) (s : store) : bool :=
  match os with
  | [] => true
  | o :: os => match o with OWrite _ _ => true | _ => discb c tr o end && returnsb c o s && calls_okb c (tr ++ [(o, None)]) os (after c o s)
  end.
Lemma calls_run c cap tr s os : drun (λ _ _, True) c cap tr s → (∀ q f, OWrite q f ∈ os → args_ok c (OWrite q f)) → calls_okb c tr os s = true →
  drun (λ _ _, True) c cap (tr ++ calls os) (after_calls c os s).
Proof.
  revert tr s. induction os as [|o os IH]; intros tr s Hd Ha; simpl; [by rewrite app_nil_r|]. intros [[H0 H1%after_step]%andb_prop H2]%andb_prop.
  rewrite (cons_middle _ tr), app_assoc. apply IH; [|intros q f Hq; apply Ha; by right|done]. econstructor; [exact Hd|done| |exact H1].
  destruct o; try (by apply discb_ok). apply loop_disciplined, Ha. by left.
Qed.
