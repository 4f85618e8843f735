(** OverrideP.v — a call that the next one makes superfluous can be left out. *)
From Verif.Spec Require Export Override.
From Verif.Proofs Require Export TakeBackP.
Local Open Scope N_scope.

Lemma put_twice vals vals' (m : gmap tid (list cell)) : within vals.*1 vals'.*1 → put vals' (put vals m) = put vals' m.
Proof.
  intros Hk. apply put_ext. intros t Hn. assert (t ∉ vals.*1) as Hn' by (intros H; by apply Hn, Hk). clear -Hn'. revert m.
  induction vals as [|[t' v] r IH]; intros m; [done|]. apply not_elem_of_cons in Hn' as [Ht Hi]. simpl.
  change (put r (<[t':=Some <$> v]> m) !! t = m !! t). rewrite IH by done. by rewrite lookup_insert_ne by done.
Qed.
Lemma forget_add vals T (m : gmap tid (list cell)) : within vals.*1 T → forget T (put vals m) = forget T m.
Proof.
  intros Hk. apply map_eq. intros t. rewrite !forget_lookup. destruct (decide _) as [Hi|Hi]; [done|].
  assert (t ∉ vals.*1) as Hn' by (intros H; by apply Hi, Hk). clear -Hn'. revert m.
  induction vals as [|[t' v] r IH]; intros m; [done|]. apply not_elem_of_cons in Hn' as [Ht Hi]. simpl.
  change (put r (<[t':=Some <$> v]> m) !! t = m !! t). rewrite IH by done. by rewrite lookup_insert_ne by done.
Qed.
Lemma put_forget vals T (m : gmap tid (list cell)) : within T vals.*1 → put vals (forget T m) = put vals m.
Proof. intros Hk. apply put_ext. intros t Hn. rewrite forget_lookup, decide_False; [done|]. intros H. by apply Hn, Hk. Qed.
Lemma forget_twice T T' (m : gmap tid (list cell)) : within T T' → forget T' (forget T m) = forget T' m.
Proof. intros Hk. apply map_eq. intros t. rewrite !forget_lookup. repeat destruct (decide _); try done. exfalso. naive_solver. Qed.
Lemma has_all_within (m : gmap tid (list cell)) T U : within T U → within U T → has_all m T = has_all m U.
Proof. intros H1 H2. rewrite !has_all_dom. apply bool_decide_ext. unfold within in *. set_solver. Qed.

Lemma comps_override tr o r o2 r2 e m : overrides o o2 → comps ((tr ++ [(o, r)]) ++ [(o2, r2)]) e m → comps (tr ++ [(o2, r2)]) e m.
Proof.
  intros Hu. rewrite !comps_snoc_iff. intros (x2 & (x1 & Hx1 & H1)%comps_snoc_iff & Hm). exists x1. split; [done|].
  destruct o; try done; destruct o2; try done; simpl in *.
  all: try (subst; by destruct (decide _)).
  all: try (by destruct Hu as [-> ->]; subst).
  all: try (destruct Hu as [-> Hk]); subst; (destruct (decide _); [|done]); destruct x1 as [m1|]; simpl; try done; f_equal.
  - symmetry. by rewrite put_twice.
  - by rewrite forget_add.
  - by rewrite put_forget.
  - by rewrite forget_twice.
  - destruct (has_all m1 _); [by rewrite put_twice|done].
  - destruct (has_all m1 _); [by rewrite forget_add|done].
  - destruct Hk as [Hk Hk']. rewrite (has_all_within m1 _ _ Hk Hk'). destruct (has_all m1 vals0.*1) eqn:E; [|by rewrite E].
    rewrite (has_all_dom (put vals m1)), put_dom, bool_decide_true.
    + by rewrite put_twice.
    + rewrite has_all_dom in E. apply bool_decide_eq_true in E. set_solver.
Qed.
Lemma drop_after to (e : entity) l : filter (λ x, x ≠ e) (insert_after to e l) = filter (λ x, x ≠ e) l.
Proof.
  induction l as [|x l IH]; [done|]. simpl. case_bool_decide.
  - rewrite (filter_cons _ x), (filter_cons _ x l), (filter_cons _ e), (decide_False (P := e ≠ e)) by naive_solver. done.
  - rewrite !(filter_cons _ x), IH. done.
Qed.
Lemma drop_before to (e : entity) l : filter (λ x, x ≠ e) (insert_before to e l) = filter (λ x, x ≠ e) l.
Proof.
  induction l as [|x l IH]; [done|]. simpl. case_bool_decide.
  - rewrite (filter_cons _ e), decide_False by naive_solver. done.
  - rewrite !(filter_cons _ x), IH. done.
Qed.
Lemma drop_end (e : entity) l : filter (λ x, x ≠ e) (l ++ [e]) = filter (λ x, x ≠ e) l.
Proof. rewrite filter_app, filter_cons, decide_False by naive_solver. apply app_nil_r. Qed.
Lemma drop_twice (e : entity) (l : list entity) : filter (λ x, x ≠ e) (filter (λ x, x ≠ e) l) = filter (λ x, x ≠ e) l.
Proof. rewrite list_filter_filter. apply list_filter_iff. naive_solver. Qed.
Lemma members_override tr o r o2 r2 g : overrides o o2 → members ((tr ++ [(o, r)]) ++ [(o2, r2)]) g = members (tr ++ [(o2, r2)]) g.
Proof.
  intros Hu. unfold members. rewrite !foldl_app. simpl. generalize (foldl (λ l x, order_step g l x.1) [] tr). intros l.
  destruct o; try done; destruct o2; try done; simpl in *; destruct_and?; subst; repeat case_bool_decide; try done;
    eauto using drop_after, drop_before, drop_end, drop_twice.
Qed.
Lemma tagged_override tr o r o2 r2 t e : overrides o o2 → tagged ((tr ++ [(o, r)]) ++ [(o2, r2)]) t e ↔ tagged (tr ++ [(o2, r2)]) t e.
Proof.
  intros Hu. rewrite (tagged_snoc (tr ++ [(o, r)])), !(tagged_snoc tr).
  destruct o; try done; destruct o2; try done; simpl in *; destruct_and?; subst; try naive_solver.
  all: destruct (decide (t0 = t ∧ e0 = e)) as [[-> ->]|Hne]; naive_solver.
Qed.
Lemma override_none o r o2 r2 : overrides o o2 → answers (o, r) → answers (o2, r2) → r = None ∧ r2 = None ∧ ∀ e, o ≠ ODestroy e.
Proof.
  intros Hu Ax Ay. unfold answers in *. simpl in *. split_and!.
  - destruct r; [|done]. destruct (proj1 Ax ltac:(eauto)) as [->|[a ->]]; done.
  - destruct r2; [|done]. destruct (proj1 Ay ltac:(eauto)) as [->|[a ->]]; by destruct o.
  - by destruct o.
Qed.
Lemma dom_forget T (m : gmap tid (list cell)) : dom (forget T m) = dom m ∖ (list_to_set T : gset tid).
Proof.
  apply set_eq. intros t. rewrite elem_of_difference, !elem_of_dom, forget_lookup, elem_of_list_to_set. destruct (decide _); [|naive_solver].
  split; [by intros [? ?]|naive_solver].
Qed.
Local Ltac sets t := apply set_eq; intros t; rewrite ?elem_of_union, ?elem_of_difference, ?elem_of_union, ?elem_of_difference, ?elem_of_list_to_set.
Lemma disciplined_override c tr o o2 : overrides o o2 → disciplined c tr o → disciplined c (tr ++ [(o, None)]) o2 → disciplined c tr o2.
Proof.
  intros Hu (_ & _ & _ & _ & S1) (Ha & Hro & Ho & Hw & Hs). assert (∀ e, o ≠ ODestroy e) as Hnd by by destruct o.
  assert (∀ e, alive_in (tr ++ [(o, None)]) e → alive_in tr e) as Hal. { intros e. rewrite alive_snoc. by intros [?|[? _]]. }
  assert (∀ e m, comps tr e (Some m) → (o2 = ODestroy e → False) → e ∈ handles o2 → ∃ m2, comps (tr ++ [(o, None)]) e (Some m2) ∧
    (∀ vals, o2 = OAdd e vals → dom m2 ∪ list_to_set vals.*1 = (dom m ∪ list_to_set vals.*1 : gset tid)) ∧
    (∀ T, o2 = ORemove e T → dom m2 ∖ list_to_set T = (dom m ∖ list_to_set T : gset tid) ∧ (m2 = ∅ → m = ∅))) as Hm2.
  { intros e m Hm Hn Hin. clear -Hu S1 Hm Hn Hin.
    destruct o; try done; destruct o2; try done; simpl in *; try (apply elem_of_list_singleton in Hin; subst); try (by destruct (Hn eq_refl));
      try (destruct Hu as [-> Hk]).
    all: try by (exists m; split; [econstructor; [done|reflexivity]|split; intros; done]).
    all: try by (subst; exists m; split; [econstructor; [done|reflexivity]|split; intros; done]).
    all: unfold within in *.
    - exists (put vals m). split; [econstructor; [done|]; simpl; by rewrite decide_True|]. split; [|done]. intros ? [= <-]. rewrite put_dom. sets t. specialize (Hk t). tauto.
    - exists (put vals m). split; [econstructor; [done|]; simpl; by rewrite decide_True|]. split; [done|]. intros ? [= <-]. rewrite put_dom. split; [sets t; specialize (Hk t); tauto|].
      intros He%(f_equal (dom (D := gset tid))). rewrite put_dom, dom_empty_L in He. apply dom_empty_inv_L. by apply empty_union_L in He as [? _].
    - exists (forget T m). split; [econstructor; [done|]; simpl; by rewrite decide_True|]. split; [|done]. intros ? [= <-]. rewrite dom_forget. sets t. specialize (Hk t). destruct (decide (t ∈ T)); tauto.
    - exists (forget T m). split; [econstructor; [done|]; simpl; by rewrite decide_True|]. split; [done|]. intros ? [= <-]. rewrite dom_forget. split; [sets t; specialize (Hk t); tauto|].
      intros He%(f_equal (dom (D := gset tid))). rewrite dom_forget, dom_empty_L in He. destruct (S1 m Hm) as [?|(t & Ht & HT)]; [done|]. exfalso.
      apply elem_of_dom in Ht. apply (f_equal (elem_of t)) in He. apply (not_elem_of_empty (C := gset tid) t). rewrite <- He. rewrite elem_of_difference, elem_of_list_to_set. done.
    - exists (if has_all m vals.*1 then put vals m else m). split; [econstructor; [done|]; simpl; by rewrite decide_True|]. split; [|done]. intros ? [= <-].
      destruct (has_all _ _); [rewrite put_dom; sets t; specialize (Hk t); tauto|done].
    - exists (if has_all m vals.*1 then put vals m else m). split; [econstructor; [done|]; simpl; by rewrite decide_True|]. split; [done|]. intros ? [= <-].
      destruct (has_all _ _); [|done]. rewrite put_dom. split; [sets t; specialize (Hk t); tauto|].
      intros He%(f_equal (dom (D := gset tid))). rewrite put_dom, dom_empty_L in He. apply dom_empty_inv_L. by apply empty_union_L in He as [? _].
    - exists (if has_all m vals.*1 then put vals m else m). split; [econstructor; [done|]; simpl; by rewrite decide_True|]. split; done. }
  split_and!.
  - done.
  - destruct o2; try done; simpl in *; intros m Hm; destruct (Hm2 e m Hm) as (m2 & Hc & Hv & HT); try done; try by left.
    + rewrite <- (Hv _ eq_refl). by apply Hro.
    + destruct (HT _ eq_refl) as [<- _]. by apply Hro.
  - destruct o2; try (by destruct o). simpl in *. by apply Hal.
  - intros e He. apply Hw in He. by rewrite issued_snoc, app_nil_r in He.
  - destruct o2; try done; simpl in *; try by apply Hal.
    + destruct o; done.
    + destruct o; done.
    + intros m Hm. destruct (Hm2 e m Hm) as (m2 & Hc & _ & HT); [done|by left|]. destruct (HT _ eq_refl) as [Hd He]. destruct (Hs m2 Hc) as [?|(t & Ht & HnT)]; [left; by apply He|].
      right. exists t. split; [|done]. apply elem_of_dom. apply elem_of_dom in Ht. assert (t ∈ (dom m2 ∖ list_to_set T : gset tid)) as Hi; [|set_solver].
      rewrite elem_of_difference, elem_of_list_to_set. done.
Qed.

Lemma override_live tr o o2 : tags_on_live (tr ++ [(o, None); (o2, None)]) → tags_on_live (tr ++ [(o2, None)]).
Proof.
  intros Ht tr1 o' r' tr2 t' e' E Ho. destruct tr2 as [|z tr2 _] using rev_ind.
  - apply app_inj_tail in E as [<- [= <- <-]]. assert (alive_in (tr ++ [(o, None)]) e') as Hx.
    { eapply (Ht (tr ++ [(o, None)]) o2 None []); [by rewrite <- app_assoc|done]. }
    apply alive_snoc in Hx as [?|[? _]]; done.
  - rewrite app_comm_cons, app_assoc in E. apply app_inj_tail in E as [-> _].
    eapply (Ht tr1 o' r' (tr2 ++ [(o, None); (o2, None)])); [by rewrite <- app_assoc|done].
Qed.
Lemma override_same c cap tr s s' x y : cfg_ok c → drun (healthy c) c cap (tr ++ [x; y]) s → drun (healthy c) c cap (tr ++ [y]) s' → overrides x.1 y.1 →
  (∀ e, e ∈ issued tr →
    is_alive c s e = is_alive c s' e ∧
    (∃ a a', get_entity_archetype c s e = POk a ∧ get_entity_archetype c s' e = POk a' ∧ arch_ids <$> a = arch_ids <$> a') ∧
    ∀ T, T ≠ [] → (∀ t, t ∈ T → t ∉ untold (tr ++ [y]) e) → read_components c s e T = read_components c s' e T) ∧
  (∀ g, first_ordered c s g = first_ordered c s' g ∧ last_ordered c s g = last_ordered c s' g ∧
    ∀ e, alive_in (tr ++ [y]) e → next_ordered c s g e = next_ordered c s' g e ∧ previous_ordered c s g e = previous_ordered c s' g e) ∧
  (tags_on_live (tr ++ [x; y]) → ∀ t e, alive_in (tr ++ [y]) e → has_tag c s t e = has_tag c s' t e).
Proof.
  intros Hc Hh Hh' Hu.
  pose proof (drun_any _ _ _ _ _ Hh) as Hd0. rewrite app2 in Hd0. apply drun_snoc in Hd0 as (s1 & Hd1 & _ & Hst2). pose proof Hd1 as Hd0. apply drun_snoc in Hd0 as (s0 & Hd0 & _ & Hst1).
  pose proof (drun_run _ _ _ _ _ Hd0) as Hr0. pose proof (drun_run _ _ _ _ _ Hd1) as Hr1.
  assert (answers x) as Ax. { apply (iff_sym). exact (creation_returns c cap _ _ _ _ _ Hr0 Hst1). }
  assert (answers y) as Ay. { apply (iff_sym). exact (creation_returns c cap _ _ _ _ _ Hr1 Hst2). }
  destruct x as [o r], y as [o2 r2]. simpl in Hu. destruct (override_none _ _ _ _ Hu Ax Ay) as (-> & -> & Hnd). simpl in *.
  clear s0 s1 Hd0 Hd1 Hst1 Hst2 Hr0 Hr1.
  destruct (drun_debug _ _ _ _ Hc Hh) as [Hhr Hp]. destruct (drun_debug _ _ _ _ Hc Hh') as [Hhr' Hp'].
  pose proof (hrun_run _ _ _ _ Hhr) as Hr. pose proof (hrun_run _ _ _ _ Hhr') as Hr'.
  pose proof Hc as [Hbs _ _].
  destruct (like_debug c s) as (Lt & Ln & Lf). destruct (like_debug c s') as (Lt' & Ln' & Lf').
  assert (∀ e, alive_in (tr ++ [(o2, None)]) e → alive_in (tr ++ [(o, None); (o2, None)]) e) as Hal.
  { intros e. rewrite app2, !alive_snoc. intros [?|[? ?]]; [done|]. right. split; [|done]. right. done. }
  split_and!.
  - intros e He.
    assert (e ∈ issued (tr ++ [(o, None); (o2, None)])) as He1. { unfold issued. rewrite omap_app. apply elem_of_app. by left. }
    assert (e ∈ issued (tr ++ [(o2, None)])) as He2. { unfold issued. rewrite omap_app. apply elem_of_app. by left. }
    destruct (drun_values c cap _ s e Hc Hh He1) as (m & Hm & Ho & _). destruct (drun_values c cap _ s' e Hc Hh' He2) as (m' & Hm' & Ho' & _).
    rewrite app2 in Hm. apply (comps_override tr o None o2 None e m Hu) in Hm.
    eapply observed_same; [done|done|]. eapply comps_told; [by eapply hrun_full|done|done].
  - intros g. destruct (order_exact (in_mode Debug c) cap Hbs eq_refl _ s g Hr Hp) as (_ & _ & F & La & N & O).
    destruct (order_exact (in_mode Debug c) cap Hbs eq_refl _ s' g Hr' Hp') as (_ & _ & F' & La' & N' & O').
    assert (members (tr ++ [(o, None); (o2, None)]) g = members (tr ++ [(o2, None)]) g) as Hmem by (rewrite app2; by apply members_override).
    rewrite Hmem in F, La, N, O.
    destruct (Lf g) as [-> ->], (Lf' g) as [-> ->]. split; [by rewrite F, F'|]. split; [by rewrite La, La'|].
    intros e Ha. destruct (Ln g e) as [-> ->], (Ln' g e) as [-> ->].
    destruct (decide (e ∈ members (tr ++ [(o2, None)]) g)) as [[i Hi]%elem_of_list_lookup|Hi].
    + destruct (N i e Hi) as [-> ->], (N' i e Hi) as [-> ->]. done.
    + destruct (O e (Hal _ Ha) Hi) as [-> ->], (O' e Ha Hi) as [-> ->]. done.
  - intros Ht t e Ha. rewrite Lt, Lt'.
    assert (tags_on_live (tr ++ [(o2, None)])) as Ht' by by eapply override_live.
    destruct (has_tag_exact (in_mode Debug c) Hbs eq_refl cap _ s t e Hr Ht (Hal _ Ha)) as (b & -> & Hb).
    destruct (has_tag_exact (in_mode Debug c) Hbs eq_refl cap _ s' t e Hr' Ht' Ha) as (b' & -> & Hb').
    f_equal. apply Bool.eq_iff_eq_true. rewrite Hb, Hb', app2. by apply tagged_override.
Qed.
Lemma calls_override c cap tr s x y : cfg_ok c → drun (λ _ _, True) c cap (tr ++ [x; y]) s → overrides x.1 y.1 →
  frugal c (tr ++ [x; y]) → frugal c (tr ++ [y]) →
  ∃ s', drun (λ _ _, True) c cap (tr ++ [y]) s' ∧
  (∀ e, e ∈ issued tr →
    is_alive c s e = is_alive c s' e ∧
    (∃ a a', get_entity_archetype c s e = POk a ∧ get_entity_archetype c s' e = POk a' ∧ arch_ids <$> a = arch_ids <$> a') ∧
    ∀ T, T ≠ [] → (∀ t, t ∈ T → t ∉ untold (tr ++ [y]) e) → read_components c s e T = read_components c s' e T) ∧
  (∀ g, first_ordered c s g = first_ordered c s' g ∧ last_ordered c s g = last_ordered c s' g ∧
    ∀ e, alive_in (tr ++ [y]) e → next_ordered c s g e = next_ordered c s' g e ∧ previous_ordered c s g e = previous_ordered c s' g e) ∧
  (tags_on_live (tr ++ [x; y]) → ∀ t e, alive_in (tr ++ [y]) e → has_tag c s t e = has_tag c s' t e).
Proof.
  intros Hc Hd Hu Hf Hf'.
  pose proof Hd as Hd1. rewrite app2 in Hd1. apply drun_snoc in Hd1 as (s1 & Hd1 & Hdi2 & Hst2). pose proof Hd1 as Hd0. apply drun_snoc in Hd0 as (s0 & Hd0 & Hdi1 & Hst1).
  pose proof (frugal_prefix _ _ _ Hf') as Hf0.
  pose proof (drun_run _ _ _ _ _ Hd0) as Hr0. pose proof (drun_run _ _ _ _ _ Hd1) as Hr1.
  assert (answers x) as Ax. { apply (iff_sym). exact (creation_returns c cap _ _ _ _ _ Hr0 Hst1). }
  assert (answers y) as Ay. { apply (iff_sym). exact (creation_returns c cap _ _ _ _ _ Hr1 Hst2). }
  destruct x as [o r], y as [o2 r2]. simpl in Hu. destruct (override_none _ _ _ _ Hu Ax Ay) as (-> & -> & Hnd). simpl in *.
  apply (disciplined_override c tr o o2 Hu Hdi1) in Hdi2.
  destruct (frugal_returns c cap tr s0 o2 Hc Hd0 Hf0 Hdi2) as (s' & r & Hst).
  assert (r = None) as ->.
  { destruct r as [e|]; [|done]. exfalso. assert (is_Some (@None entity)) as [? ?]; [|done]. apply Ay. simpl. apply (creation_returns c cap _ _ _ _ _ Hr0 Hst). eauto. }
  assert (drun (λ _ _, True) c cap (tr ++ [(o2, None)]) s') as Hd' by by econstructor.
  exists s'. split; [done|].
  destruct (frugal_drun _ _ _ _ Hc Hd Hf) as [Hh _]. destruct (frugal_drun _ _ _ _ Hc Hd' Hf') as [Hh' _].
  exact (override_same c cap tr s s' (o, None) (o2, None) Hc Hh Hh' Hu).
Qed.
