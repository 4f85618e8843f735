(** TakeBackP.v — a call and the one that takes it back leave nothing. *)
From Verif.Spec Require Export TakeBack.
From Verif.Proofs Require Export SwapP CompX.
Local Open Scope N_scope.

Lemma put_back vals vals' (m : gmap tid (list cell)) : vals'.*1 = vals.*1 → (∀ t v, (t, v) ∈ vals' → m !! t = Some (Some <$> v)) →
  put vals' (put vals m) = m.
Proof.
  intros Hk Hv. rewrite (put_ext vals' (put vals m) m).
  - clear vals Hk. unfold put. induction vals' as [|[t v] r IH] using rev_ind; [done|]. rewrite foldl_app. simpl. rewrite IH.
    + apply insert_id. apply Hv. apply elem_of_app. right. by left.
    + intros t' v' H. apply Hv. apply elem_of_app. by left.
  - intros t Hn. rewrite Hk in Hn. clear -Hn. unfold put. induction vals as [|[t' v] r IH] using rev_ind; [done|].
    rewrite fmap_app, not_elem_of_app in Hn. destruct Hn as [Hn Hn']. rewrite foldl_app. simpl. rewrite lookup_insert_ne; [by apply IH|].
    intros ->. apply Hn'. by left.
Qed.
Lemma forget_put vals T (m : gmap tid (list cell)) : (∀ t, t ∈ T ↔ t ∈ vals.*1) → (∀ t, t ∈ T → t ∉ dom m) → forget T (put vals m) = m.
Proof.
  intros Hk Hn. apply map_eq. intros t. rewrite forget_lookup. destruct (decide _) as [Hi|Hi].
  - symmetry. apply not_elem_of_dom. by apply Hn.
  - rewrite Hk in Hi. clear Hk Hn. revert m. induction vals as [|[t' v] r IH]; intros m; [done|]. apply not_elem_of_cons in Hi as [Ht Hi]. simpl.
    change (put r (<[t':=Some <$> v]> m) !! t = m !! t). rewrite IH by done. by rewrite lookup_insert_ne by done.
Qed.
Lemma comps_undo tr x y e m : undoes tr x y → x.2 ≠ Some e → answers x → answers y → comps (tr ++ [x; y]) e m → comps tr e m.
Proof.
  intros Hu Hn Ax Ay. destruct x as [o r], y as [o2 r2]. rewrite app2, comps_snoc_iff. intros (x2 & Hx2 & Hm). apply comps_snoc_iff in Hx2 as (x1 & Hx1 & H1).
  pose proof (comps_types _ _ _ Hx1) as Ht. unfold undoes in Hu. simpl in *.
  destruct o; try done; destruct o2; try done; simpl in *.
  - destruct (decide (r = _)); [done|]. destruct (decide _); subst; done.
  - destruct (decide (r = _)); [done|]. destruct (decide _); subst; done.
  - destruct Hu as (-> & Hk & Hn'). destruct (decide _); subst; [|done]. destruct x1 as [m1|]; simpl; [|done]. rewrite forget_put; [done..|].
    intros t Hi. apply Hn' in Hi. by rewrite <- Ht in Hi.
  - destruct Hu as (-> & Hk & Hv). destruct (decide _); subst; [|done]. destruct x1 as [m1|]; simpl; [|done].
    rewrite Hk. destruct (has_all m1 vals.*1) eqn:E; [|by rewrite E].
    rewrite (has_all_dom (put vals m1)), put_dom, bool_decide_true by set_solver. rewrite put_back; [done..|]. intros t v. by apply Hv.
  - by subst.
  - by subst.
  - by subst.
  - by subst.
  - by subst.
Qed.
Lemma filter_out (e : entity) (l : list entity) : e ∉ l → filter (λ x, x ≠ e) l = l.
Proof.
  induction l as [|x l IH]; [done|]. intros [H1 H2]%not_elem_of_cons. rewrite filter_cons, decide_True by congruence. by rewrite IH.
Qed.
Lemma filter_after to (e : entity) l : e ∉ l → filter (λ x, x ≠ e) (insert_after to e l) = l.
Proof.
  induction l as [|x l IH]; [done|]. intros [H1 H2]%not_elem_of_cons. simpl. case_bool_decide.
  - rewrite filter_cons, decide_True by congruence. rewrite filter_cons, decide_False by naive_solver. by rewrite filter_out.
  - rewrite filter_cons, decide_True by congruence. by rewrite IH.
Qed.
Lemma filter_before to (e : entity) l : e ∉ l → filter (λ x, x ≠ e) (insert_before to e l) = l.
Proof.
  induction l as [|x l IH]; [done|]. intros [H1 H2]%not_elem_of_cons. simpl. case_bool_decide.
  - rewrite filter_cons, decide_False by naive_solver. rewrite filter_cons, decide_True by congruence. by rewrite filter_out.
  - rewrite filter_cons, decide_True by congruence. by rewrite IH.
Qed.
Lemma members_undo tr x y g : undoes tr x y → order_use_ok tr x.1 → (∀ e, x.2 = Some e → e ∉ members tr g) →
  members (tr ++ [x; y]) g = members tr g.
Proof.
  intros Hu Ho Hn. unfold members at 1. rewrite foldl_app. simpl. change (foldl _ [] tr) with (members tr g).
  destruct x as [o r], y as [o2 r2]. unfold undoes in Hu. simpl in *.
  destruct o; try done; destruct o2; try done; simpl in *; try (destruct Hu as (-> & ->)).
  - subst. apply filter_out. by apply Hn.
  - subst. apply filter_out. by apply Hn.
  - case_bool_decide; [subst|done]. rewrite filter_app, filter_out by tauto. rewrite filter_cons, decide_False by naive_solver. by rewrite app_nil_r.
  - case_bool_decide; [subst|done]. apply filter_after. tauto.
  - case_bool_decide; [subst|done]. apply filter_before. tauto.
Qed.
Lemma undo_spares tr x y e : undoes tr x y → answers x → answers y → x.2 ≠ Some e → spares x e ∧ spares y e.
Proof.
  intros Hu Ax Ay Hn. destruct x as [o r], y as [o2 r2]. unfold undoes in Hu. unfold answers in *. simpl in *. unfold spares. simpl.
  assert (r2 = None) as ->. { destruct r2; [|done]. destruct (proj1 Ay ltac:(eauto)) as [->|[a ->]]; by destruct o. }
  destruct o; try done; destruct o2; try done; simpl in *; naive_solver.
Qed.
Lemma tagged_undo tr x y t e : undoes tr x y → x.2 ≠ Some e → tagged (tr ++ [x; y]) t e ↔ tagged tr t e.
Proof.
  intros Hu Hn. destruct x as [o r], y as [o2 r2]. rewrite app2, (tagged_snoc (tr ++ [(o, r)])), (tagged_snoc tr). unfold undoes in Hu. simpl in *.
  destruct o; try done; destruct o2; try done; simpl in *; try naive_solver.
  - destruct Hu as (-> & -> & Hu). destruct (decide (t0 = t ∧ e0 = e)) as [[-> ->]|Hne]; naive_solver.
Qed.

Lemma undo_same c cap tr s s' x y : cfg_ok c → drun (healthy c) c cap tr s → drun (healthy c) c cap (tr ++ [x; y]) s' → undoes tr x y →
  (∀ e, e ∈ issued tr →
    is_alive c s e = is_alive c s' e ∧
    (∃ a a', get_entity_archetype c s e = POk a ∧ get_entity_archetype c s' e = POk a' ∧ arch_ids <$> a = arch_ids <$> a') ∧
    ∀ T, T ≠ [] → (∀ t, t ∈ T → t ∉ untold tr e) → read_components c s e T = read_components c s' e T) ∧
  (∀ g, first_ordered c s g = first_ordered c s' g ∧ last_ordered c s g = last_ordered c s' g ∧
    ∀ e, alive_in tr e → next_ordered c s g e = next_ordered c s' g e ∧ previous_ordered c s g e = previous_ordered c s' g e) ∧
  (tags_on_live (tr ++ [x; y]) → ∀ t e, alive_in tr e → has_tag c s t e = has_tag c s' t e).
Proof.
  intros Hc Hh Hh' Hu.
  pose proof (drun_any _ _ _ _ _ Hh') as Hd1. rewrite app2 in Hd1. apply drun_snoc in Hd1 as (s1 & Hd1 & Hdi2 & Hst2). pose proof Hd1 as Hd0. apply drun_snoc in Hd0 as (s0 & Hd0 & Hdi1 & Hst1).
  pose proof (drun_run _ _ _ _ _ Hd0) as Hr0. pose proof (drun_run _ _ _ _ _ Hd1) as Hr1.
  assert (answers x) as Ax. { apply (iff_sym). exact (creation_returns c cap _ _ _ _ _ Hr0 Hst1). }
  assert (answers y) as Ay. { apply (iff_sym). exact (creation_returns c cap _ _ _ _ _ Hr1 Hst2). }
  destruct (drun_debug _ _ _ _ Hc Hh) as [Hhr Hp]. destruct (drun_debug _ _ _ _ Hc Hh') as [Hhr' Hp'].
  pose proof (hrun_run _ _ _ _ Hhr) as Hr. pose proof (hrun_run _ _ _ _ Hhr') as Hr'.
  assert (∀ e, e ∈ issued tr → x.2 ≠ Some e) as Hn.
  { intros e He Hx. destruct (handles_nodup (in_mode Debug c) cap eq_refl _ _ Hr') as [Hnd _]. unfold issued in Hnd. rewrite omap_app in Hnd. simpl in Hnd. rewrite Hx in Hnd.
    apply NoDup_app in Hnd as (_ & Hnd & _). apply (Hnd e He). by left. }
  pose proof Hc as [Hbs _ _].
  destruct (like_debug c s) as (Lt & Ln & Lf). destruct (like_debug c s') as (Lt' & Ln' & Lf').
  assert (∀ e, alive_in tr e → alive_in (tr ++ [x; y]) e) as Hal.
  { intros e Ha. destruct (undo_spares tr x y e Hu Ax Ay (Hn e (alive_is_issued _ _ Ha))) as [S1 S2]. rewrite app2, alive_other, alive_other; done. }
  split_and!.
  - intros e He.
    assert (e ∈ issued (tr ++ [x; y])) as He'.
    { unfold issued. rewrite omap_app. apply elem_of_app. by left. }
    destruct (drun_values c cap _ s e Hc Hh He) as (m & Hm & Ho & _). destruct (drun_values c cap _ s' e Hc Hh' He') as (m' & Hm' & Ho' & _).
    apply (comps_undo tr x y e m' Hu (Hn e He) Ax Ay) in Hm'.
    eapply observed_same; [done|done|]. eapply comps_told; [by eapply hrun_full|done|done].
  - intros g. destruct (order_exact (in_mode Debug c) cap Hbs eq_refl _ s g Hr Hp) as (_ & Hm & F & La & N & O).
    destruct (order_exact (in_mode Debug c) cap Hbs eq_refl _ s' g Hr' Hp') as (_ & _ & F' & La' & N' & O').
    assert (members (tr ++ [x; y]) g = members tr g) as Hmem.
    { apply members_undo; [done|by destruct Hdi1 as (_ & _ & ? & _)|]. intros e Hx Hi. by apply (Hn e (alive_is_issued _ _ (Hm e Hi))). }
    rewrite Hmem in F', La', N', O'.
    destruct (Lf g) as [-> ->], (Lf' g) as [-> ->]. split; [by rewrite F, F'|]. split; [by rewrite La, La'|].
    intros e Ha. destruct (Ln g e) as [-> ->], (Ln' g e) as [-> ->].
    destruct (decide (e ∈ members tr g)) as [[i Hi]%elem_of_list_lookup|Hi].
    + destruct (N i e Hi) as [-> ->], (N' i e Hi) as [-> ->]. done.
    + destruct (O e Ha Hi) as [-> ->], (O' e (Hal _ Ha) Hi) as [-> ->]. done.
  - intros Ht t e Ha. rewrite Lt, Lt'.
    assert (tags_on_live tr) as Ht0. { intros tr1 o r tr2 t' e' -> Ho. eapply (Ht tr1 o r (tr2 ++ [x; y])); [by rewrite <- app_assoc|done]. }
    destruct (has_tag_exact (in_mode Debug c) Hbs eq_refl cap _ s t e Hr Ht0 Ha) as (b & -> & Hb).
    destruct (has_tag_exact (in_mode Debug c) Hbs eq_refl cap _ s' t e Hr' Ht (Hal _ Ha)) as (b' & -> & Hb').
    f_equal. apply Bool.eq_iff_eq_true. rewrite Hb, Hb'. symmetry. apply tagged_undo; [done|]. apply Hn, alive_is_issued, Ha.
Qed.
Lemma calls_undo c cap tr s s' x y : cfg_ok c → drun (λ _ _, True) c cap tr s → drun (λ _ _, True) c cap (tr ++ [x; y]) s' → undoes tr x y →
  frugal c (tr ++ [x; y]) →
  (∀ e, e ∈ issued tr →
    is_alive c s e = is_alive c s' e ∧
    (∃ a a', get_entity_archetype c s e = POk a ∧ get_entity_archetype c s' e = POk a' ∧ arch_ids <$> a = arch_ids <$> a') ∧
    ∀ T, T ≠ [] → (∀ t, t ∈ T → t ∉ untold tr e) → read_components c s e T = read_components c s' e T) ∧
  (∀ g, first_ordered c s g = first_ordered c s' g ∧ last_ordered c s g = last_ordered c s' g ∧
    ∀ e, alive_in tr e → next_ordered c s g e = next_ordered c s' g e ∧ previous_ordered c s g e = previous_ordered c s' g e) ∧
  (tags_on_live (tr ++ [x; y]) → ∀ t e, alive_in tr e → has_tag c s t e = has_tag c s' t e).
Proof.
  intros Hc Hd Hd' Hu Hf'. pose proof Hf' as Hf. rewrite app2 in Hf. apply frugal_prefix, frugal_prefix in Hf.
  exact (undo_same c cap tr s s' x y Hc (proj1 (frugal_drun _ _ _ _ Hc Hd Hf)) (proj1 (frugal_drun _ _ _ _ Hc Hd' Hf')) Hu).
Qed.

(** ** Taking back is possible *)
Lemma types_fit H c cap tr s e S : drun H c cap tr s → types tr e = Some S → S ≠ ∅ → fits_types (in_mode Debug c) S.
Proof.
  intros Hd. revert S. induction Hd as [|tr s o s' r Hd IH _ (Ha & Hro & _) _]; intros S; [done|]. rewrite types_app.
  destruct (comps_total tr e) as [x Hx]. pose proof (comps_types _ _ _ Hx) as Ht.
  destruct o; simpl in *; try apply IH; (destruct (decide _) as [Hr|Hr]; [|apply IH]).
  - intros [= <-]. done.
  - intros [= <-] _ a' Hwf Hi. rewrite (arch_of_eq _ _ _ Hwf Hi), <- (arch_of_eq (in_mode Debug c) a); [done|done|]. intros t. by rewrite elem_of_list_to_set.
  - done.
  - rewrite <- Ht. destruct x as [m|]; [|done]. intros [= <-] _. apply Hro. by rewrite <- Hr in Hx.
  - rewrite <- Ht. destruct x as [m|]; [|done]. intros [= <-] _. apply Hro. by rewrite <- Hr in Hx.
Qed.
Lemma undo_returns c cap tr s x o : cfg_ok c → drun (λ _ _, True) c cap (tr ++ [x]) s → frugal c (tr ++ [x]) → undoes tr x (o, None) → args_ok c o →
  (∀ e vals, x.1 = OAdd e vals → types tr e ≠ Some ∅) → ∃ s', drun (λ _ _, True) c cap (tr ++ [x; (o, None)]) s'.
Proof.
  intros Hc Hd Hf Hu Ha Hne. pose proof Hd as Hd0. apply drun_snoc in Hd0 as (s0 & Hd0 & (_ & _ & Ho & Hw & _) & Hst).
  pose proof (drun_run _ _ _ _ _ Hd) as Hr.
  assert (disciplined c (tr ++ [x]) o) as Hdi.
  { destruct x as [o1 r]. unfold undoes in Hu. simpl in *.
    destruct o1; try done; destruct o; try done; simpl in *.
    - subst. split_and!; [done..| |]; simpl.
      + intros e' ->%elem_of_list_singleton. rewrite issued_snoc. apply elem_of_app. right. by left.
      + apply alive_snoc. by left.
    - subst. split_and!; [done..| |]; simpl.
      + intros e' ->%elem_of_list_singleton. rewrite issued_snoc. apply elem_of_app. right. by left.
      + apply alive_snoc. by left.
    - destruct Hu as (-> & Hk & Hn).
      assert (∀ m, comps (tr ++ [(OAdd e vals, r)]) e (Some m) → ∃ S, types tr e = Some S ∧ S ≠ ∅ ∧ dom m = S ∪ list_to_set vals.*1) as Hty.
      { intros m Hm%comps_types. rewrite types_app in Hm. simpl in Hm. rewrite decide_True in Hm by done. specialize (Hne e vals eq_refl).
        destruct (types tr e) as [S|]; [|done]. simpl in Hm. injection Hm as Hm. exists S. split; [done|]. split; [congruence|done]. }
      split_and!; [done| |done| |]; simpl.
      + intros m Hm. destruct (Hty m Hm) as (S & HS & HSn & ->). replace ((S ∪ list_to_set vals.*1) ∖ list_to_set T) with S; [by eapply types_fit|].
        rewrite HS in Hn. simpl in Hn. apply set_eq. intros t. rewrite elem_of_difference, elem_of_union, !elem_of_list_to_set, <- Hk. naive_solver.
      + intros e' ->%elem_of_list_singleton. rewrite issued_snoc. apply elem_of_app. left. apply Hw. by left.
      + intros m Hm. destruct (Hty m Hm) as (S & HS & HSn & Hdom). right. apply set_choose_L in HSn as [t Hin]. exists t. split.
        * apply elem_of_dom. rewrite Hdom. set_solver.
        * intros HT. apply (Hn t HT). by rewrite HS.
    - destruct Hu as (-> & _). split_and!; [done..| |done]. intros e' ->%elem_of_list_singleton. rewrite issued_snoc. apply elem_of_app. left. apply Hw. by left.
    - destruct Hu as (_ & -> & _). split_and!; [done..| |done]. intros e' ->%elem_of_list_singleton. rewrite issued_snoc. apply elem_of_app. left. apply Hw. by left.
    - destruct Hu as (_ & -> & _). split_and!; [done..| |done]. intros e' ->%elem_of_list_singleton. rewrite issued_snoc. apply elem_of_app. left. apply Hw. by left.
    - destruct Hu as [_ ->]. split_and!; [done..| | |done]; simpl.
      + apply alive_snoc. right. split; [apply Ho|done].
      + intros e' ->%elem_of_list_singleton. rewrite issued_snoc. apply elem_of_app. left. apply Hw. by left.
    - destruct Hu as [_ ->]. split_and!; [done..| | |done]; simpl.
      + apply alive_snoc. right. split; [apply Ho|done].
      + intros e' ->%elem_of_list_singleton. rewrite issued_snoc. apply elem_of_app. left. apply Hw. by left.
    - destruct Hu as [_ ->]. split_and!; [done..| | |done]; simpl.
      + apply alive_snoc. right. split; [apply Ho|done].
      + intros e' ->%elem_of_list_singleton. rewrite issued_snoc. apply elem_of_app. left. apply Hw. by left. }
  destruct (frugal_returns c cap _ s o Hc Hd Hf Hdi) as (s' & r' & Hs').
  assert (r' = None) as ->.
  { destruct r'; [|done]. destruct (proj2 (creation_returns c cap _ _ _ _ _ Hr Hs') ltac:(eauto)) as [->|[a ->]]; destruct x as [o1 r]; by destruct o1. }
  exists s'. rewrite app2. by econstructor.
Qed.
