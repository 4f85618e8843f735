(** StoryP.v — the answers about an entity are told by its story. *)
From Verif.Spec Require Export Story Discipline.
From Verif.Proofs Require Export DiscP TagsP OrdersH WriteP SafeP.
Local Open Scope N_scope.

Lemma story_snoc e tr x : story e (tr ++ [x]) = story_step e (story e tr) x.
Proof. unfold story. by rewrite foldl_app. Qed.
Lemma story_ne e tr x : story e tr ≠ [] → story e (tr ++ [x]) ≠ [].
Proof.
  intros H. rewrite story_snoc. unfold story_step. destruct (decide _); [done|]. destruct (story e tr); [done|]. by destruct (part e x.1).
Qed.
Lemma story_issued e tr : story e tr ≠ [] ↔ e ∈ issued tr.
Proof.
  induction tr as [|[o r] tr IH] using rev_ind; [split; [done|by intros ?%elem_of_nil]|].
  rewrite issued_snoc, elem_of_app, <- IH, story_snoc. unfold story_step. simpl. destruct (decide (r = Some e)) as [->|Hn].
  - split; [right; by left|done].
  - assert (e ∈ match r with Some e0 => [e0] | None => [] end ↔ False) as ->.
    { destruct r; [|by rewrite elem_of_nil]. rewrite elem_of_list_singleton. split; [|done]. by intros ->. }
    destruct (story e tr); [naive_solver|]. destruct (part e o); naive_solver.
Qed.

(** ** Components *)
Lemma comps_snoc_iff tr e o r x' : comps (tr ++ [(o, r)]) e x' ↔ ∃ x, comps tr e x ∧ comp_step e x o r x'.
Proof.
  split; [|intros (x & H1 & H2); by econstructor].
  intros H. inversion H as [e0 H1 H2|tr0 e0 x o0 r0 x0 Hx Hst Heq H1 H2]; [by destruct tr|].
  apply app_inj_tail in Heq as [-> [= -> ->]]. subst. eauto.
Qed.
Lemma comps_nil_iff e x : comps [] e x ↔ x = None.
Proof. split; [|intros ->; constructor]. intros H. inversion H as [|tr0 e0 x0 o0 r0 x' _ _ Heq]; [done|]. by destruct tr0. Qed.
(** Calls that are no part of the story of an entity that exists change nothing. *)
Lemma no_part e o r x x' : part e o = None → r ≠ Some e → comp_step e x o r x' ↔ x' = x.
Proof.
  intros Hp Hr. destruct o; simpl in *; repeat (destruct (decide _)); try done.
Qed.
Lemma some_part e o o' r x x' : part e o = Some o' → comp_step e x o' r x' ↔ comp_step e x o r x'.
Proof.
  intros Hp. destruct o; simpl in *; try (destruct (decide _) as [->|]; [|done]); try done; injection Hp as <-; simpl; by try rewrite decide_True by done.
Qed.
Lemma lookup_gset_to_gmap_Some_is {A} (v : A) (X : gset tid) t : is_Some (gset_to_gmap v X !! t) ↔ t ∈ X.
Proof. rewrite <- elem_of_dom. by rewrite dom_gset_to_gmap. Qed.
Lemma comps_total tr e : ∃ x, comps tr e x.
Proof.
  induction tr as [|[o r] tr [x Hx]] using rev_ind; [exists None; constructor|]. setoid_rewrite comps_snoc_iff.
  assert (∃ x', comp_step e x o r x') as [x' Hx']; [|eauto]. destruct o; simpl; try (eexists; reflexivity).
  destruct (decide _); [|eexists; reflexivity]. eexists. exists (gset_to_gmap [] (list_to_set (arch_ids a))). split; [done|].
  intros t. rewrite lookup_gset_to_gmap_Some_is, elem_of_list_to_set. done.
Qed.
Definition only_creations (tr : trace) : Prop := ∀ o e, (o, Some e) ∈ tr → o = OCreate ∨ ∃ a, o = OCreateWith a.
Lemma only_snoc tr o r : only_creations (tr ++ [(o, r)]) → only_creations tr ∧ (is_Some r → o = OCreate ∨ ∃ a, o = OCreateWith a).
Proof.
  intros H. split; [intros o' e Hin; eapply H; apply elem_of_app; by left|]. intros [e ->]. eapply H. apply elem_of_app. right. by left.
Qed.
Lemma story_comps_only e tr : only_creations tr → ∀ x, comps tr e x ↔ comps (story e tr) e x.
Proof.
  induction tr as [|[o r] tr IH] using rev_ind; intros Hoc x'; [done|]. apply only_snoc in Hoc as [Hoc Ho]. specialize (IH Hoc).
  rewrite story_snoc. unfold story_step. simpl.
  destruct (decide (r = Some e)) as [->|Hn].
  - destruct (Ho ltac:(done)) as [->|[a ->]]; rewrite comps_snoc_iff;
      rewrite (comps_snoc_iff [] _ _ _ _ : comps [_] _ _ ↔ _); simpl; destruct (decide (Some e = Some e)) as [_|?]; [|done|..|done].
    all: split; intros (x & _ & Hm).
    1, 3: exists None; split; [constructor|exact Hm].
    all: destruct (comps_total tr e) as [y Hy]; exists y; split; [done|exact Hm].
  - rewrite comps_snoc_iff. destruct (story e tr) as [|y st] eqn:Est.
    + setoid_rewrite IH. setoid_rewrite comps_nil_iff.
      assert (e ∉ issued tr) as Hni. { intros He%story_issued. done. }
      split.
      * intros (x & -> & Hst). destruct o; simpl in Hst; repeat (destruct (decide _)); done.
      * intros ->. exists None. split; [done|]. destruct o; simpl; repeat (destruct (decide _)); done.
    + setoid_rewrite IH. destruct (part e o) as [o'|] eqn:Ep.
      * rewrite comps_snoc_iff. by setoid_rewrite (some_part e o o' r _ _ Ep).
      * setoid_rewrite (no_part e o r _ _ Ep Hn). split; [by intros (x & Hx & ->)|eauto].
Qed.
Section run.
Context (c : cfg) (cap : N).
Lemma run_only tr s : run c cap tr s → only_creations tr.
Proof using.
  induction 1 as [s _|tr s o s' r Hr IH H]; intros o' e Hin; [by apply elem_of_nil in Hin|].
  apply elem_of_app in Hin as [Hin|Hin]; [by eapply IH|]. apply elem_of_list_singleton in Hin as [= -> <-].
  by apply (proj2 (creation_returns c cap tr s _ s' (Some e) Hr H)).
Qed.
Lemma story_comps e tr s : run c cap tr s → ∀ x, comps tr e x ↔ comps (story e tr) e x.
Proof using. intros Hr. by eapply story_comps_only, run_only. Qed.
End run.

(** What is told is the same for all. *)
Lemma put_told vals : ∀ (m m' : gmap tid (list cell)) t, t ∈ vals.*1 ∨ m !! t = m' !! t → put vals m !! t = put vals m' !! t.
Proof.
  unfold put. induction vals as [|[t0 v] vals IH]; intros m m' t Ht; simpl.
  - destruct Ht as [?%elem_of_nil|?]; done.
  - apply IH. destruct (decide (t = t0)) as [->|Hn]; [right; by rewrite !lookup_insert|].
    rewrite !lookup_insert_ne by done. destruct Ht as [Ht|?]; [|by right]. apply elem_of_cons in Ht as [?|?]; [done|by left].
Qed.
Lemma untold_snoc tr e o r : untold (tr ++ [(o, r)]) e = untold_step e (types tr e) (untold tr e) o r.
Proof.
  unfold untold. rewrite foldl_app. simpl. f_equal. unfold types. generalize (None : option (gset tid)), (∅ : gset tid).
  induction tr as [|x tr IH]; intros S u; simpl; [done|]. apply IH.
Qed.
Definition told_same (u : gset tid) (x y : option (gmap tid (list cell))) : Prop :=
  match x, y with
  | None, None => True
  | Some m, Some m' => dom m = dom m' ∧ ∀ t, t ∉ u → m !! t = m' !! t
  | _, _ => False
  end.
Lemma has_all_dom m T : has_all m T = bool_decide (list_to_set T ⊆ (dom m : gset tid)).
Proof.
  apply Bool.eq_iff_eq_true. rewrite has_all_spec, bool_decide_eq_true. unfold subseteq, set_subseteq_instance. setoid_rewrite elem_of_list_to_set. by setoid_rewrite elem_of_dom.
Qed.
Definition full_writes (e : entity) (tr : trace) : Prop := ∀ q f r, (OWrite q f, r) ∈ tr → ∀ l, length (f e l) = length (q_write q).
Lemma comps_told tr e : full_writes e tr → ∀ x y, comps tr e x → comps tr e y → told_same (untold tr e) x y.
Proof.
  induction tr as [|[o r] tr IH0] using rev_ind; intros Hw x' y'.
  - rewrite !comps_nil_iff. by intros -> ->.
  - rewrite !comps_snoc_iff, untold_snoc. intros (x & Hx & Hx') (y & Hy & Hy').
    assert (full_writes e tr) as Hw0. { intros q f r0 Hin. eapply Hw. apply elem_of_app. left. done. }
    pose proof (IH0 Hw0 x y Hx Hy) as H. clear IH0 Hw0.
    pose proof (comps_types _ _ _ Hx) as Ht. rewrite <- Ht.
    destruct o; simpl in *.
    + destruct (decide _); subst; [done|exact H].
    + destruct (decide _); [|by subst]. destruct Hx' as (m & -> & Hm), Hy' as (m' & -> & Hm'). split.
      * apply set_eq. intros t. by rewrite !elem_of_dom, Hm, Hm'.
      * intros t Hn%not_elem_of_list_to_set. assert (m !! t = None) as ->. { apply eq_None_not_Some. by rewrite Hm. }
        symmetry. apply eq_None_not_Some. by rewrite Hm'.
    + destruct (decide _); subst; [done|exact H].
    + destruct (decide _); subst; [|exact H]. destruct x as [m|], y as [m'|]; try done. destruct H as [Hd H]. simpl. split.
      * by rewrite !put_dom, Hd.
      * intros t Hn. apply put_told. destruct (decide (t ∈ vals.*1)); [by left|right]. apply H. intros Hu. apply Hn. apply elem_of_difference.
        by rewrite elem_of_list_to_set.
    + destruct (decide _); subst; [|exact H]. destruct x as [m|], y as [m'|]; try done. destruct H as [Hd H]. simpl. split.
      * apply set_eq. intros t. rewrite !elem_of_dom, !forget_lookup. destruct (decide _); [done|]. by rewrite <- !elem_of_dom, Hd.
      * intros t Hn. rewrite !forget_lookup. destruct (decide _); [done|]. by apply H.
    + destruct (decide (e0 = e)) as [->|Hne]; subst.
      * destruct x as [m|], y as [m'|]; try done. destruct H as [Hd H]. simpl. rewrite !has_all_dom, <- Hd.
        destruct (decide _) as [[_ Hs]|Hs]; [rewrite bool_decide_true by done|rewrite bool_decide_false by naive_solver; done]. split.
        { by rewrite !put_dom, Hd. }
        intros t Hn. apply put_told. destruct (decide (t ∈ vals.*1)); [by left|right]. apply H. intros Hu. apply Hn. apply elem_of_difference.
        by rewrite elem_of_list_to_set.
      * rewrite decide_False by naive_solver. exact H.
    + destruct x as [m|], y as [m'|]; subst; try (by destruct (decide _)); try done.
      destruct H as [Hd H]. simpl. rewrite !has_all_dom, <- Hd.
      destruct (decide _) as [Hs|Hs]; [rewrite bool_decide_true by done|rewrite bool_decide_false by done; done]. split.
      { assert (∀ (vs : list (list N)) t, t ∈ (zip (q_write q) vs).*1 → t ∈ q_types q) as Hz.
        { intros vs t ([t' v] & -> & Hin)%elem_of_list_fmap. apply elem_of_zip_l in Hin. unfold q_types. simpl. apply elem_of_app. by right. }
        rewrite (put_dom_same _ m (q_types q)), (put_dom_same _ m' (q_types q)); [done| | | |]; try (intros t; apply Hz).
        - rewrite has_all_dom, <- Hd. by apply bool_decide_eq_true. - rewrite has_all_dom. by apply bool_decide_eq_true. }
      assert (∀ l, (zip (q_write q) (f e l)).*1 = q_write q) as Hz.
      { intros l. apply fst_zip. rewrite (Hw q f r); [done|]. apply elem_of_app. right. by left. }
      intros t Hn. destruct (decide _) as [Hdj|Hdj] in Hn.
      * assert (values m (q_read q) = values m' (q_read q)) as ->.
        { unfold values. apply list_fmap_ext. intros i t' Ht'. f_equal. apply H. intros Hu. apply (Hdj t'); [|done].
          apply elem_of_list_to_set. by eapply elem_of_list_lookup_2. }
        apply put_told. rewrite Hz. destruct (decide (t ∈ q_write q)); [by left|right]. apply H. set_solver.
      * rewrite !put_other by (rewrite Hz; set_solver). apply H. set_solver.
    + by subst. + by subst. + by subst. + by subst. + by subst. + by subst.
Qed.

Lemma hrun_full e c cap tr s : hrun c cap tr s → full_writes e tr.
Proof.
  induction 1 as [|tr s o s' r _ IH _ Ha _ _]; intros q f r0 Hin; [by apply elem_of_nil in Hin|].
  apply elem_of_app in Hin as [Hin|Hin]; [by eapply IH|]. apply elem_of_list_singleton in Hin as [= <- <-]. intros l. by apply Ha.
Qed.
(** ** Liveness and tags *)
Lemma alive_is_issued tr e : alive_in tr e → e ∈ issued tr.
Proof.
  induction tr as [|[o r] tr IH] using rev_ind; [by intros ?%since_nil|]. rewrite alive_snoc, issued_snoc, elem_of_app.
  intros [->|[? _]]; [right; by left|left; auto].
Qed.
Lemma part_destroy e o o' : part e o = Some o' → o' = ODestroy e ↔ o = ODestroy e.
Proof. intros H. destruct o; simpl in H; try (destruct (decide _); [|done]); try done; by injection H as <-. Qed.
Lemma part_none e o : part e o = None → o ≠ ODestroy e.
Proof. intros H ->. simpl in H. by rewrite decide_True in H. Qed.
Lemma story_alive e tr : alive_in tr e ↔ alive_in (story e tr) e.
Proof.
  induction tr as [|[o r] tr IH] using rev_ind; [done|]. rewrite story_snoc, alive_snoc. unfold story_step. simpl.
  destruct (decide (r = Some e)) as [->|Hn].
  - split; [|by left]. intros _. apply (alive_snoc [] o (Some e) e). by left.
  - destruct (story e tr) as [|y st] eqn:Est.
    + assert (¬ alive_in [] e) as Hna by apply since_nil. naive_solver.
    + destruct (part e o) as [o'|] eqn:Ep.
      * rewrite alive_snoc, <- IH. rewrite (part_destroy _ _ _ Ep). naive_solver.
      * rewrite <- IH. pose proof (part_none _ _ Ep). naive_solver.
Qed.
Lemma tagged_snoc tr o r t e : tagged (tr ++ [(o, r)]) t e ↔ o = OTagAdd t e ∨ tagged tr t e ∧ o ≠ OTagDel t e ∧ o ≠ ODestroy e.
Proof. unfold tagged. rewrite since_snoc. simpl. naive_solver. Qed.
Lemma part_tag e o o' t : part e o = Some o' → (o' = OTagAdd t e ↔ o = OTagAdd t e) ∧ (o' = OTagDel t e ↔ o = OTagDel t e).
Proof. intros H. destruct o; simpl in H; try (destruct (decide _); [|done]); try done; by injection H as <-. Qed.
Lemma part_no_tag e o t : part e o = None → o ≠ OTagAdd t e ∧ o ≠ OTagDel t e.
Proof. intros H. split; intros ->; simpl in H; by rewrite decide_True in H. Qed.
Section tags.
Context (c : cfg) (Hmd : c_mode c = Debug) (cap : N).
Lemma tagged_issued tr t e : tags_on_live tr → tagged tr t e → e ∈ issued tr.
Proof using.
  clear. intros Ht (tr1 & [o r] & tr2 & -> & Ho & _). simpl in Ho. subst. unfold issued. rewrite omap_app. apply elem_of_app. left.
  apply alive_is_issued. eapply Ht; [done|by left].
Qed.
Lemma story_tagged tr s t e : run c cap tr s → tags_on_live tr → tagged tr t e ↔ tagged (story e tr) t e.
Proof using Hmd.
  induction 1 as [s _|tr s o s' r Hr IH H]; intros Ht; [done|]. pose proof (tags_on_live_snoc _ _ _ Ht) as Ht0. specialize (IH Ht0).
  rewrite story_snoc, tagged_snoc. unfold story_step. simpl. destruct (decide (r = Some e)) as [->|Hn].
  - assert (¬ tagged tr t e) as Hnt.
    { intros Hx%tagged_issued; [|done]. destruct (handles_nodup c cap Hmd _ _ (run_step c cap tr s o s' (Some e) Hr H)) as [Hnd _].
      rewrite issued_snoc in Hnd. apply NoDup_app in Hnd as (_ & Hd & _). apply (Hd e); [done|by left]. }
    pose proof (tagged_snoc [] o (Some e) t e) as Hs. simpl in Hs. rewrite Hs. assert (¬ tagged [] t e) by apply since_nil. naive_solver.
  - destruct (story e tr) as [|y st] eqn:Est.
    + assert (¬ tagged [] t e) as Hna by apply since_nil.
      assert (o ≠ OTagAdd t e). { intros ->. assert (alive_in tr e) as Hal. { eapply (Ht tr _ r []); [done|by left]. }
        apply alive_is_issued, story_issued in Hal. done. }
      naive_solver.
    + destruct (part e o) as [o'|] eqn:Ep.
      * rewrite tagged_snoc, <- IH. destruct (part_tag e o o' t Ep) as [-> ->]. rewrite (part_destroy _ _ _ Ep). done.
      * rewrite <- IH. pose proof (part_none _ _ Ep). pose proof (part_no_tag e o t Ep). naive_solver.
Qed.
End tags.

(** ** The theorems *)
Lemma observed_same c s c' s' e x y u : observed c s e x → observed c' s' e y → told_same u x y →
  is_alive c s e = is_alive c' s' e ∧
  (∃ a a', get_entity_archetype c s e = POk a ∧ get_entity_archetype c' s' e = POk a' ∧ arch_ids <$> a = arch_ids <$> a') ∧
  ∀ T, T ≠ [] → (∀ t, t ∈ T → t ∉ u) → read_components c s e T = read_components c' s' e T.
Proof.
  intros (Ha & Hr & Hg) (Ha' & Hr' & Hg') Hs.
  destruct x as [m|], y as [m'|]; try done; simpl in Hs.
  2: { split_and!; [by rewrite Ha, Ha'|eauto|]. intros T HT _. by rewrite Hr, Hr'. }
  destruct Hs as [Hd Hs]. split_and!.
  - rewrite Ha, Ha'. by rewrite !bool_decide_true by done.
  - destruct (decide (m = ∅)) as [->|Hm].
    { rewrite dom_empty_L in Hd. symmetry in Hd. apply dom_empty_inv_L in Hd as ->. rewrite decide_True in Hg' by done. eauto. }
    assert (m' ≠ ∅) as Hm'. { intros ->. rewrite dom_empty_L in Hd. by apply Hm, dom_empty_inv_L. }
    rewrite decide_False in Hg' by done. destruct Hg as (a & Hg & Hst & Hm1), Hg' as (a' & Hg' & Hst' & Hm1').
    exists (Some a), (Some a'). split_and!; try done. simpl. f_equal. apply incr_ext; [done..|]. intros t. rewrite Hm1, Hm1'. by rewrite <- !elem_of_dom, Hd.
  - intros T HT Hu. rewrite Hr, Hr' by done. f_equal. unfold expected. assert (has_all m T = has_all m' T) as -> by by rewrite !has_all_dom, Hd. destruct (has_all m' T); [|done]. f_equal.
    unfold values. apply list_fmap_ext. intros i t Ht. f_equal. apply Hs, Hu. by eapply elem_of_list_lookup_2.
Qed.
Lemma story_told c cap tr s c' cap' tr' s' e : cfg_ok c → c_mode c = Debug → cfg_ok c' → c_mode c' = Debug → hrun c cap tr s → hrun c' cap' tr' s' →
  e ∈ issued tr → story e tr = story e tr' →
  is_alive c s e = is_alive c' s' e ∧
  (∃ a a', get_entity_archetype c s e = POk a ∧ get_entity_archetype c' s' e = POk a' ∧ arch_ids <$> a = arch_ids <$> a') ∧
  ∀ T, T ≠ [] → (∀ t, t ∈ T → t ∉ untold tr e) → read_components c s e T = read_components c' s' e T.
Proof.
  intros Hc Hmd Hc' Hmd' Hr Hr' He Hst.
  assert (e ∈ issued tr') as He'. { apply story_issued. rewrite <- Hst. by apply story_issued. }
  destruct (values_persist c Hc Hmd cap tr s e Hr) as (x & Hx & Ho & _). { exact (own_lt c Hmd cap tr s e (hrun_run _ _ _ _ Hr) He). }
  destruct (values_persist c' Hc' Hmd' cap' tr' s' e Hr') as (y & Hy & Ho' & _). { exact (own_lt c' Hmd' cap' tr' s' e (hrun_run _ _ _ _ Hr') He'). }
  eapply observed_same; [done|done|]. eapply comps_told; [by eapply hrun_full|done|].
  rewrite (story_comps c cap e tr s (hrun_run _ _ _ _ Hr)), Hst, <- (story_comps c' cap' e tr' s' (hrun_run _ _ _ _ Hr')). done.
Qed.
Lemma story_tags c cap tr s c' cap' tr' s' t e : search_ok (c_bs c) → c_mode c = Debug → search_ok (c_bs c') → c_mode c' = Debug →
  run c cap tr s → run c' cap' tr' s' → tags_on_live tr → tags_on_live tr' → alive_in tr e → story e tr = story e tr' →
  has_tag c s t e = has_tag c' s' t e.
Proof.
  intros Hc Hmd Hc' Hmd' Hr Hr' Ht Ht' He Hst.
  destruct (has_tag_exact c Hc Hmd cap tr s t e) as (b & -> & Hb); [done..|].
  destruct (has_tag_exact c' Hc' Hmd' cap' tr' s' t e) as (b' & -> & Hb'); [done|done| |].
  { rewrite (story_alive e tr'), <- Hst, <- story_alive. done. }
  f_equal. apply Bool.eq_iff_eq_true. rewrite Hb, Hb'. rewrite (story_tagged c Hmd cap tr s), (story_tagged c' Hmd' cap' tr' s') by done. by rewrite Hst.
Qed.
Lemma story_told_both c cap tr s c' cap' tr' s' e : cfg_ok c → cfg_ok c' → drun (healthy c) c cap tr s → drun (healthy c') c' cap' tr' s' →
  e ∈ issued tr → story e tr = story e tr' →
  is_alive c s e = is_alive c' s' e ∧
  (∃ a a', get_entity_archetype c s e = POk a ∧ get_entity_archetype c' s' e = POk a' ∧ arch_ids <$> a = arch_ids <$> a') ∧
  ∀ T, T ≠ [] → (∀ t, t ∈ T → t ∉ untold tr e) → read_components c s e T = read_components c' s' e T.
Proof.
  intros Hc Hc' Hr Hr' He Hst.
  assert (e ∈ issued tr') as He'. { apply story_issued. rewrite <- Hst. by apply story_issued. }
  destruct (drun_values c cap tr s e Hc Hr He) as (x & Hx & Ho & _). destruct (drun_values c' cap' tr' s' e Hc' Hr' He') as (y & Hy & Ho' & _).
  destruct (drun_debug c cap tr s Hc Hr) as [Hh _]. destruct (drun_debug c' cap' tr' s' Hc' Hr') as [Hh' _].
  eapply observed_same; [done|done|]. eapply comps_told; [by eapply hrun_full|done|].
  rewrite (story_comps _ cap e tr s (hrun_run _ _ _ _ Hh)), Hst, <- (story_comps _ cap' e tr' s' (hrun_run _ _ _ _ Hh')). done.
Qed.
