(** SwapP.v — two calls that are apart can change places. *)
From Verif.Spec Require Export Swap Tags Predict.
From Verif.Proofs Require Export StoryP ModeP PredictP.
Local Open Scope N_scope.

Global Instance touches_dec x p : Decision (touches x p).
Proof. destruct x as [o r], p; destruct o; unfold touches; simpl; apply _. Defined.
Lemma apart_sym x y : apart x y → apart y x.
Proof. intros (H1 & H2 & H3). split; [|done]. intros p Hx Hy. by apply (H1 p). Qed.
Lemma app2 {A} (tr : list A) x y : tr ++ [x; y] = (tr ++ [x]) ++ [y].
Proof. by rewrite <- app_assoc. Qed.

(** ** The histories *)
Lemma untouched_comps e o r x x' : ¬ touches (o, r) (Comps e) → r ≠ Some e → comp_step e x o r x' ↔ x' = x.
Proof. intros H Hr. destruct o; unfold touches in H; simpl in *; repeat (destruct (decide _)); try done. Qed.
Lemma comps_other tr o r e x : ¬ touches (o, r) (Comps e) → r ≠ Some e → comps (tr ++ [(o, r)]) e x ↔ comps tr e x.
Proof.
  intros H Hr. rewrite comps_snoc_iff. setoid_rewrite (untouched_comps e o r _ _ H Hr). split; [by intros (y & Hy & ->)|eauto].
Qed.
Lemma untouched_types e S o r : ¬ touches (o, r) (Comps e) → r ≠ Some e → types_step e S o r = S.
Proof. intros H Hr. destruct o; unfold touches in H; simpl in *; repeat (destruct (decide _)); try done. Qed.
Lemma untouched_untold e S u o r : ¬ touches (o, r) (Comps e) → r ≠ Some e → untold_step e S u o r = u.
Proof.
  intros H Hr. destruct o; unfold touches in H; simpl in *; try done; repeat (destruct (decide _)); try done; naive_solver.
Qed.
Lemma tagged_other tr o r t e : ¬ touches (o, r) (Tagged t e) → tagged (tr ++ [(o, r)]) t e ↔ tagged tr t e.
Proof.
  intros H. rewrite tagged_snoc. split.
  - intros [->|[? _]]; [|done]. exfalso. by apply H.
  - intros ?. right. split_and!; [done|intros ->; by apply H..].
Qed.

(** A call that does not return or destroy [e]. *)
Definition spares (x : op * option entity) (e : entity) : Prop := x.2 ≠ Some e ∧ x.1 ≠ ODestroy e.
Lemma lets_spares x y e : lets x y → e ∈ handles y.1 → spares x e.
Proof. intros [H _] He. split; intros ?; eapply H; eauto. Qed.
Lemma alive_other tr x e : spares x e → alive_in (tr ++ [x]) e ↔ alive_in tr e.
Proof. destruct x as [o r]. intros [? ?]. rewrite alive_snoc. simpl in *. naive_solver. Qed.
Lemma issued_other tr x e : spares x e → e ∈ issued (tr ++ [x]) ↔ e ∈ issued tr.
Proof.
  destruct x as [o r]. intros [Hr _]. simpl in Hr. rewrite issued_snoc, elem_of_app. split; [|by left]. intros [?|He]; [done|].
  destruct r; [|by apply elem_of_nil in He]. apply elem_of_list_singleton in He. congruence.
Qed.

Lemma insert_after_filter to x e l : to ≠ e → x ≠ e → filter (λ y, y ≠ e) (insert_after to x l) = insert_after to x (filter (λ y, y ≠ e) l).
Proof.
  intros Ht Hx. induction l as [|y l IH]; simpl; [done|]. case_bool_decide as Hy; subst.
  - rewrite !filter_cons, !decide_True by done. simpl. by rewrite bool_decide_true.
  - rewrite !filter_cons. destruct (decide (y ≠ e)); [|done]. simpl. rewrite bool_decide_false by done. by rewrite IH.
Qed.
Lemma insert_before_filter to x e l : to ≠ e → x ≠ e → filter (λ y, y ≠ e) (insert_before to x l) = insert_before to x (filter (λ y, y ≠ e) l).
Proof.
  intros Ht Hx. induction l as [|y l IH]; simpl; [done|]. case_bool_decide as Hy; subst.
  - rewrite !filter_cons, !decide_True by done. simpl. by rewrite bool_decide_true.
  - rewrite !filter_cons. destruct (decide (y ≠ e)); [|done]. simpl. rewrite bool_decide_false by done. by rewrite IH.
Qed.
Lemma filter_swap (a b : entity) (l : list entity) : filter (λ y, y ≠ a) (filter (λ y, y ≠ b) l) = filter (λ y, y ≠ b) (filter (λ y, y ≠ a) l).
Proof. rewrite !list_filter_filter. apply list_filter_iff. naive_solver. Qed.
Lemma destroy_group g l e o : e ∉ handles o →
  filter (λ y, y ≠ e) (order_step g l o) = order_step g (filter (λ y, y ≠ e) l) o.
Proof.
  intros He. destruct o; simpl in *; try done; try case_bool_decide; try done; subst.
  - apply filter_swap.
  - rewrite filter_app. f_equal. rewrite filter_cons, decide_True; [done|]. set_solver.
  - apply insert_after_filter; set_solver.
  - apply insert_before_filter; set_solver.
  - apply filter_swap.
Qed.
Lemma other_group g l o : (∀ r, ¬ touches (o, r) (Group g)) → (∀ e, o ≠ ODestroy e) → order_step g l o = l.
Proof. intros H Hd. destruct o; simpl; try done; try (exfalso; by eapply Hd); case_bool_decide; try done; subst; exfalso; by apply (H None). Qed.
Lemma group_result o r r' g : touches (o, r) (Group g) ↔ touches (o, r') (Group g).
Proof. by destruct o. Qed.
Lemma destroy_or o : (∃ e, o = ODestroy e) ∨ ∀ e, o ≠ ODestroy e.
Proof. destruct o; try (right; intros ? ?; done). left. eauto. Qed.
Lemma members_swap tr x y g : apart x y → members (tr ++ [x; y]) g = members (tr ++ [y; x]) g.
Proof.
  intros (Ht & [Hl _] & [Hl' _]). unfold members. rewrite !foldl_app. simpl. generalize (foldl (λ l x, order_step g l x.1) [] tr). intros l.
  destruct x as [o r], y as [o' r']. simpl in *.
  destruct (destroy_or o) as [[e ->]|Hd]; [|destruct (destroy_or o') as [[e ->]|Hd']].
  - simpl. symmetry. apply destroy_group. apply Hl. by right.
  - simpl. apply destroy_group. apply Hl'. by right.
  - destruct (decide (touches (o, r) (Group g))) as [H|H].
    + rewrite !(other_group g _ o'); [done|..]; try done; intros r0; rewrite (group_result o' r0 r'); intros ?; by eapply Ht.
    + rewrite !(other_group g _ o); [done|..]; try done; intros r0; by rewrite (group_result o r0 r).
Qed.

(** Whether a call is disciplined does not depend on a call that is apart. *)
Lemma members_mem tr x o g e : apart x o → e ∈ handles o.1 → touches o (Group g) → e ∈ members (tr ++ [x]) g ↔ e ∈ members tr g.
Proof.
  intros (Ht & [Hl _] & _) He Hg. unfold members. rewrite foldl_app. simpl. generalize (foldl (λ l x, order_step g l x.1) [] tr). intros l.
  destruct x as [o0 r0]. simpl in *. destruct (destroy_or o0) as [[e' ->]|Hd].
  - simpl. rewrite elem_of_list_filter. split; [by intros [_ ?]|]. intros ?. split; [|done]. intros ->. eapply Hl; [by right|done].
  - rewrite (other_group g _ o0); [done| |done]. intros r. rewrite (group_result o0 r r0). intros ?. by eapply Ht.
Qed.
Lemma disciplined_other c tr x y : apart x y → (is_Some y.2 ↔ y.1 = OCreate ∨ ∃ a, y.1 = OCreateWith a) →
  disciplined c (tr ++ [x]) y.1 ↔ disciplined c tr y.1.
Proof.
  intros Hap Hout. pose proof Hap as (Ht & Hl & Hl'). unfold disciplined.
  assert (own (tr ++ [x]) y.1 ↔ own tr y.1) as ->.
  { unfold own. split; intros H e He; [apply (issued_other tr x); [by eapply lets_spares|auto]|].
    apply (issued_other tr x); [by eapply lets_spares|auto]. }
  assert (∀ e, touches y (Comps e) → e ∈ handles y.1 → ∀ m, comps (tr ++ [x]) e m ↔ comps tr e m) as Hcomps.
  { intros e Hy He m. destruct x as [o r]. apply comps_other; [intros Hx; by eapply Ht|]. by destruct (lets_spares _ _ _ Hl He). }
  assert (∀ e, e ∈ handles y.1 → alive_in (tr ++ [x]) e ↔ alive_in tr e) as Hal.
  { intros e He. apply alive_other. by eapply lets_spares. }
  assert (∀ g e, touches y (Group g) → e ∈ handles y.1 → e ∈ members (tr ++ [x]) g ↔ e ∈ members tr g) as Hm.
  { intros g e Hg He. by eapply members_mem. }
  assert (is_Some y.2 → issued (tr ++ [x]) = issued tr) as Hi.
  { intros Hy. destruct Hl' as [_ Hn]. destruct (Hn Hy) as [Hx _]. destruct x as [o r]. simpl in Hx. subst. rewrite issued_snoc. apply app_nil_r. }
  destruct y as [o' r']. simpl in *.
  assert (room (in_mode Debug c) (tr ++ [x]) o' ↔ room (in_mode Debug c) tr o') as ->.
  { destruct o'; simpl in *; try done; setoid_rewrite Hcomps; first [done|by left]. }
  assert (sensible (tr ++ [x]) o' ↔ sensible tr o') as ->.
  { destruct o'; simpl in *; try done.
    - rewrite Hi; [done|]. apply Hout. by left.
    - rewrite Hi; [done|]. apply Hout. eauto.
    - apply Hal. by left.
    - setoid_rewrite Hcomps; first [done|by left]. }
  assert (order_use_ok (tr ++ [x]) o' ↔ order_use_ok tr o') as ->; [|done].
  destruct o'; simpl in *; try done; rewrite ?Hal, ?Hm by (first [done|set_solver]); done.
Qed.
Lemma alive_swap tr x y e : apart x y → alive_in (tr ++ [x; y]) e → alive_in (tr ++ [y; x]) e.
Proof.
  intros (Ht & [_ Hl] & [_ Hl']). rewrite !app2. destruct x as [o r], y as [o' r']. rewrite !alive_snoc. simpl in *.
  intros [->|[[->|[Ha Hd]] Hd']].
  - right. split; [by left|]. by apply Hl'.
  - by left.
  - right. split; [right; by split|done].
Qed.
Definition answers (x : op * option entity) : Prop := is_Some x.2 ↔ x.1 = OCreate ∨ ∃ a, x.1 = OCreateWith a.
Lemma answers_touch x e : answers x → ¬ touches x (Comps e) → x.2 ≠ Some e.
Proof.
  destruct x as [o r]. intros [H _] Ht Hr. simpl in *. subst. destruct (H ltac:(done)) as [?|[a ?]]; subst; by apply Ht.
Qed.
Lemma one_quiet x y e : apart x y → ¬ touches x (Comps e) ∨ ¬ touches y (Comps e).
Proof. intros [H _]. destruct (decide (touches x (Comps e))); [|by left]. right. intros ?. by eapply H. Qed.
Lemma comps_swap tr x y e m : answers x → answers y → apart x y → comps (tr ++ [x; y]) e m ↔ comps (tr ++ [y; x]) e m.
Proof.
  intros Hx Hy Hap. assert (∀ tr x y, answers x → ¬ touches x (Comps e) → comps (tr ++ [x; y]) e m ↔ comps (tr ++ [y; x]) e m) as H.
  { clear. intros tr x y Hx Hq. pose proof (answers_touch _ _ Hx Hq) as Hr. destruct x as [o r], y as [o' r']. simpl in Hr. rewrite !app2.
    rewrite (comps_other _ o r e m Hq Hr), !comps_snoc_iff. by setoid_rewrite (comps_other tr o r e _ Hq Hr). }
  destruct (one_quiet x y e Hap) as [Hq|Hq]; [by apply H|symmetry; by apply H].
Qed.
Lemma types_app tr o r e : types (tr ++ [(o, r)]) e = types_step e (types tr e) o r.
Proof. unfold types. by rewrite foldl_app. Qed.
Lemma untold_swap tr x y e : answers x → answers y → apart x y → untold (tr ++ [x; y]) e = untold (tr ++ [y; x]) e.
Proof.
  intros Hx Hy Hap. assert (∀ tr x y, answers x → ¬ touches x (Comps e) → untold (tr ++ [x; y]) e = untold (tr ++ [y; x]) e) as H.
  { clear. intros tr x y Hx Hq. pose proof (answers_touch _ _ Hx Hq) as Hr. destruct x as [o r], y as [o' r']. simpl in Hr. rewrite !app2.
    rewrite !untold_snoc, types_app. by rewrite !(untouched_untold e _ _ o r), (untouched_types e _ o r). }
  destruct (one_quiet x y e Hap) as [Hq|Hq]; [by apply H|symmetry; by apply H].
Qed.
Lemma tagged_swap tr x y t e : apart x y → tagged (tr ++ [x; y]) t e ↔ tagged (tr ++ [y; x]) t e.
Proof.
  intros Hap. assert (∀ tr x y, ¬ touches x (Tagged t e) → tagged (tr ++ [x; y]) t e ↔ tagged (tr ++ [y; x]) t e) as H.
  { clear. intros tr [o r] [o' r'] Hq. rewrite !app2. rewrite (tagged_other (tr ++ [(o', r')]) o r t e Hq), (tagged_snoc (tr ++ [(o, r)])), (tagged_snoc tr o' r').
    by rewrite (tagged_other tr o r t e Hq). }
  destruct Hap as [Ht _]. destruct (decide (touches x (Tagged t e))) as [Hx|Hx]; [|by apply H]. symmetry. apply H. intros ?. by eapply Ht.
Qed.
Lemma tags_live_swap tr x y : apart x y → tags_on_live (tr ++ [x; y]) → tags_on_live (tr ++ [y; x]).
Proof.
  intros (_ & Hl & Hl') Ht. destruct x as [o1 r1], y as [o2 r2].
  assert (∀ o t e, o = OTagAdd t e ∨ o = OTagDel t e → e ∈ handles o) as Hh by (intros o t e [->| ->]; by left).
  assert (tags_on_live tr) as Ht0. { intros tr1 o r tr2 t e ->. eapply (Ht tr1 o r (tr2 ++ _)). by rewrite <- app_assoc. }
  assert (∀ t e, o1 = OTagAdd t e ∨ o1 = OTagDel t e → alive_in tr e) as Ha1 by (intros t e; by eapply (Ht tr o1 r1 [_])).
  assert (∀ t e, o2 = OTagAdd t e ∨ o2 = OTagDel t e → alive_in tr e) as Ha2.
  { intros t e Ho. apply (alive_other tr (o1, r1)). { eapply lets_spares; [exact Hl|]. by eapply Hh. }
    eapply (Ht (tr ++ [(o1, r1)]) o2 r2 []); [by rewrite <- app_assoc|exact Ho]. }
  assert (tags_on_live (tr ++ [(o2, r2)])) as Hs.
  { intros tr1 o r tr2 t e. destruct tr2 as [|z tr2 _] using rev_ind.
    - intros [<- [= <- <-]]%app_inj_tail. eauto.
    - rewrite app_comm_cons, app_assoc. intros [-> _]%app_inj_tail. by eapply Ht0. }
  intros tr1 o r tr2 t e. rewrite app2. destruct tr2 as [|z tr2 _] using rev_ind.
  - intros [<- [= <- <-]]%app_inj_tail Ho. apply (alive_other tr (o2, r2)); [|eauto]. eapply lets_spares; [exact Hl'|]. by eapply Hh.
  - rewrite app_comm_cons, app_assoc. intros [H _]%app_inj_tail. by eapply Hs.
Qed.

(** ** The stores *)
Lemma drun_snoc c cap tr s x : drun (λ _ _, True) c cap (tr ++ [x]) s →
  ∃ s0, drun (λ _ _, True) c cap tr s0 ∧ disciplined c tr x.1 ∧ step c x.1 s0 = ROk s x.2.
Proof.
  intros H. inversion H as [? ? ? Heq|tr0 s0 o s' r Hd _ Hdi Hst Heq]; [by destruct tr|].
  apply app_inj_tail in Heq as [-> <-]. eauto.
Qed.
Lemma drun_run H c cap tr s : drun H c cap tr s → run c cap tr s.
Proof. induction 1; by econstructor. Qed.
Lemma in_own_mode c : in_mode (c_mode c) c = c.
Proof. by destruct c. Qed.
Lemma like_debug c s : let d := in_mode Debug c in
  (∀ t e, has_tag c s t e = has_tag d s t e) ∧
  (∀ g e, next_ordered c s g e = next_ordered d s g e ∧ previous_ordered c s g e = previous_ordered d s g e) ∧
  (∀ g, first_ordered c s g = first_ordered d s g ∧ last_ordered c s g = last_ordered d s g).
Proof.
  destruct (observers_release c s) as (_ & _ & _ & _ & _ & _ & _ & H1 & H2 & H3). intros d. subst d. pose proof (in_own_mode c) as Hm. destruct (c_mode c).
  - by rewrite Hm.
  - rewrite Hm in H1, H2, H3. split_and!; [done|intros g e; by destruct (H2 g e)|intros g; by destruct (H3 g)].
Qed.

Definition life_of (x : op * option entity) : option life :=
  match x.1 with OCreate | OCreateWith _ => Some Born | ODestroy e => Some (Died (e_id e)) | _ => None end.
Lemma lives_app tr x : lives (tr ++ [x]) = lives tr ++ option_list (life_of x).
Proof. unfold lives. rewrite omap_app. simpl. unfold life_of. by destruct (x.1). Qed.
Lemma no_life x y : answers x → answers y → lets x y → is_Some x.2 → life_of y = None.
Proof.
  intros Hx Hy [_ H] Hs. destruct (H Hs) as [Hn Hd]. destruct y as [o r]. simpl in *. subst. unfold answers in Hy. simpl in Hy. unfold life_of. simpl.
  destruct o; try done; [|..|by destruct (Hd e)]; exfalso; destruct Hy as [_ Hy]; (assert (is_Some (@None entity)) as [? ?]; [|done]); apply Hy; eauto.
Qed.
(** The result of a call is the same after a call that is apart. *)
Lemma same_result c cap tr s0 s1 x y s2 r' s1' : run c cap tr s0 → apart x y →
  step c x.1 s0 = ROk s1 x.2 → step c y.1 s1 = ROk s2 y.2 → step c y.1 s0 = ROk s1' r' → r' = y.2.
Proof.
  intros Hr Hap Hx Hy Hy'. destruct x as [o r], y as [o2 r2]. simpl in *.
  assert (run c cap (tr ++ [(o, r)]) s1) as Hr1 by by econstructor.
  assert (answers (o, r)) as Ax. { apply (iff_sym). exact (creation_returns c cap _ _ _ _ _ Hr Hx). }
  assert (answers (o2, r2)) as Ay. { apply (iff_sym). exact (creation_returns c cap _ _ _ _ _ Hr1 Hy). }
  pose proof (creation_returns c cap _ _ _ _ _ Hr Hy') as Ay'.
  destruct r2 as [e|].
  - pose proof (no_life (o2, Some e) (o, r) Ay Ax (proj2 (proj2 Hap)) ltac:(done)) as Hl.
    assert (r = None) as ->. { destruct Hap as (_ & _ & [_ H]). by destruct (H ltac:(done)). }
    assert (run c cap ((tr ++ [(o, None)]) ++ [(o2, Some e)]) s2) as H2 by by econstructor.
    assert (run c cap (tr ++ [(o2, r')]) s1') as H2' by by econstructor.
    pose proof (same_lives _ _ _ _ _ _ _ _ H2 H2') as Hsame. rewrite !lives_app, Hl in Hsame. simpl in Hsame. rewrite app_nil_r in Hsame.
    specialize (Hsame eq_refl). rewrite !issued_snoc, app_nil_r in Hsame. apply app_inv_head in Hsame. destruct r'; [|done]. by injection Hsame as ->.
  - destruct r' as [e|]; [|done]. exfalso. assert (is_Some (@None entity)) as [? ?]; [|done]. apply Ay. by apply Ay'.
Qed.
Lemma same_result_second c cap tr s0 s1 x y r' s1' s2' : run c cap tr s0 → apart x y →
  step c x.1 s0 = ROk s1 x.2 → step c y.1 s0 = ROk s1' y.2 → step c x.1 s1' = ROk s2' r' → r' = x.2.
Proof.
  intros Hr Hap Hx Hy Hx'. destruct x as [o r], y as [o2 r2]. simpl in *.
  assert (run c cap (tr ++ [(o2, r2)]) s1') as Hr1 by by econstructor.
  assert (answers (o, r)) as Ax. { apply (iff_sym). exact (creation_returns c cap _ _ _ _ _ Hr Hx). }
  assert (answers (o2, r2)) as Ay. { apply (iff_sym). exact (creation_returns c cap _ _ _ _ _ Hr Hy). }
  pose proof (creation_returns c cap _ _ _ _ _ Hr1 Hx') as Ax'.
  destruct r as [e|].
  - pose proof (no_life (o, Some e) (o2, r2) Ax Ay (proj1 (proj2 Hap)) ltac:(done)) as Hl.
    assert (r2 = None) as ->. { destruct Hap as (_ & [_ H] & _). by destruct (H ltac:(done)). }
    assert (run c cap (tr ++ [(o, Some e)]) s1) as H2 by by econstructor.
    assert (run c cap ((tr ++ [(o2, None)]) ++ [(o, r')]) s2') as H2' by by econstructor.
    pose proof (same_lives _ _ _ _ _ _ _ _ H2 H2') as Hsame. rewrite !lives_app, Hl in Hsame. simpl in Hsame. rewrite app_nil_r in Hsame.
    specialize (Hsame eq_refl). rewrite !issued_snoc, app_nil_r in Hsame. apply app_inv_head in Hsame. destruct r'; [|done]. by injection Hsame as ->.
  - destruct r' as [e|]; [|done]. exfalso. assert (is_Some (@None entity)) as [? ?]; [|done]. apply Ax. by apply Ax'.
Qed.

Lemma drun_any H c cap tr s : drun H c cap tr s → drun (λ _ _, True) c cap tr s.
Proof. induction 1; by econstructor. Qed.
Lemma swap_same c cap tr s s' x y : cfg_ok c → drun (healthy c) c cap (tr ++ [x; y]) s → drun (healthy c) c cap (tr ++ [y; x]) s' → apart x y →
  (∀ e, e ∈ issued (tr ++ [x; y]) →
    is_alive c s e = is_alive c s' e ∧
    (∃ a a', get_entity_archetype c s e = POk a ∧ get_entity_archetype c s' e = POk a' ∧ arch_ids <$> a = arch_ids <$> a') ∧
    ∀ T, T ≠ [] → (∀ t, t ∈ T → t ∉ untold (tr ++ [x; y]) e) → read_components c s e T = read_components c s' e T) ∧
  (∀ g, first_ordered c s g = first_ordered c s' g ∧ last_ordered c s g = last_ordered c s' g ∧
    ∀ e, alive_in (tr ++ [x; y]) e → next_ordered c s g e = next_ordered c s' g e ∧ previous_ordered c s g e = previous_ordered c s' g e) ∧
  (tags_on_live (tr ++ [x; y]) → ∀ t e, alive_in (tr ++ [x; y]) e → has_tag c s t e = has_tag c s' t e).
Proof.
  intros Hc Hh Hh' Hap.
  pose proof (drun_any _ _ _ _ _ Hh) as Hd0. rewrite app2 in Hd0. apply drun_snoc in Hd0 as (s1 & Hd1 & _ & Hst2). pose proof Hd1 as Hd0. apply drun_snoc in Hd0 as (s0 & Hd0 & _ & Hst1).
  pose proof (drun_run _ _ _ _ _ Hd0) as Hr0. pose proof (drun_run _ _ _ _ _ Hd1) as Hr1.
  assert (answers x) as Ax. { apply (iff_sym). exact (creation_returns c cap _ _ _ _ _ Hr0 Hst1). }
  assert (answers y) as Ay. { apply (iff_sym). exact (creation_returns c cap _ _ _ _ _ Hr1 Hst2). }
  clear s0 s1 Hd0 Hd1 Hst1 Hst2 Hr0 Hr1.
  destruct (drun_debug _ _ _ _ Hc Hh) as [Hhr Hp]. destruct (drun_debug _ _ _ _ Hc Hh') as [Hhr' Hp'].
  pose proof (hrun_run _ _ _ _ Hhr) as Hr. pose proof (hrun_run _ _ _ _ Hhr') as Hr'.
  pose proof Hc as [Hbs _ _].
  destruct (like_debug c s) as (Lt & Ln & Lf). destruct (like_debug c s') as (Lt' & Ln' & Lf').
  split_and!.
  - intros e He.
    assert (e ∈ issued (tr ++ [y; x])) as He'.
    { revert He. destruct x as [o1 r1], y as [o2 r2]. rewrite !app2, !issued_snoc, !elem_of_app. tauto. }
    destruct (drun_values c cap _ s e Hc Hh He) as (m & Hm & Ho & _). destruct (drun_values c cap _ s' e Hc Hh' He') as (m' & Hm' & Ho' & _).
    apply (comps_swap tr x y e m' Ax Ay Hap) in Hm'.
    eapply observed_same; [done|done|]. eapply comps_told; [by eapply hrun_full|done|done].
  - intros g. destruct (order_exact (in_mode Debug c) cap Hbs eq_refl _ s g Hr Hp) as (_ & _ & F & La & N & O).
    destruct (order_exact (in_mode Debug c) cap Hbs eq_refl _ s' g Hr' Hp') as (_ & _ & F' & La' & N' & O').
    rewrite <- (members_swap tr x y g Hap) in F', La', N', O'.
    destruct (Lf g) as [-> ->], (Lf' g) as [-> ->]. split; [by rewrite F, F'|]. split; [by rewrite La, La'|].
    intros e Ha. destruct (Ln g e) as [-> ->], (Ln' g e) as [-> ->].
    destruct (decide (e ∈ members (tr ++ [x; y]) g)) as [[i Hm]%elem_of_list_lookup|Hm].
    + destruct (N i e Hm) as [-> ->], (N' i e Hm) as [-> ->]. done.
    + destruct (O e Ha Hm) as [-> ->], (O' e (alive_swap _ _ _ _ Hap Ha) Hm) as [-> ->]. done.
  - intros Ht t e Ha. rewrite Lt, Lt'.
    destruct (has_tag_exact (in_mode Debug c) Hbs eq_refl cap _ s t e Hr Ht Ha) as (b & -> & Hb).
    destruct (has_tag_exact (in_mode Debug c) Hbs eq_refl cap _ s' t e Hr' (tags_live_swap _ _ _ Hap Ht) (alive_swap _ _ _ _ Hap Ha)) as (b' & -> & Hb').
    f_equal. apply Bool.eq_iff_eq_true. rewrite Hb, Hb'. by apply tagged_swap.
Qed.
Lemma calls_swap c cap tr s x y : cfg_ok c → drun (λ _ _, True) c cap (tr ++ [x; y]) s → apart x y →
  frugal c (tr ++ [x; y]) → frugal c (tr ++ [y; x]) →
  ∃ s', drun (λ _ _, True) c cap (tr ++ [y; x]) s' ∧
  (∀ e, e ∈ issued (tr ++ [x; y]) →
    is_alive c s e = is_alive c s' e ∧
    (∃ a a', get_entity_archetype c s e = POk a ∧ get_entity_archetype c s' e = POk a' ∧ arch_ids <$> a = arch_ids <$> a') ∧
    ∀ T, T ≠ [] → (∀ t, t ∈ T → t ∉ untold (tr ++ [x; y]) e) → read_components c s e T = read_components c s' e T) ∧
  (∀ g, first_ordered c s g = first_ordered c s' g ∧ last_ordered c s g = last_ordered c s' g ∧
    ∀ e, alive_in (tr ++ [x; y]) e → next_ordered c s g e = next_ordered c s' g e ∧ previous_ordered c s g e = previous_ordered c s' g e) ∧
  (tags_on_live (tr ++ [x; y]) → ∀ t e, alive_in (tr ++ [x; y]) e → has_tag c s t e = has_tag c s' t e).
Proof.
  intros Hc Hd Hap Hf Hf'.
  pose proof Hd as Hd0. rewrite app2 in Hd0. apply drun_snoc in Hd0 as (s1 & Hd1 & Hdi2 & Hst2). pose proof Hd1 as Hd0. apply drun_snoc in Hd0 as (s0 & Hd0 & Hdi1 & Hst1).
  pose proof Hf as Hf1. rewrite app2 in Hf1. apply frugal_prefix in Hf1. pose proof (frugal_prefix _ _ _ Hf1) as Hf0.
  pose proof Hf' as Hf2. rewrite app2 in Hf2. apply frugal_prefix in Hf2.
  pose proof (drun_run _ _ _ _ _ Hd0) as Hr0. pose proof (drun_run _ _ _ _ _ Hd1) as Hr1.
  assert (answers x) as Ax. { apply (iff_sym). exact (creation_returns c cap _ _ _ _ _ Hr0 Hst1). }
  assert (answers y) as Ay. { apply (iff_sym). exact (creation_returns c cap _ _ _ _ _ Hr1 Hst2). }
  apply (disciplined_other c tr x y Hap Ay) in Hdi2.
  destruct (frugal_returns c cap tr s0 y.1 Hc Hd0 Hf0 Hdi2) as (s1' & r & Hst2').
  assert (r = y.2) as ->. { exact (same_result c cap tr s0 s1 x y s r s1' Hr0 Hap Hst1 Hst2 Hst2'). }
  assert (drun (λ _ _, True) c cap (tr ++ [y]) s1') as Hd1'. { destruct y as [o r]. by econstructor. }
  apply (disciplined_other c tr y x (apart_sym _ _ Hap) Ax) in Hdi1.
  destruct (frugal_returns c cap _ s1' x.1 Hc Hd1' Hf2 Hdi1) as (s' & r & Hst1').
  assert (r = x.2) as ->. { exact (same_result_second c cap tr s0 s1 x y r s1' s' Hr0 Hap Hst1 Hst2' Hst1'). }
  assert (drun (λ _ _, True) c cap (tr ++ [y; x]) s') as Hd'. { rewrite app2. destruct x as [o r]. by econstructor. }
  exists s'. split; [done|].
  destruct (frugal_drun _ _ _ _ Hc Hd Hf) as [Hh _]. destruct (frugal_drun _ _ _ _ Hc Hd' Hf') as [Hh' _].
  exact (swap_same c cap tr s s' x y Hc Hh Hh' Hap).
Qed.
