(** SystemsP.v — loops over write queries commute with calls that do not concern their components. *)
From Verif.Spec Require Export Systems Caught.
From Verif.Proofs Require Export LawsC WriteP.
Local Open Scope N_scope.

(** ** Components *)
Section loop.
Context (q : access) (f : list (list cell) → list (list N)).
(** What a loop does to the components of an entity. *)
Definition looped (m : row) : row := if has_all m (q_types q) then put (zip (q_write q) (f (values m (q_read q)))) m else m.
Lemma has_all_ext (m m' : row) T : (∀ t, t ∈ T → is_Some (m !! t) ↔ is_Some (m' !! t)) → has_all m T = has_all m' T.
Proof using.
  intros H. unfold has_all. apply Bool.eq_iff_eq_true. rewrite !forallb_forall. setoid_rewrite bool_decide_eq_true. setoid_rewrite <- elem_of_list_In.
  split; intros H' t Ht; by apply (H t Ht), H'.
Qed.
Lemma values_ext (m m' : row) T : (∀ t, t ∈ T → m !! t = m' !! t) → values m T = values m' T.
Proof using. intros H. unfold values. apply Forall_fmap_ext, Forall_forall. intros t Ht. by rewrite H. Qed.
Lemma read_in t : t ∈ q_read q → t ∈ q_types q. Proof using. unfold q_types. rewrite elem_of_app. tauto. Qed.
Lemma write_in t : t ∈ q_write q → t ∈ q_types q. Proof using. unfold q_types. rewrite elem_of_app. tauto. Qed.
Lemma looped_other m t : t ∉ q_write q → looped m !! t = m !! t.
Proof using. intros Ht. unfold looped. destruct (has_all _ _); [|done]. apply put_other. intros H%zip_fst_sub. done. Qed.
Lemma looped_some m t : is_Some (looped m !! t) ↔ is_Some (m !! t).
Proof using.
  unfold looped. destruct (has_all m (q_types q)) eqn:E; [|done]. rewrite <- !elem_of_dom. erewrite put_dom_same; [done|exact E|].
  intros t' H%zip_fst_sub. by apply write_in.
Qed.
Lemma looped_dom m : dom (looped m) = dom m.
Proof using. apply set_eq. intros t. rewrite !elem_of_dom. apply looped_some. Qed.
Lemma looped_lacks m t : t ∈ q_types q → m !! t = None → looped m = m.
Proof using.
  intros Ht Hm. unfold looped. destruct (has_all m (q_types q)) eqn:E; [|done]. exfalso. unfold has_all in E. rewrite forallb_forall in E.
  apply elem_of_list_In in Ht. apply E, bool_decide_eq_true in Ht. rewrite Hm in Ht. by destruct Ht.
Qed.
Lemma looped_empty : looped ∅ = ∅.
Proof using.
  apply map_eq. intros t. rewrite lookup_empty. destruct (looped ∅ !! t) eqn:E; [|done]. assert (is_Some (looped ∅ !! t)) as H by eauto.
  apply (proj1 (looped_some ∅ t)) in H. rewrite lookup_empty in H. by destruct H.
Qed.
(** A change of other components that depends on other components only. *)
Lemma put_swap v v' (m : row) : (∀ t, t ∈ v.*1 → t ∉ v'.*1) → put v (put v' m) = put v' (put v m).
Proof using.
  intros H. apply map_eq. intros t. destruct (decide (t ∈ v.*1)) as [Hv|Hv].
  - rewrite (put_other v' (put v m)) by by apply H. apply put_told. by left.
  - rewrite (put_other v) by done. destruct (decide (t ∈ v'.*1)) as [Hv'|Hv'].
    + apply put_told. by left.
    + by rewrite !put_other.
Qed.
Lemma looped_put v m : (∀ t, t ∈ v.*1 → t ∉ q_types q) → looped (put v m) = put v (looped m).
Proof using.
  intros H. unfold looped. rewrite (has_all_ext (put v m) m); [|intros t Ht; rewrite put_other; [done|]; intros Hv; by eapply H].
  rewrite (values_ext (put v m) m); [|intros t Ht; rewrite put_other; [done|]; intros Hv; eapply H; [exact Hv|by apply read_in]].
  destruct (has_all m (q_types q)); [|done]. symmetry. apply put_swap. intros t Hv Hw%zip_fst_sub. eapply H; [exact Hv|by apply write_in].
Qed.
Lemma forget_lookup T (m : row) t : forget T m !! t = if decide (t ∈ T) then None else m !! t.
Proof using.
  unfold forget. destruct (decide (t ∈ T)).
  - apply map_filter_lookup_None. right. intros x _ H. by apply H.
  - destruct (m !! t) eqn:E; [by apply map_filter_lookup_Some|]. apply map_filter_lookup_None. by left.
Qed.
Lemma looped_forget T m : (∀ t, t ∈ T → t ∉ q_types q) → looped (forget T m) = forget T (looped m).
Proof using.
  intros H. assert (∀ t, t ∈ q_types q → forget T m !! t = m !! t) as Hs. { intros t Ht. rewrite forget_lookup, decide_False; [done|]. intros HT. by eapply H. }
  unfold looped. rewrite (has_all_ext (forget T m) m) by (intros t Ht; by rewrite Hs).
  rewrite (values_ext (forget T m) m) by (intros t Ht; apply Hs; by apply read_in).
  destruct (has_all m (q_types q)); [|done]. apply map_eq. intros t. rewrite forget_lookup.
  set (w := zip _ _). destruct (decide (t ∈ T)) as [HT|HT].
  - rewrite put_other; [by rewrite forget_lookup, decide_True|]. intros Hw%zip_fst_sub. eapply H; [exact HT|by apply write_in].
  - apply put_told. right. by rewrite forget_lookup, decide_False.
Qed.
End loop.
Lemma looped_swap q f q' f' m : (∀ t, t ∈ q_write q' → t ∉ q_types q) → (∀ t, t ∈ q_write q → t ∉ q_types q') →
  looped q f (looped q' f' m) = looped q' f' (looped q f m).
Proof.
  intros H H'.
  assert (∀ q q' f' m, (∀ t, t ∈ q_write q' → t ∉ q_types q) → has_all (looped q' f' m) (q_types q) = has_all m (q_types q) ∧ values (looped q' f' m) (q_read q) = values m (q_read q)) as Hs.
  { clear. intros q q' f' m H. split.
    - apply has_all_ext. intros t _. apply looped_some.
    - apply values_ext. intros t Ht. apply looped_other. intros Hw. eapply H; [exact Hw|by apply read_in]. }
  unfold looped at 1 3. destruct (Hs q q' f' m H) as [-> ->], (Hs q' q f m H') as [-> ->].
  unfold looped. destruct (has_all m (q_types q)), (has_all m (q_types q')); try done.
  apply put_swap. intros t Hw%zip_fst_sub Hw'%zip_fst_sub. eapply H'; [exact Hw|by apply write_in].
Qed.
(** A loop makes an earlier one with the same query superfluous. *)
Lemma looped_again q f g m : NoDup (q_types q) → (∀ l, length (f l) = length (q_write q)) → (∀ l, length (g l) = length (q_write q)) →
  looped q g (looped q f m) = looped q g m.
Proof.
  intros Hn Hf Hg. unfold looped at 1 3. rewrite (has_all_ext (looped q f m) m) by (intros t _; apply looped_some).
  rewrite (values_ext (looped q f m) m).
  - unfold looped. destruct (has_all m (q_types q)); [|done]. apply put_twice. intros t Ht. rewrite fst_zip in Ht by (by rewrite Hf). by rewrite fst_zip by (by rewrite Hg).
  - intros t Ht. apply looped_other. intros Hw. apply NoDup_app in Hn as (_ & Hn & _). by apply (Hn t).
Qed.

(** ** Histories *)
Lemma loop_step q f e x r x' : comp_step e x (OWrite q f) r x' ↔ x' = looped q (f e) <$> x.
Proof. done. Qed.
Lemma comp_step_looped q f e o r x x' : aside o q → comp_step e x o r x' → comp_step e (looped q f <$> x) o r (looped q f <$> x').
Proof.
  intros Ha Hs. destruct o; simpl in *; try (by subst).
  - destruct (decide _); subst; [|done]. simpl. by rewrite looped_empty.
  - destruct (decide _); [|by subst]. destruct Hs as (m & -> & Hm). exists (looped q f m). split; [done|]. intros t. by rewrite looped_some.
  - by destruct (decide _); subst.
  - destruct (decide _); subst; [|done]. destruct x as [m|]; [|done]. simpl. f_equal. by apply looped_put.
  - destruct (decide _); subst; [|done]. destruct x as [m|]; [|done]. simpl. f_equal. by apply looped_forget.
  - destruct (decide _); subst; [|done]. destruct x as [m|]; [|done]. simpl. f_equal.
    rewrite (has_all_ext (looped q f m) m) by (intros t _; apply looped_some). destruct (has_all m vals.*1); [|done]. by apply looped_put.
  - subst. destruct x as [m|]; [|done]. simpl. f_equal. destruct Ha. change (looped q f (looped q0 (f0 e) m) = looped q0 (f0 e) (looped q f m)). by apply looped_swap.
Qed.
Lemma comp_step_back q f e o r x x' : aside o q → comp_step e (looped q f <$> x) o r x' → ∃ x1, comp_step e x o r x1 ∧ x' = looped q f <$> x1.
Proof.
  intros Ha Hs. assert ((∃ a, o = OCreateWith a ∧ r = Some e) ∨ ∀ y, comp_step e (looped q f <$> x) o r y → y = x') as [(a & -> & ->)|Hdet].
  { destruct o; try (right; intros y Hy; simpl in *; congruence). simpl in *. destruct (decide (r = Some e)); [left; eauto|]. right. intros y ->. by symmetry. }
  - exists x'. split; [simpl in *; by destruct (decide _)|]. simpl in *. destruct (decide _); [|done]. destruct Hs as (m & -> & Hm). destruct Ha as (t & Ht & Hn).
    simpl. f_equal. symmetry. apply (looped_lacks _ _ _ t); [done|]. destruct (m !! t) eqn:E; [|done]. exfalso. apply Hn, Hm. eauto.
  - assert (∃ x1, comp_step e x o r x1) as [x1 H1].
    { destruct o; simpl; try (eexists; reflexivity). simpl in *. destruct (decide _); [|eexists; reflexivity]. destruct Hs as (m & _ & Hm). by exists (Some m), m. }
    exists x1. split; [done|]. symmetry. apply Hdet. by apply comp_step_looped.
Qed.
Section histories.
Context (q : access) (f : entity → list (list cell) → list (list N)).
Notation w := ((OWrite q f, None) : op * option entity).
Lemma comps_written tr e m : comps (tr ++ [w]) e m ↔ ∃ m0, comps tr e m0 ∧ m = looped q (f e) <$> m0.
Proof using. apply comps_snoc_iff. Qed.
Lemma comps_loop tr x e m : aside x.1 q → comps (tr ++ [x; w]) e m ↔ comps (tr ++ [w; x]) e m.
Proof using.
  intros Ha. destruct x as [o r]. simpl in Ha. rewrite !app2, comps_written, comps_snoc_iff. setoid_rewrite comps_snoc_iff at 1. setoid_rewrite comps_written. split.
  - intros (m1 & (m0 & H0 & H1) & ->). exists (looped q (f e) <$> m0). split; [by exists m0|]. by apply comp_step_looped.
  - intros (m1 & (m0 & H0 & ->) & H1). apply comp_step_back in H1 as (m1 & H1 & ->); [|done]. exists m1. split; [by exists m0|done].
Qed.
Lemma spares_loop e : spares w e. Proof using. by split. Qed.
Lemma alive_written tr e : alive_in (tr ++ [w]) e ↔ alive_in tr e.
Proof using. apply alive_other, spares_loop. Qed.
Lemma issued_written tr : issued (tr ++ [w]) = issued tr.
Proof using. by rewrite issued_snoc, app_nil_r. Qed.
Lemma members_written tr g : members (tr ++ [w]) g = members tr g.
Proof using. unfold members. by rewrite foldl_app. Qed.
Lemma tagged_written tr t e : tagged (tr ++ [w]) t e ↔ tagged tr t e.
Proof using. apply tagged_other. by intros ?. Qed.
Lemma alive_loop tr x e : alive_in (tr ++ [x; w]) e ↔ alive_in (tr ++ [w; x]) e.
Proof using. destruct x as [o r]. by rewrite !app2, alive_written, !(alive_snoc _ o), alive_written. Qed.
Lemma members_loop tr x g : members (tr ++ [x; w]) g = members (tr ++ [w; x]) g.
Proof using. unfold members. by rewrite !foldl_app. Qed.
Lemma tagged_loop tr x t e : tagged (tr ++ [x; w]) t e ↔ tagged (tr ++ [w; x]) t e.
Proof using. destruct x as [o r]. by rewrite !app2, tagged_written, !(tagged_snoc _ o), tagged_written. Qed.
Lemma issued_loop tr x : issued (tr ++ [x; w]) = issued (tr ++ [w; x]).
Proof using. destruct x as [o r]. by rewrite !app2, issued_written, !(issued_snoc _ o), issued_written. Qed.
Lemma tags_snoc tr o r : tags_on_live (tr ++ [(o, r)]) ↔ tags_on_live tr ∧ ∀ t e, o = OTagAdd t e ∨ o = OTagDel t e → alive_in tr e.
Proof using.
  split.
  - intros H. split.
    + intros tr1 o' r' tr2 t e ->. eapply (H tr1 o' r' (tr2 ++ [(o, r)])). by rewrite <- app_assoc.
    + intros t e. by eapply (H tr o r []).
  - intros [H H'] tr1 o' r' tr2 t e. destruct tr2 as [|z tr2 _] using rev_ind.
    + intros [<- [= <- <-]]%app_inj_tail. eauto.
    + rewrite app_comm_cons, app_assoc. intros [-> _]%app_inj_tail. by eapply H.
Qed.
Lemma tags_live_loop tr x : tags_on_live (tr ++ [x; w]) ↔ tags_on_live (tr ++ [w; x]).
Proof using.
  destruct x as [o r]. rewrite !app2, !tags_snoc. setoid_rewrite alive_written. split; [|naive_solver].
  intros [[H H'] _]. split; [split; [done|naive_solver]|done].
Qed.
Lemma disciplined_written c tr o : disciplined c (tr ++ [w]) o ↔ disciplined c tr o.
Proof using.
  assert (∀ e m, comps (tr ++ [w]) e (Some m) ↔ ∃ m0, comps tr e (Some m0) ∧ m = looped q (f e) m0) as Hcomps.
  { intros e m. rewrite comps_written. split.
    - intros (m0 & H & Hm). destruct m0 as [m0|]; [|done]. injection Hm as ->. eauto.
    - intros (m0 & H & ->). by exists (Some m0). }
  unfold disciplined, own. rewrite issued_written.
  assert (order_use_ok (tr ++ [w]) o ↔ order_use_ok tr o) as ->. { destruct o; simpl; try done; by rewrite ?alive_written, ?members_written. }
  assert (room (in_mode Debug c) (tr ++ [w]) o ↔ room (in_mode Debug c) tr o) as ->.
  { destruct o; simpl; try done; setoid_rewrite Hcomps.
    - split; [intros H m Hm; rewrite <- (looped_dom q (f e)); eauto|intros H m (m0 & H0 & ->); rewrite looped_dom; eauto].
    - split; [intros H m Hm; rewrite <- (looped_dom q (f e)); eauto|intros H m (m0 & H0 & ->); rewrite looped_dom; eauto]. }
  assert (sensible (tr ++ [w]) o ↔ sensible tr o) as ->; [|done].
  destruct o; simpl; try done.
  - by rewrite issued_written.
  - by rewrite issued_written.
  - apply alive_written.
  - setoid_rewrite Hcomps. split.
    + intros H m Hm. destruct (H (looped q (f e) m)) as [He|(t & Ht & Hn)]; [eauto|left|right; exists t; by rewrite looped_some in Ht].
      apply (dom_empty_iff_L (D := gset tid)). by rewrite <- (looped_dom q (f e)), He, dom_empty_L.
    + intros H m (m0 & H0 & ->). destruct (H m0 H0) as [->|(t & Ht & Hn)]; [left; apply looped_empty|right; exists t; by rewrite looped_some].
Qed.
Lemma disciplined_loop c tr x : disciplined c (tr ++ [x]) (OWrite q f) ↔ disciplined c tr (OWrite q f).
Proof using.
  unfold disciplined, own. simpl. assert (∀ tr e, e ∈ [] → e ∈ issued tr) as Hn by (intros tr' e He; by apply elem_of_nil in He).
  split; intros (H & _); (split; [exact H|]); do 2 (split; [done|]); (split; [exact (Hn _)|done]).
Qed.
Lemma result_written c cap tr s0 sw o r s1 r' s' : run c cap tr s0 → step c (OWrite q f) s0 = ROk sw None → step c o s0 = ROk s1 r → step c o sw = ROk s' r' → r' = r.
Proof using.
  intros Hr Hw H1 H2. assert (run c cap (tr ++ [(o, r)]) s1) as R1 by by econstructor.
  assert (run c cap ((tr ++ [w]) ++ [(o, r')]) s') as R2. { econstructor; [|done]. by econstructor. }
  pose proof (same_lives _ _ _ _ _ _ _ _ R1 R2) as Hsame. rewrite !lives_app in Hsame. simpl in Hsame. rewrite app_nil_r in Hsame.
  specialize (Hsame eq_refl). rewrite !issued_snoc, app_nil_r in Hsame. apply app_inv_head in Hsame. destruct r, r'; naive_solver.
Qed.
Lemma write_none c cap tr s0 sw r : run c cap tr s0 → step c (OWrite q f) s0 = ROk sw r → r = None.
Proof using. intros Hr H. destruct r as [e|]; [|done]. pose proof (proj1 (creation_returns c cap _ _ _ _ _ Hr H)) as Hx. pose proof (creation_returns c cap _ _ _ _ _ Hr H) as Hy. naive_solver. Qed.
End histories.

(** ** The stores *)
Lemma healthy_alike c cap T1 s cap' T2 s' (I : list entity) (A : entity → Prop) (T0 : trace) : cfg_ok c →
  drun (healthy c) c cap T1 s → drun (healthy c) c cap' T2 s' → (∀ e, e ∈ I → e ∈ issued T1 ∧ e ∈ issued T2) → (∀ e, e ∈ I → full_writes e T0) →
  (∀ e m, e ∈ I → comps T1 e m → comps T0 e m) → (∀ e m, e ∈ I → comps T2 e m → comps T0 e m) →
  (∀ e, A e → alive_in T1 e ∧ alive_in T2 e) → (∀ g, members T1 g = members T2 g) →
  (∀ t e, A e → tagged T1 t e ↔ tagged T2 t e) →
  (∀ e, e ∈ I →
    is_alive c s e = is_alive c s' e ∧
    (∃ a a', get_entity_archetype c s e = POk a ∧ get_entity_archetype c s' e = POk a' ∧ arch_ids <$> a = arch_ids <$> a') ∧
    ∀ T, T ≠ [] → (∀ t, t ∈ T → t ∉ untold T0 e) → read_components c s e T = read_components c s' e T) ∧
  (∀ g, first_ordered c s g = first_ordered c s' g ∧ last_ordered c s g = last_ordered c s' g ∧
    ∀ e, A e → next_ordered c s g e = next_ordered c s' g e ∧ previous_ordered c s g e = previous_ordered c s' g e) ∧
  (tags_on_live T1 → tags_on_live T2 → ∀ t e, A e → has_tag c s t e = has_tag c s' t e).
Proof.
  intros Hc Hh Hh' HI Hw H1 H2 HA Hm Ht.
  destruct (drun_debug _ _ _ _ Hc Hh) as [Hhr Hp]. destruct (drun_debug _ _ _ _ Hc Hh') as [Hhr' Hp'].
  pose proof (hrun_run _ _ _ _ Hhr) as Hr. pose proof (hrun_run _ _ _ _ Hhr') as Hr'.
  pose proof Hc as [Hbs _ _].
  destruct (like_debug c s) as (Lt & Ln & Lf). destruct (like_debug c s') as (Lt' & Ln' & Lf').
  split; [|split].
  - intros e He. destruct (HI e He) as [He1 He2].
    destruct (drun_values c cap _ s e Hc Hh He1) as (m & Hx & Ho & _). destruct (drun_values c cap' _ s' e Hc Hh' He2) as (m' & Hy & Ho' & _).
    eapply observed_same; [done|done|]. eapply comps_told; [by apply Hw|by apply H1|by apply H2].
  - intros g. destruct (order_exact (in_mode Debug c) cap Hbs eq_refl _ s g Hr Hp) as (_ & _ & F & La & N & O).
    destruct (order_exact (in_mode Debug c) cap' Hbs eq_refl _ s' g Hr' Hp') as (_ & _ & F' & La' & N' & O').
    rewrite Hm in F, La, N, O. destruct (Lf g) as [-> ->], (Lf' g) as [-> ->]. split; [by rewrite F, F'|]. split; [by rewrite La, La'|].
    intros e Ha. destruct (Ln g e) as [-> ->], (Ln' g e) as [-> ->]. destruct (HA e Ha) as [Ha1 Ha2].
    destruct (decide (e ∈ members T2 g)) as [[i Hi]%elem_of_list_lookup|Hi].
    + destruct (N i e Hi) as [-> ->], (N' i e Hi) as [-> ->]. done.
    + destruct (O e Ha1 Hi) as [-> ->], (O' e Ha2 Hi) as [-> ->]. done.
  - intros Ht1 Ht2 t e Ha. rewrite Lt, Lt'. destruct (HA e Ha) as [Ha1 Ha2].
    destruct (has_tag_exact (in_mode Debug c) Hbs eq_refl cap _ s t e Hr Ht1 Ha1) as (b & -> & Hb).
    destruct (has_tag_exact (in_mode Debug c) Hbs eq_refl cap' _ s' t e Hr' Ht2 Ha2) as (b' & -> & Hb').
    f_equal. apply Bool.eq_iff_eq_true. rewrite Hb, Hb'. by apply Ht.
Qed.
Lemma loop_same c cap cap' tr s s' x q f : cfg_ok c → drun (healthy c) c cap (tr ++ [x; (OWrite q f, None)]) s → drun (healthy c) c cap' (tr ++ [(OWrite q f, None); x]) s' → aside x.1 q →
  (∀ e, e ∈ issued (tr ++ [x; (OWrite q f, None)]) →
    is_alive c s e = is_alive c s' e ∧
    (∃ a a', get_entity_archetype c s e = POk a ∧ get_entity_archetype c s' e = POk a' ∧ arch_ids <$> a = arch_ids <$> a') ∧
    ∀ T, T ≠ [] → (∀ t, t ∈ T → t ∉ untold (tr ++ [x; (OWrite q f, None)]) e) → read_components c s e T = read_components c s' e T) ∧
  (∀ g, first_ordered c s g = first_ordered c s' g ∧ last_ordered c s g = last_ordered c s' g ∧
    ∀ e, alive_in (tr ++ [x; (OWrite q f, None)]) e → next_ordered c s g e = next_ordered c s' g e ∧ previous_ordered c s g e = previous_ordered c s' g e) ∧
  (tags_on_live (tr ++ [x; (OWrite q f, None)]) → ∀ t e, alive_in (tr ++ [x; (OWrite q f, None)]) e → has_tag c s t e = has_tag c s' t e).
Proof.
  intros Hc Hh Hh' Ha. destruct (healthy_alike c cap _ s cap' _ s' (issued (tr ++ [x; (OWrite q f, None)])) (alive_in (tr ++ [x; (OWrite q f, None)])) (tr ++ [x; (OWrite q f, None)]) Hc Hh Hh') as (H1 & H2 & H3).
  - intros e He. split; [done|]. by rewrite <- issued_loop.
  - intros e He. destruct (drun_debug _ _ _ _ Hc Hh) as [Hhr _]. by eapply hrun_full.
  - done.
  - intros e m He Hm. by apply comps_loop.
  - intros e He. split; [done|by apply alive_loop].
  - intros g. apply members_loop.
  - intros t e _. apply tagged_loop.
  - split; [exact H1|]. split; [exact H2|]. intros Ht. apply H3; [done|by apply tags_live_loop].
Qed.
Lemma loop_caught c cap cap' tr1 tr2 s s' tr x q f : cfg_ok c → crun c cap tr1 s → crun c cap' tr2 s' →
  answered tr1 = tr ++ [x; (OWrite q f, None)] → answered tr2 = tr ++ [(OWrite q f, None); x] → aside x.1 q →
  (∀ e, e ∈ issued (tr ++ [x; (OWrite q f, None)]) →
    is_alive c s e = is_alive c s' e ∧
    (∃ a a', get_entity_archetype c s e = POk a ∧ get_entity_archetype c s' e = POk a' ∧ arch_ids <$> a = arch_ids <$> a') ∧
    ∀ T, T ≠ [] → (∀ t, t ∈ T → t ∉ untold (tr ++ [x; (OWrite q f, None)]) e) → read_components c s e T = read_components c s' e T) ∧
  (ec_cap (st_ec s) < 2 ^ 32 → ec_cap (st_ec s') < 2 ^ 32 →
    (∀ g, first_ordered c s g = first_ordered c s' g ∧ last_ordered c s g = last_ordered c s' g ∧
      ∀ e, alive_in (tr ++ [x; (OWrite q f, None)]) e → next_ordered c s g e = next_ordered c s' g e ∧ previous_ordered c s g e = previous_ordered c s' g e) ∧
    (tags_on_live (tr ++ [x; (OWrite q f, None)]) → ∀ t e, alive_in (tr ++ [x; (OWrite q f, None)]) e → has_tag c s t e = has_tag c s' t e)).
Proof.
  intros Hc Hr Hr' E1 E2 Ha.
  pose proof (caught_alike c Hc cap tr1 s cap' tr2 s' (issued (tr ++ [x; (OWrite q f, None)])) (alive_in (tr ++ [x; (OWrite q f, None)])) (tr ++ [x; (OWrite q f, None)]) Hr Hr') as H.
  rewrite E1, E2 in H. destruct H as [H1 H2].
  - intros e He. split; [done|]. by rewrite <- issued_loop.
  - intros e He. destruct (crun_only _ _ _ _ Hr) as [_ Hf]. rewrite E1 in Hf. apply Hf.
  - done.
  - intros e m He Hm. by apply comps_loop.
  - intros e He. split; [done|by apply alive_loop].
  - intros g. apply members_loop.
  - intros t e _. apply tagged_loop.
  - split; [exact H1|]. intros C1 C2. destruct (H2 C1 C2) as [Ho Ht]. split; [exact Ho|]. intros T1. apply Ht; [done|by apply tags_live_loop].
Qed.
(** Of two loops with the same query the first is superfluous. *)
Lemma comps_again c tr q f f' e m : args_ok c (OWrite q f) → args_ok c (OWrite q f') → comps (tr ++ [(OWrite q f, None); (OWrite q f', None)]) e m → comps (tr ++ [(OWrite q f', None)]) e m.
Proof.
  intros [Hn Hf] [_ Hf']. rewrite app2, !comps_written. setoid_rewrite comps_written. intros (m1 & (m0 & H0 & ->) & ->). exists m0. split; [done|].
  destruct m0 as [m0|]; [|done]. simpl. f_equal. apply looped_again; [done|intros l; apply Hf|intros l; apply Hf'].
Qed.
Lemma again_same c cap cap' tr s s' q f f' : cfg_ok c → drun (healthy c) c cap (tr ++ [(OWrite q f, None); (OWrite q f', None)]) s → drun (healthy c) c cap' (tr ++ [(OWrite q f', None)]) s' →
  (∀ e, e ∈ issued (tr) →
    is_alive c s e = is_alive c s' e ∧
    (∃ a a', get_entity_archetype c s e = POk a ∧ get_entity_archetype c s' e = POk a' ∧ arch_ids <$> a = arch_ids <$> a') ∧
    ∀ T, T ≠ [] → (∀ t, t ∈ T → t ∉ untold (tr ++ [(OWrite q f', None)]) e) → read_components c s e T = read_components c s' e T) ∧
  (∀ g, first_ordered c s g = first_ordered c s' g ∧ last_ordered c s g = last_ordered c s' g ∧
    ∀ e, alive_in (tr) e → next_ordered c s g e = next_ordered c s' g e ∧ previous_ordered c s g e = previous_ordered c s' g e) ∧
  (tags_on_live (tr ++ [(OWrite q f, None); (OWrite q f', None)]) → ∀ t e, alive_in (tr) e → has_tag c s t e = has_tag c s' t e).
Proof.
  intros Hc Hh Hh'.
  pose proof (drun_any _ _ _ _ _ Hh) as Hd0. rewrite app2 in Hd0. apply drun_snoc in Hd0 as (s1 & Hd1 & (Ha2 & _) & _). apply drun_snoc in Hd1 as (s0 & _ & (Ha1 & _) & _).
  destruct (healthy_alike c cap _ s cap' _ s' (issued tr) (alive_in tr) (tr ++ [(OWrite q f', None)]) Hc Hh Hh') as (H1 & H2 & H3).
  - intros e He. by rewrite app2, !issued_written.
  - intros e He. destruct (drun_debug _ _ _ _ Hc Hh') as [Hhr _]. by eapply hrun_full.
  - intros e m He Hm. exact (comps_again c tr q f f' e m Ha1 Ha2 Hm).
  - done.
  - intros e He. by rewrite app2, !alive_written.
  - intros g. by rewrite app2, !members_written.
  - intros t e _. by rewrite app2, !tagged_written.
  - split; [exact H1|]. split; [exact H2|]. intros Ht. apply H3; [done|]. rewrite app2, tags_snoc in Ht. destruct Ht as [Ht _]. apply tags_snoc in Ht as [Ht _].
    apply tags_snoc. split; [done|]. intros t e [|]; done.
Qed.
Lemma crun_args c cap tr s x : crun c cap tr s → x ∈ answered tr → args_ok c x.1.
Proof.
  induction 1 as [s _ _|tr s o z s' Hr IH _ Ha _ _ _ _ _ H]; [by intros ?%elem_of_nil|]. rewrite story_answered_snoc.
  intros [Hx|Hx]%elem_of_app; [by apply IH|]. destruct z as [r|]; [|by apply elem_of_nil in Hx]. by apply elem_of_list_singleton in Hx as ->.
Qed.
Lemma again_caught c cap cap' tr1 tr2 s s' tr q f f' : cfg_ok c → crun c cap tr1 s → crun c cap' tr2 s' →
  answered tr1 = tr ++ [(OWrite q f, None); (OWrite q f', None)] → answered tr2 = tr ++ [(OWrite q f', None)] →
  (∀ e, e ∈ issued (tr) →
    is_alive c s e = is_alive c s' e ∧
    (∃ a a', get_entity_archetype c s e = POk a ∧ get_entity_archetype c s' e = POk a' ∧ arch_ids <$> a = arch_ids <$> a') ∧
    ∀ T, T ≠ [] → (∀ t, t ∈ T → t ∉ untold (tr ++ [(OWrite q f', None)]) e) → read_components c s e T = read_components c s' e T) ∧
  (ec_cap (st_ec s) < 2 ^ 32 → ec_cap (st_ec s') < 2 ^ 32 →
    (∀ g, first_ordered c s g = first_ordered c s' g ∧ last_ordered c s g = last_ordered c s' g ∧
      ∀ e, alive_in (tr) e → next_ordered c s g e = next_ordered c s' g e ∧ previous_ordered c s g e = previous_ordered c s' g e) ∧
    (tags_on_live (tr ++ [(OWrite q f, None); (OWrite q f', None)]) → ∀ t e, alive_in (tr) e → has_tag c s t e = has_tag c s' t e)).
Proof.
  intros Hc Hr Hr' E1 E2.
  assert (args_ok c (OWrite q f)) as Ha1. { apply (crun_args c cap tr1 s (OWrite q f, None) Hr). rewrite E1. apply elem_of_app. right. by left. }
  assert (args_ok c (OWrite q f')) as Ha2. { apply (crun_args c cap tr1 s (OWrite q f', None) Hr). rewrite E1. apply elem_of_app. right. right. by left. }
  pose proof (caught_alike c Hc cap tr1 s cap' tr2 s' (issued tr) (alive_in tr) (tr ++ [(OWrite q f', None)]) Hr Hr') as H.
  rewrite E1, E2 in H. destruct H as [H1 H2].
  - intros e He. by rewrite app2, !issued_written.
  - intros e He. destruct (crun_only _ _ _ _ Hr') as [_ Hf]. rewrite E2 in Hf. apply Hf.
  - intros e m He Hm. exact (comps_again c tr q f f' e m Ha1 Ha2 Hm).
  - done.
  - intros e He. by rewrite app2, !alive_written.
  - intros g. by rewrite app2, !members_written.
  - intros t e _. by rewrite app2, !tagged_written.
  - split; [exact H1|]. intros C1 C2. destruct (H2 C1 C2) as [Ho Ht]. split; [exact Ho|]. intros T1. apply Ht; [done|].
    rewrite app2, tags_snoc in T1. destruct T1 as [T1 _]. apply tags_snoc in T1 as [T1 _]. apply tags_snoc. split; [done|]. intros t e [|]; done.
Qed.
(** ** A loop does not change which types are in use *)
Definition same_use (tr tr' : trace) : Prop := (∀ e, types tr e = types tr' e) ∧ (∀ S, used tr S ↔ used tr' S) ∧ (∀ S, first_used tr S ↔ first_used tr' S).
Lemma occupied_same tr tr' S : (∀ e, types tr e = types tr' e) → occupied tr S ↔ occupied tr' S.
Proof. intros H. unfold occupied. by setoid_rewrite H. Qed.
Lemma used_snoc_iff tr x S : used (tr ++ [x]) S ↔ used tr S ∨ occupied (tr ++ [x]) S.
Proof. split; [apply used_snoc_inv|intros [H|H]; [by apply used_snoc|by apply used_now]]. Qed.
Lemma first_used_snoc_iff tr x S : first_used (tr ++ [x]) S ↔ first_used tr S ∨ (∀ S', ¬ used tr S') ∧ occupied (tr ++ [x]) S.
Proof.
  split.
  - intros (tr1 & y & tr2 & Heq & H1 & H2). destruct tr2 as [|z tr3 _] using rev_ind.
    + apply app_inj_tail in Heq as [-> ->]. by right.
    + rewrite app_comm_cons, app_assoc in Heq. apply app_inj_tail in Heq as [-> _]. left. by exists tr1, y, tr3.
  - intros [H|[H1 H2]]; [by apply first_used_snoc|]. by exists tr, x, [].
Qed.
Lemma same_use_snoc tr tr' x : same_use tr tr' → same_use (tr ++ [x]) (tr' ++ [x]).
Proof.
  intros (Ht & Hu & Hf). destruct x as [o r].
  assert (∀ e, types (tr ++ [(o, r)]) e = types (tr' ++ [(o, r)]) e) as Ht' by (intros e; by rewrite !types_app, Ht).
  split; [done|]. split; intros S.
  - by rewrite !used_snoc_iff, Hu, (occupied_same _ _ S Ht').
  - rewrite !first_used_snoc_iff, Hf, (occupied_same _ _ S Ht'). by setoid_rewrite Hu.
Qed.
Lemma same_use_loop tr q f r : same_use (tr ++ [(OWrite q f, r)]) tr.
Proof.
  assert (∀ e, types (tr ++ [(OWrite q f, r)]) e = types tr e) as Ht by (intros e; by rewrite types_app).
  split; [done|]. split; intros S.
  - rewrite used_snoc_iff, (occupied_same _ _ S Ht). split; [intros [H|H]; [done|by apply used_now]|by left].
  - rewrite first_used_snoc_iff, (occupied_same _ _ S Ht). split; [|by left]. intros [H|[H1 H2]]; [done|]. destruct (H1 S). by apply used_now.
Qed.
Lemma one_abandoned_snoc tr x : one_abandoned (tr ++ [x]) ↔ one_abandoned tr ∧ ∀ S1 S2, abandoned (tr ++ [x]) S1 → abandoned (tr ++ [x]) S2 → S1 = S2.
Proof.
  split.
  - intros H. split; [by eapply one_abandoned_prefix|]. intros S1 S2. apply (H _ []). by rewrite app_nil_r.
  - intros [H H'] tr1 tr2 S1 S2. destruct tr2 as [|z tr3 _] using rev_ind; [rewrite app_nil_r; intros <-; apply H'|].
    rewrite app_assoc. intros [-> _]%app_inj_tail. by apply (H _ tr3).
Qed.
Definition below_now (c : cfg) (tr : trace) : Prop := ∀ S n es, page_holds c S n → es ≠ [] → NoDup es → Forall (λ e, types tr e = Some S) es → N.of_nat (length es) < n.
Lemma below_snoc c tr x : below_capacity c (tr ++ [x]) ↔ below_capacity c tr ∧ below_now c (tr ++ [x]).
Proof.
  split.
  - intros H. split; [intros tr1 tr2 S n es ->; apply (H tr1 (tr2 ++ [x])); by rewrite app_assoc|]. intros S n es. apply (H _ []). by rewrite app_nil_r.
  - intros [H H'] tr1 tr2 S n es. destruct tr2 as [|z tr3 _] using rev_ind; [rewrite app_nil_r; intros <-; apply H'|].
    rewrite app_assoc. intros [-> _]%app_inj_tail. by apply (H _ tr3).
Qed.
Lemma below_now_in c tr : below_capacity c tr → below_now c tr.
Proof. intros H S n es. apply (H _ []). by rewrite app_nil_r. Qed.
Lemma same_below c tr tr' : (∀ e, types tr e = types tr' e) → below_now c tr ↔ below_now c tr'.
Proof. intros Ht. unfold below_now. by setoid_rewrite Ht. Qed.
Lemma same_abandoned tr tr' S : same_use tr tr' → abandoned tr S ↔ abandoned tr' S.
Proof. intros (Ht & Hu & Hf). unfold abandoned. by rewrite Hu, Hf, (occupied_same _ _ S Ht). Qed.
Lemma same_use_frugal c tr tr' : same_use tr tr' → one_abandoned tr ↔ one_abandoned tr' → (∀ c, below_capacity c tr ↔ below_capacity c tr') → frugal c tr ↔ frugal c tr'.
Proof. intros (Ht & Hu & Hf) Ho Hb. unfold frugal. rewrite Ho, Hb. unfold same_capacity. by setoid_rewrite Hu. Qed.
Lemma one_abandoned_loop tr q f r : one_abandoned (tr ++ [(OWrite q f, r)]) ↔ one_abandoned tr.
Proof.
  rewrite one_abandoned_snoc. split; [by intros [? _]|]. intros H. split; [done|]. intros S1 S2.
  rewrite !(same_abandoned _ _ _ (same_use_loop tr q f r)). apply (H _ []). by rewrite app_nil_r.
Qed.
Lemma below_loop c tr q f r : below_capacity c (tr ++ [(OWrite q f, r)]) ↔ below_capacity c tr.
Proof.
  rewrite below_snoc. split; [by intros [? _]|]. intros H. split; [done|]. destruct (same_use_loop tr q f r) as [Ht _].
  apply (same_below c _ _ Ht). by apply below_now_in.
Qed.
Lemma frugal_written c tr q f r : frugal c (tr ++ [(OWrite q f, r)]) ↔ frugal c tr.
Proof. apply same_use_frugal; [apply same_use_loop|apply one_abandoned_loop|intros c'; apply below_loop]. Qed.
Lemma frugal_loop c tr x q f r : frugal c (tr ++ [x; (OWrite q f, r)]) ↔ frugal c (tr ++ [(OWrite q f, r); x]).
Proof.
  rewrite !app2, frugal_written. pose proof (same_use_snoc _ _ x (same_use_loop tr q f r)) as Hs. symmetry. apply same_use_frugal; [exact Hs|..].
  - rewrite (one_abandoned_snoc _ x), (one_abandoned_snoc tr x), one_abandoned_loop. split; intros [H1 H2]; (split; [done|]); intros S1 S2 HS1 HS2.
    + apply H2; by apply (same_abandoned _ _ _ Hs).
    + apply H2; by apply (same_abandoned _ _ _ Hs).
  - intros c'. rewrite (below_snoc c' _ x), (below_snoc c' tr x), below_loop. destruct Hs as [Ht _]. by rewrite (same_below c' _ _ Ht).
Qed.

(** The calls can be made in the other order, and the earlier loop can be left out. *)
Lemma loop_earlier c cap tr s x q f : cfg_ok c → drun (λ _ _, True) c cap (tr ++ [x; (OWrite q f, None)]) s → frugal c (tr ++ [x; (OWrite q f, None)]) → frugal c (tr ++ [(OWrite q f, None); x]) →
  ∃ s', drun (λ _ _, True) c cap (tr ++ [(OWrite q f, None); x]) s'.
Proof.
  intros Hc Hd Hf Hf'. rewrite app2 in Hd, Hf, Hf'. apply drun_snoc in Hd as (s1 & Hd1 & Hw & _). apply drun_snoc in Hd1 as (s0 & Hd0 & Hx & Hs1).
  destruct x as [o r]. simpl in *. pose proof (drun_run _ _ _ _ _ Hd0) as Hr0. apply (proj1 (disciplined_loop q f c tr (o, r))) in Hw.
  destruct (frugal_returns c cap tr s0 _ Hc Hd0 (frugal_prefix _ _ _ (frugal_prefix _ _ _ Hf)) Hw) as (sw & rw & Hsw).
  pose proof (write_none q f _ _ _ _ _ _ Hr0 Hsw) as ->.
  assert (drun (λ _ _, True) c cap (tr ++ [(OWrite q f, None)]) sw) as Hdw by by econstructor.
  apply (proj2 (disciplined_written q f _ _ _)) in Hx.
  destruct (frugal_returns c cap _ sw _ Hc Hdw (frugal_prefix _ _ _ Hf') Hx) as (s' & r' & Hs').
  pose proof (result_written q f _ _ _ _ _ _ _ _ _ _ Hr0 Hsw Hs1 Hs') as ->. exists s'. rewrite app2. by econstructor.
Qed.
Lemma loop_later c cap tr s x q f : cfg_ok c → drun (λ _ _, True) c cap (tr ++ [(OWrite q f, None); x]) s → frugal c (tr ++ [x; (OWrite q f, None)]) → frugal c (tr ++ [(OWrite q f, None); x]) →
  ∃ s', drun (λ _ _, True) c cap (tr ++ [x; (OWrite q f, None)]) s'.
Proof.
  intros Hc Hd Hf Hf'. rewrite app2 in Hd, Hf, Hf'. apply drun_snoc in Hd as (s1 & Hd1 & Hx & Hs1). apply drun_snoc in Hd1 as (s0 & Hd0 & Hw & Hsw).
  destruct x as [o r]. simpl in *. pose proof (drun_run _ _ _ _ _ Hd0) as Hr0. apply (proj1 (disciplined_written q f _ _ _)) in Hx.
  destruct (frugal_returns c cap tr s0 _ Hc Hd0 (frugal_prefix _ _ _ (frugal_prefix _ _ _ Hf)) Hx) as (sx & rx & Hsx).
  pose proof (result_written q f _ _ _ _ _ _ _ _ _ _ Hr0 Hsw Hsx Hs1) as ->.
  assert (drun (λ _ _, True) c cap (tr ++ [(o, rx)]) sx) as Hdx by by econstructor.
  apply (proj2 (disciplined_loop q f c tr (o, rx))) in Hw.
  destruct (frugal_returns c cap _ sx _ Hc Hdx (frugal_prefix _ _ _ Hf) Hw) as (s' & r' & Hs').
  pose proof (write_none q f _ _ _ _ _ _ (drun_run _ _ _ _ _ Hdx) Hs') as ->. exists s'. rewrite app2. by econstructor.
Qed.
Lemma loop_left_out c cap tr s q f f' : cfg_ok c → drun (λ _ _, True) c cap (tr ++ [(OWrite q f, None); (OWrite q f', None)]) s → frugal c (tr ++ [(OWrite q f, None); (OWrite q f', None)]) →
  ∃ s', drun (λ _ _, True) c cap (tr ++ [(OWrite q f', None)]) s'.
Proof.
  intros Hc Hd Hf. rewrite app2 in Hd, Hf. apply drun_snoc in Hd as (s1 & Hd1 & Hw & _). apply drun_snoc in Hd1 as (s0 & Hd0 & _).
  simpl in *. pose proof (drun_run _ _ _ _ _ Hd0) as Hr0. apply (proj1 (disciplined_written q f _ _ _)) in Hw.
  destruct (frugal_returns c cap tr s0 _ Hc Hd0 (frugal_prefix _ _ _ (frugal_prefix _ _ _ Hf)) Hw) as (sw & rw & Hsw).
  pose proof (write_none q f' _ _ _ _ _ _ Hr0 Hsw) as ->. exists sw. by econstructor.
Qed.
Lemma loops_swap c cap tr s x q f : cfg_ok c → aside x.1 q → frugal c (tr ++ [x; (OWrite q f, None)]) → drun (λ _ _, True) c cap (tr ++ [x; (OWrite q f, None)]) s →
  ∃ s', drun (λ _ _, True) c cap (tr ++ [(OWrite q f, None); x]) s' ∧ frugal c (tr ++ [(OWrite q f, None); x]) ∧
  (∀ e, e ∈ issued (tr ++ [x; (OWrite q f, None)]) →
    is_alive c s e = is_alive c s' e ∧
    (∃ a a', get_entity_archetype c s e = POk a ∧ get_entity_archetype c s' e = POk a' ∧ arch_ids <$> a = arch_ids <$> a') ∧
    ∀ T, T ≠ [] → (∀ t, t ∈ T → t ∉ untold (tr ++ [x; (OWrite q f, None)]) e) → read_components c s e T = read_components c s' e T) ∧
  (∀ g, first_ordered c s g = first_ordered c s' g ∧ last_ordered c s g = last_ordered c s' g ∧
    ∀ e, alive_in (tr ++ [x; (OWrite q f, None)]) e → next_ordered c s g e = next_ordered c s' g e ∧ previous_ordered c s g e = previous_ordered c s' g e) ∧
  (tags_on_live (tr ++ [x; (OWrite q f, None)]) → ∀ t e, alive_in (tr ++ [x; (OWrite q f, None)]) e → has_tag c s t e = has_tag c s' t e).
Proof.
  intros Hc Ha Hf Hd. pose proof (proj1 (frugal_loop c tr x q f None) Hf) as Hf'. destruct (loop_earlier c cap tr s x q f Hc Hd Hf Hf') as [s' Hd'].
  exists s'. split; [exact Hd'|]. split; [exact Hf'|]. destruct (frugal_drun _ _ _ _ Hc Hd Hf) as [Hh _]. destruct (frugal_drun _ _ _ _ Hc Hd' Hf') as [Hh' _].
  exact (loop_same c cap cap tr s s' x q f Hc Hh Hh' Ha).
Qed.
Lemma loops_swap_back c cap tr s' x q f : cfg_ok c → aside x.1 q → frugal c (tr ++ [(OWrite q f, None); x]) → drun (λ _ _, True) c cap (tr ++ [(OWrite q f, None); x]) s' →
  ∃ s, drun (λ _ _, True) c cap (tr ++ [x; (OWrite q f, None)]) s ∧ frugal c (tr ++ [x; (OWrite q f, None)]) ∧
  (∀ e, e ∈ issued (tr ++ [x; (OWrite q f, None)]) →
    is_alive c s e = is_alive c s' e ∧
    (∃ a a', get_entity_archetype c s e = POk a ∧ get_entity_archetype c s' e = POk a' ∧ arch_ids <$> a = arch_ids <$> a') ∧
    ∀ T, T ≠ [] → (∀ t, t ∈ T → t ∉ untold (tr ++ [x; (OWrite q f, None)]) e) → read_components c s e T = read_components c s' e T) ∧
  (∀ g, first_ordered c s g = first_ordered c s' g ∧ last_ordered c s g = last_ordered c s' g ∧
    ∀ e, alive_in (tr ++ [x; (OWrite q f, None)]) e → next_ordered c s g e = next_ordered c s' g e ∧ previous_ordered c s g e = previous_ordered c s' g e) ∧
  (tags_on_live (tr ++ [x; (OWrite q f, None)]) → ∀ t e, alive_in (tr ++ [x; (OWrite q f, None)]) e → has_tag c s t e = has_tag c s' t e).
Proof.
  intros Hc Ha Hf' Hd'. pose proof (proj2 (frugal_loop c tr x q f None) Hf') as Hf. destruct (loop_later c cap tr s' x q f Hc Hd' Hf Hf') as [s Hd].
  exists s. split; [exact Hd|]. split; [exact Hf|]. destruct (frugal_drun _ _ _ _ Hc Hd Hf) as [Hh _]. destruct (frugal_drun _ _ _ _ Hc Hd' Hf') as [Hh' _].
  exact (loop_same c cap cap tr s s' x q f Hc Hh Hh' Ha).
Qed.
Lemma loops_again c cap tr s q f f' : cfg_ok c → frugal c (tr ++ [(OWrite q f, None); (OWrite q f', None)]) → drun (λ _ _, True) c cap (tr ++ [(OWrite q f, None); (OWrite q f', None)]) s →
  ∃ s', drun (λ _ _, True) c cap (tr ++ [(OWrite q f', None)]) s' ∧ frugal c (tr ++ [(OWrite q f', None)]) ∧
  (∀ e, e ∈ issued (tr) →
    is_alive c s e = is_alive c s' e ∧
    (∃ a a', get_entity_archetype c s e = POk a ∧ get_entity_archetype c s' e = POk a' ∧ arch_ids <$> a = arch_ids <$> a') ∧
    ∀ T, T ≠ [] → (∀ t, t ∈ T → t ∉ untold (tr ++ [(OWrite q f', None)]) e) → read_components c s e T = read_components c s' e T) ∧
  (∀ g, first_ordered c s g = first_ordered c s' g ∧ last_ordered c s g = last_ordered c s' g ∧
    ∀ e, alive_in (tr) e → next_ordered c s g e = next_ordered c s' g e ∧ previous_ordered c s g e = previous_ordered c s' g e) ∧
  (tags_on_live (tr ++ [(OWrite q f, None); (OWrite q f', None)]) → ∀ t e, alive_in (tr) e → has_tag c s t e = has_tag c s' t e).
Proof.
  intros Hc Hf Hd. assert (frugal c (tr ++ [(OWrite q f', None)])) as Hf'. { rewrite app2, !frugal_written in Hf. by apply frugal_written. }
  destruct (loop_left_out c cap tr s q f f' Hc Hd Hf) as [s' Hd'].
  exists s'. split; [exact Hd'|]. split; [exact Hf'|]. destruct (frugal_drun _ _ _ _ Hc Hd Hf) as [Hh _]. destruct (frugal_drun _ _ _ _ Hc Hd' Hf') as [Hh' _].
  exact (again_same c cap cap tr s s' q f f' Hc Hh Hh').
Qed.
Lemma loop_disciplined c tr q f : args_ok c (OWrite q f) → disciplined c tr (OWrite q f).
Proof. intros H. split; [exact H|]. do 2 (split; [done|]). split; [|done]. intros e He. by apply elem_of_nil in He. Qed.
(** For examples: the store after a call without result, and whether it returned. *)
Definition after (c : cfg) (o : op) (s : store) : store := match step c o s with ROk s' _ => s' | RPanic s' => s' | RUB _ => s end.
Definition returnsb (c : cfg) (o : op) (s : store) : bool := match step c o s with ROk _ None => true | _ => false end.
Lemma after_step c o s : returnsb c o s = true → step c o s = ROk (after c o s) None.
Proof. unfold returnsb, after. by destruct (step c o s) as [s' [e|]|s'|]. Qed.
Lemma call_twice c cap ops o o' : dend_ok c cap ops = true → let tr := end_trace c cap ops in let s := end_store c cap ops in
  disciplined c tr o → disciplined c (tr ++ [(o, None)]) o' → returnsb c o s && returnsb c o' (after c o s) = true →
  drun (λ _ _, True) c cap (tr ++ [(o, None); (o', None)]) (after c o' (after c o s)).
Proof.
  intros Hd%dend_run tr s H1 H2 [E1%after_step E2%after_step]%andb_prop. rewrite app2. econstructor; [|done|done|exact E2]. by econstructor.
Qed.
Lemma crun_loop c cap tr s q f s' : crun c cap tr s → healthyb c (st_ac s) None = true → args_ok c (OWrite q f) → step c (OWrite q f) s = ROk s' None →
  crun c cap (tr ++ [(OWrite q f, Returned None)]) s'.
Proof. intros Hr Hh%healthyb_ok Ha Hs. econstructor; [exact Hr|exact Hh|exact Ha|done|intros e He; by apply elem_of_nil in He|done|done|by left|exact Hs]. Qed.
