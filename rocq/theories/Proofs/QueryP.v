(** QueryP.v — component queries over the rows of the archetypes container. *)
From Verif.Model Require Export Query.
From Verif.Spec Require Export Queries.
From Verif.Proofs Require Export TupleP.
Local Open Scope N_scope.

(** ** The iterator: what is left to visit *)
Definition vitems (v : pview) (j : nat) : list (pview * nat) := (λ k, (v, k)) <$> seq j (pv_count v - j).
Definition qrest (it : qiter) : list (pview * nat) :=
  vitems (pi_view (qi_cur it)) (pi_next (qi_cur it)) ++ concat ((λ v, vitems v 0) <$> drop (S (qi_idx it)) (qi_views it)).
Definition views_ok (it : qiter) : Prop := ∀ v, v ∈ qi_views it → (0 < pv_count v)%nat.

Lemma vitems_done v j : (pv_count v ≤ j)%nat → vitems v j = [].
Proof. intros H. unfold vitems. by replace (pv_count v - j)%nat with 0%nat by lia. Qed.
Lemma vitems_more v j : (j < pv_count v)%nat → vitems v j = (v, j) :: vitems v (S j).
Proof. intros H. unfold vitems. by replace (pv_count v - j)%nat with (S (pv_count v - S j)) by lia. Qed.
Lemma vitems_elem v j w k : (w, k) ∈ vitems v j ↔ w = v ∧ (j ≤ k < pv_count v)%nat.
Proof.
  unfold vitems. rewrite elem_of_list_fmap. setoid_rewrite elem_of_seq. split.
  - intros (n & [= -> ->] & Hn). split; [done|lia].
  - intros [-> Hk]. exists k. split; [done|lia].
Qed.

Lemma qiter_next_spec it : views_ok it →
  match qrest it with
  | [] => ∃ it', qiter_next it = POk (None, it') ∧ qrest it' = [] ∧ views_ok it' ∧ qi_count it' = qi_count it
  | (v, k) :: r => ∃ it', qrest it' = r ∧ views_ok it' ∧ qi_count it' = qi_count it ∧
      pi_view (qi_cur it') = v ∧ pi_next (qi_cur it') = S k ∧
      qiter_next it = (rs ← ptrs_to_refs (add_to_ptrs (pv_ptrs v) k); POk (Some rs, it'))
  end.
Proof.
  intros Hok. destruct it as [vs [v j] i n]. unfold qrest. simpl. unfold qiter_next, piter_next. simpl.
  destruct (Nat.leb_spec (pv_count v) j) as [Hle|Hlt].
  - rewrite (vitems_done v j) by done. simpl. destruct (vs !! S i) as [w|] eqn:E.
    + rewrite (drop_S _ _ _ E). simpl. assert (0 < pv_count w)%nat as Hw.
      { apply Hok. simpl. by eapply elem_of_list_lookup_2. }
      rewrite (vitems_more w 0 Hw). simpl. unfold piter_next. simpl. rewrite (proj2 (Nat.leb_gt _ _)) by done.
      eexists (QIter vs (PIter w 1) (S i) n). simpl. split; [done|]. split; [done|]. split_and!; try done.
      by destruct (ptrs_to_refs _).
    + rewrite drop_ge by (by apply lookup_ge_None). simpl. eexists. split; [done|]. simpl. split; [|done].
      rewrite drop_ge; [done|]. apply lookup_ge_None in E. lia.
  - rewrite (vitems_more v j Hlt). simpl. eexists (QIter vs (PIter v (S j)) i n). simpl. split; [done|]. split; [done|]. split_and!; try done.
    by destruct (ptrs_to_refs _).
Qed.

(** Producing all items: [f v k] are the references of the [k]-th row of [v]. *)
Lemma qiter_yields (f : pview → nat → list cref) l : ∀ it, views_ok it → qrest it = l →
  (∀ v k, (v, k) ∈ l → ptrs_to_refs (add_to_ptrs (pv_ptrs v) k) = POk (f v k)) →
  ∃ it', yields qiter_next it ((λ x, f x.1 x.2) <$> l) it' ∧ qrest it' = [] ∧ views_ok it' ∧ qi_count it' = qi_count it.
Proof.
  induction l as [|[v k] l IH]; intros it Hok Hl Hf; pose proof (qiter_next_spec it Hok) as H; rewrite Hl in H.
  - destruct H as (it' & Hn & ? & ? & ?). exists it'. split; [by constructor|done].
  - destruct H as (it' & Hr & Hok' & Hc & Hv & Hk & Hn). rewrite Hf in Hn by (by left). simpl in Hn.
    destruct (IH it' Hok' Hr) as (it2 & Hy & ? & ? & ?); [intros; apply Hf; by right|].
    exists it2. split; [|split_and!; [done|done|congruence]]. simpl. econstructor; [exact Hn|done].
Qed.
Lemma qiter_yields_with (f : pview → nat → list cref) (g : pview → nat → entity) vers l : ∀ it, views_ok it → qrest it = l →
  (∀ v k, (v, k) ∈ l → ptrs_to_refs (add_to_ptrs (pv_ptrs v) k) = POk (f v k)) →
  (∀ v k, (v, k) ∈ l → pv_ids v !! k = Some (e_id (g v k)) ∧ aget vers (e_id (g v k)) = POk (e_ver (g v k))) →
  ∃ it', yields (qiter_next_with vers) it ((λ x, (g x.1 x.2, f x.1 x.2)) <$> l) it' ∧ qrest it' = [] ∧ views_ok it' ∧ qi_count it' = qi_count it.
Proof.
  induction l as [|[v k] l IH]; intros it Hok Hl Hf Hg; pose proof (qiter_next_spec it Hok) as H; rewrite Hl in H.
  - destruct H as (it' & Hn & ? & ? & ?). exists it'. split; [|done]. constructor. unfold qiter_next_with. by rewrite Hn.
  - destruct H as (it' & Hr & Hok' & Hc & Hv & Hk & Hn). rewrite Hf in Hn by (by left). simpl in Hn.
    destruct (IH it' Hok' Hr) as (it2 & Hy & ? & ? & ?); [intros; apply Hf; by right|intros; apply Hg; by right|].
    exists it2. split; [|split_and!; [done|done|congruence]]. simpl. econstructor; [|done].
    unfold qiter_next_with. rewrite Hn. simpl. unfold piter_current_id. rewrite Hk, Hv.
    destruct (Hg v k ltac:(by left)) as [-> Hver]. simpl. rewrite Hver. simpl. by destruct (g v k).
Qed.
(** After the end. *)
Lemma advance_done {I X} (next : I → pres (option X * I)) (P : I → Prop) :
  (∀ it, P it → ∃ it', next it = POk (None, it') ∧ P it') → ∀ it, P it → finished next it.
Proof.
  intros H it Hp n. revert it Hp. induction n as [|n IH]; intros it Hp; simpl.
  - destruct (H it Hp) as (it' & Hn & _). eauto.
  - destruct (H it Hp) as (it' & -> & Hp'). simpl. by apply IH.
Qed.
Lemma qiter_finished it : views_ok it → qrest it = [] → finished qiter_next it.
Proof.
  intros H1 H2. apply (advance_done _ (λ it, views_ok it ∧ qrest it = [])); [|done].
  intros i [Hv Hr]. pose proof (qiter_next_spec i Hv) as Hn. rewrite Hr in Hn. naive_solver.
Qed.
Lemma qiter_finished_with vers it : views_ok it → qrest it = [] → finished (qiter_next_with vers) it.
Proof.
  intros H1 H2. apply (advance_done _ (λ it, views_ok it ∧ qrest it = [])); [|done].
  intros i [Hv Hr]. pose proof (qiter_next_spec i Hv) as Hn. rewrite Hr in Hn. destruct Hn as (it' & Hn & ? & ? & _).
  exists it'. unfold qiter_next_with. by rewrite Hn.
Qed.

(** ** The pages visited *)
Definition matching (q : access) (a : archetype) : Prop := ∀ t, t ∈ q_types q → t ∈ arch_ids a.
Lemma q_include_spec c q a : search_ok (c_bs c) → incr (arch_ids a) → NoDup (q_types q) →
  q_include c q a = true ↔ matching q a.
Proof.
  intros Hbs Ha Hnd. unfold q_types in Hnd. apply NoDup_app in Hnd as (Hr & _ & Hw).
  unfold q_include. rewrite andb_true_iff, !is_include_ids_spec by done. unfold matching, q_types. set_solver.
Qed.

Definition good_view (c : cfg) (s : ac) (q : access) (v : pview) (p : nat) : Prop :=
  ∃ pg a ly, ac_pages s !! p = Some pg ∧ page_arch s p = Some (a, ly) ∧ matching q a ∧ pv_ids v = pg_ids pg ∧
    pv_count v = length (pg_ids pg) ∧ (0 < pv_count v)%nat ∧
    ∀ k, (k < pv_count v)%nat → ∃ rs, ptrs_to_refs (add_to_ptrs (pv_ptrs v) k) = POk rs ∧ refs_at c a ly p k (q_types q) rs.

Lemma q_offsets_spec c q a ly : search_ok (c_bs c) → incr (arch_ids a) → length (ly_offs ly) = length a → matching q a →
  ∃ o1 o2, q_offsets c q a ly = POk (o1, o2) ∧ offs_at a ly (q_types q) (o1 ++ o2) ∧ length o1 = length (q_read q).
Proof.
  intros Hbs Ha Hl Hm. unfold q_offsets, matching, q_types in *.
  destruct (get_offsets_unchecked_spec c a ly (q_read q) Hbs Ha Hl) as (o1 & -> & H1); [set_solver|].
  destruct (get_offsets_unchecked_spec c a ly (q_write q) Hbs Ha Hl) as (o2 & -> & H2); [set_solver|].
  exists o1, o2. split_and!; [done|by apply Forall2_app|]. symmetry. by eapply Forall2_length.
Qed.
Lemma q_ptrs_refs c q p o1 o2 k : length o1 = length (q_read q) →
  ptrs_to_refs (add_to_ptrs (q_ptrs c q p (o1, o2)) k) = get_refs c p k (q_types q) (o1 ++ o2).
Proof. intros H. unfold get_refs, q_ptrs, q_types, get_ptrs. simpl. by rewrite zip_with_app. Qed.
Lemma pview_good c s q p pg a ly o1 o2 : ac_inv c s → ac_pages s !! p = Some pg → pg_ids pg ≠ [] → page_arch s p = Some (a, ly) →
  matching q a → offs_at a ly (q_types q) (o1 ++ o2) → length o1 = length (q_read q) →
  good_view c s q (pview_new c q p pg (o1, o2)) p.
Proof.
  intros Hi Hp Hne Hpa Hm Ho Hl. exists pg, a, ly. split_and!; try done.
  - simpl. unfold page_count. destruct (pg_ids pg); [done|]. simpl. lia.
  - simpl. unfold page_count. intros k Hk. rewrite q_ptrs_refs by done.
    destruct (used_facts _ _ _ _ Hi Hp Hne) as (i & ps & a' & ly' & H1 & H2 & H3 & Ha & Hly & Hwf & Hc & Hcap & Hrows).
    unfold page_arch in Hpa. rewrite H1, Ha, Hly in Hpa. injection Hpa as -> ->. apply get_refs_spec; try done. lia.
Qed.

Definition busy (s : ac) (p : nat) : Prop := ∃ pg, ac_pages s !! p = Some pg ∧ pg_ids pg ≠ [].
Lemma cq_pages_spec c s q i a ly o1 o2 ps0 ps : ac_inv c s → ac_archs s !! i = Some a → ac_layouts s !! i = Some ly →
  matching q a → offs_at a ly (q_types q) (o1 ++ o2) → length o1 = length (q_read q) →
  ac_pages_of s !! i = Some ps0 → (∀ p, p ∈ ps → p ∈ ps0) → NoDup ps →
  ∃ vs n ps', cq_pages c q (ac_pages s) (o1, o2) ps = POk (vs, n) ∧ Forall2 (good_view c s q) vs ps' ∧ NoDup ps' ∧
    (∀ p, p ∈ ps' ↔ p ∈ ps ∧ busy s p) ∧ n = sum_list (pv_count <$> vs).
Proof.
  intros Hi Ha Hly Hm Ho Hlen Hps0. induction ps as [|p ps IH]; intros Hsub Hnd; simpl.
  { exists [], 0%nat, []. split_and!; try done; first [by constructor|set_solver]. }
  assert (ac_p2a s !! p = Some i) as Hp2a by (eapply (ac_pof_p2a _ _ Hi); [done|]; apply Hsub; by left).
  destruct (lookup_lt_is_Some_2 (ac_pages s) p) as [pg Hpg].
  { rewrite <- (ac_p2a_len _ _ Hi). by eapply lookup_lt_Some. }
  apply NoDup_cons in Hnd as [Hni Hnd]. destruct IH as (vs & n & ps' & -> & Hg & Hnd' & Hin & Hn); [intros; apply Hsub; by right|done|].
  unfold vidx. rewrite Hpg. simpl. destruct (Nat.eqb_spec (page_count pg) 0) as [H0|H0].
  - exists vs, n, ps'. split_and!; try done. intros p'. rewrite Hin, elem_of_cons. split; [naive_solver|].
    intros [[->|?] Hb]; [|done]. destruct Hb as (pg' & Hpg' & Hne). assert (pg' = pg) as -> by congruence.
    apply nil_length_inv in H0. done.
  - exists (pview_new c q p pg (o1, o2) :: vs), (page_count pg + n)%nat, (p :: ps'). simpl.
    assert (pg_ids pg ≠ []) as Hne by (intros Hn0; apply H0; unfold page_count; by rewrite Hn0).
    split_and!; [done| | | |].
    + constructor; [|done]. apply (pview_good c s q p pg a ly); try done. unfold page_arch. by rewrite Hp2a, Ha, Hly.
    + apply NoDup_cons. split; [|done]. rewrite Hin. naive_solver.
    + intros p'. rewrite !elem_of_cons, Hin. split; [|naive_solver]. intros [->|?]; [|naive_solver]. split; [by left|]. by exists pg.
    + by rewrite Hn.
Qed.
Definition visits (q : access) (s : ac) (i p : nat) : Prop :=
  ∃ a ps, ac_archs s !! i = Some a ∧ matching q a ∧ ac_pages_of s !! i = Some ps ∧ p ∈ ps ∧ busy s p.
Lemma cq_archs_spec c s q ais : search_ok (c_bs c) → ac_inv c s → NoDup (q_types q) →
  (∀ i, i ∈ ais → (i < length (ac_archs s))%nat) → NoDup ais →
  ∃ vs n ps, cq_archs c q s ais = POk (vs, n) ∧ Forall2 (good_view c s q) vs ps ∧ NoDup ps ∧
    (∀ p, p ∈ ps ↔ ∃ i, i ∈ ais ∧ visits q s i p) ∧ n = sum_list (pv_count <$> vs).
Proof.
  intros Hbs Hi Hq. induction ais as [|i ais IH]; intros Hlt Hnd; simpl.
  { exists [], 0%nat, []. split_and!; try done; first [by constructor|set_solver]. }
  destruct (lookup_lt_is_Some_2 _ _ (Hlt i ltac:(by left))) as [a Ha].
  destruct (lookup_lt_is_Some_2 (ac_layouts s) i) as [ly Hly].
  { rewrite (ac_lay_len _ _ Hi). by eapply lookup_lt_Some. }
  destruct (lookup_lt_is_Some_2 (ac_pages_of s) i) as [qs Hqs].
  { rewrite (ac_pof_len _ _ Hi). by eapply lookup_lt_Some. }
  destruct (ac_arch_ok _ _ Hi _ _ _ Ha Hly) as (Hwf & Hc & _).
  apply NoDup_cons in Hnd as [Hni Hnd]. destruct IH as (vs & n & ps & -> & Hg & Hnd' & Hin & Hn); [intros; apply Hlt; by right|done|].
  unfold arch_with_layout_unchecked, vget_unchecked. rewrite Ha. simpl. rewrite Hly. simpl.
  destruct (q_include c q a) eqn:E; simpl.
  - apply q_include_spec in E; [|done|apply Hwf|done].
    destruct (q_offsets_spec c q a ly Hbs (proj1 Hwf) (proj1 Hc) E) as (o1 & o2 & -> & Ho & Hlo). simpl.
    unfold vidx. rewrite Hqs. simpl.
    destruct (cq_pages_spec c s q i a ly o1 o2 qs qs Hi Ha Hly E Ho Hlo Hqs) as (vs' & n' & ps' & -> & Hg' & Hnd'' & Hin' & Hn'); [done|by eapply ac_pof_nodup|].
    simpl. exists (vs' ++ vs), (n' + n)%nat, (ps' ++ ps). split_and!; [done|by apply Forall2_app| | |].
    + apply NoDup_app. split_and!; [done| |done]. intros p [Hp _]%Hin' (j & Hj & a' & qs' & Ha' & _ & Hqs' & Hp' & _)%Hin.
      pose proof (ac_pof_p2a _ _ Hi _ _ _ Hqs Hp). pose proof (ac_pof_p2a _ _ Hi _ _ _ Hqs' Hp'). assert (i = j) as -> by congruence. done.
    + intros p. rewrite elem_of_app, Hin, Hin'. split.
      * intros [[Hp Hb]|(j & Hj & Hv)].
        -- exists i. split; [by left|]. exists a, qs. done.
        -- exists j. split; [by right|done].
      * intros (j & [->|Hj]%elem_of_cons & Hv); [|eauto]. left. destruct Hv as (a' & qs' & Ha' & _ & Hqs' & Hp & Hb). by simplify_eq.
    + rewrite fmap_app, sum_list_with_app || rewrite fmap_app. rewrite Hn, Hn'. clear. induction vs'; simpl; lia.
  - assert (¬ matching q a) as Hnm. { intros Hm. apply (q_include_spec c) in Hm; [congruence|done|apply Hwf|done]. }
    exists vs, n, ps. split_and!; try done. intros p. rewrite Hin. split.
    + intros (j & Hj & Hv). exists j. split; [by right|done].
    + intros (j & [->|Hj]%elem_of_cons & Hv); [|eauto]. destruct Hv as (a' & qs' & Ha' & Hm & _). by simplify_eq.
Qed.

(** ** The rows visited *)
Lemma has_all_spec m T : has_all m T = true ↔ ∀ t, t ∈ T → is_Some (m !! t).
Proof.
  unfold has_all. rewrite forallb_forall. split; intros H t Ht.
  - specialize (H t (proj1 (elem_of_list_In _ _) Ht)). by apply bool_decide_eq_true in H.
  - apply bool_decide_eq_true, H. by apply elem_of_list_In.
Qed.
Lemma component_query_spec c q s : search_ok (c_bs c) → ac_inv c (st_ac s) → NoDup (q_types q) →
  ∃ it locs, component_query c q s = POk it ∧ views_ok it ∧ qi_count it = length (qrest it) ∧
    Forall2 (λ x l, x.2 = l.2 ∧ good_view c (st_ac s) q x.1 l.1 ∧ (x.2 < pv_count x.1)%nat) (qrest it) locs ∧ NoDup locs ∧
    ∀ p k, (p, k) ∈ locs ↔ ∃ id m, loc (st_ac s) p k = Some (id, m) ∧ has_all m (q_types q) = true.
Proof.
  intros Hbs Hi Hq. unfold component_query. set (a := st_ac s) in *.
  destruct (cq_archs_spec c a q (seq 0 (length (ac_archs a))) Hbs Hi Hq) as (vs & n & ps & -> & Hg & Hnd & Hin & Hn).
  { intros i Hi'%elem_of_seq. lia. } { apply NoDup_seq. }
  simpl. set (it := QIter _ _ _ _). assert (views_ok it) as Hok.
  { intros v (i & Hv)%elem_of_list_lookup. simpl in Hv. destruct (Forall2_lookup_l _ _ _ _ _ Hg Hv) as (p & _ & Hgv).
    by destruct Hgv as (? & ? & ? & ? & ? & ? & ? & ? & ? & ?). }
  assert (qrest it = concat ((λ v, vitems v 0) <$> vs)) as Hr.
  { unfold qrest. simpl. destruct vs as [|v vs]; [done|]. simpl. by rewrite drop_0. }
  exists it, (concat (zip_with (λ v p, (λ k, (p, k)) <$> seq 0 (pv_count v)) vs ps)).
  split; [done|]. split; [done|]. rewrite Hr. split.
  { simpl. rewrite Hn. clear. induction vs as [|v vs IH]; simpl; [done|]. rewrite app_length. unfold vitems at 1. rewrite fmap_length, seq_length. unfold fmap in *. lia. }
  assert (∀ p k, (p, k) ∈ concat (zip_with (λ v p, (λ k, (p, k)) <$> seq 0 (pv_count v)) vs ps) →
     p ∈ ps ∧ ∃ v, good_view c a q v p ∧ (k < pv_count v)%nat) as Hloc1.
  { clear -Hg. induction Hg as [|v p vs ps Hv Hg IH]; simpl; intros p' k; [by intros ?%elem_of_nil|].
    rewrite elem_of_app. intros [(k' & [= -> ->] & Hk%elem_of_seq)%elem_of_list_fmap|[H1 H2]%IH].
    - split; [by left|]. exists v. split; [done|lia].
    - split; [by right|done]. }
  split; [|split].
  - clear -Hg. induction Hg as [|v p vs ps Hv Hg IH]; simpl; [constructor|]. apply Forall2_app; [|done].
    unfold vitems. rewrite Nat.sub_0_r. apply Forall2_fmap, Forall_Forall2_diag, Forall_forall. intros k Hk%elem_of_seq. simpl. split_and!; [done|done|lia].
  - clear Hr Hok it Hin Hloc1 Hn. induction Hg as [|v p vs ps Hv Hg IH]; simpl; [constructor|].
    apply NoDup_cons in Hnd as [Hni Hnd]. apply NoDup_app. split_and!; [| |].
    + apply NoDup_fmap; [by intros ? ? [= ->]|apply NoDup_seq].
    + intros [p' k] (k' & [= -> ->] & _)%elem_of_list_fmap Hx. apply Hni. clear -Hx Hg.
      induction Hg as [|v2 p2 vs2 ps2 Hv Hg IH]; simpl in *; [by apply elem_of_nil in Hx|].
      apply elem_of_app in Hx as [(k2 & [= -> ->] & _)%elem_of_list_fmap|Hx]; [by left|right; auto].
    + by apply IH.
  - intros p k. split.
    + intros [_ (v & (pg & a0 & ly & Hpg & Hpa & Hm & Hids & Hcnt & _ & _) & Hk)]%Hloc1.
      assert (is_Some (loc a p k)) as [[id m] Hl] by (eapply loc_is_Some; [done|done|lia]).
      exists id, m. split; [done|]. apply has_all_spec. intros t Ht.
      destruct (loc_page _ _ _ _ _ _ Hi Hl) as (pg' & i & a' & ly' & _ & H1 & Ha & _ & Hpa' & _).
      assert (a' = a0) as -> by congruence. by apply (loc_dom _ _ _ _ _ _ _ _ Hi Hl H1 Ha), Hm.
    + intros (id & m & Hl & Hm). rewrite has_all_spec in Hm.
      destruct (loc_page _ _ _ _ _ _ Hi Hl) as (pg & i & a0 & ly & Hpg & H1 & Ha & Hly & Hpa & _ & _ & _ & Hid & _).
      assert (pg_ids pg ≠ []) as Hne by (intros Hn0; by rewrite Hn0 in Hid).
      destruct (used_facts _ _ _ _ Hi Hpg Hne) as (i' & qs & a1 & ly1 & H1' & Hqs & Hpq & _).
      assert (i' = i) as -> by congruence.
      assert (p ∈ ps) as Hp.
      { apply Hin. exists i. split; [apply elem_of_seq; apply lookup_lt_Some in Ha; lia|]. exists a0, qs. split_and!; try done.
        - intros t Ht. apply (loc_dom _ _ _ _ _ _ _ _ Hi Hl H1 Ha). auto.
        - by exists pg. }
      clear Hin Hnd Hloc1 Hr Hok it Hn. induction Hg as [|v p' vs ps Hv Hg IH]; [by apply elem_of_nil in Hp|].
      simpl. apply elem_of_app. apply elem_of_cons in Hp as [<-|Hp]; [left|right; auto].
      apply elem_of_list_fmap. exists k. split; [done|]. apply elem_of_seq.
      destruct Hv as (pg' & ? & ? & Hpg' & _ & _ & _ & -> & _). assert (pg' = pg) as -> by congruence.
      apply lookup_lt_Some in Hid. lia.
Qed.
