(** TupleP.v — references to the components of a row. *)
From Verif.Model Require Export Tuple.
From Verif.Proofs Require Export ArchContP.
Local Open Scope N_scope.

(** ** Offsets and references of a tuple of types *)
Definition offs_at (a : archetype) (ly : layout) (T : list tid) (os : list N) : Prop :=
  Forall2 (λ t o, ∃ i, arch_ids a !! i = Some t ∧ ly_offs ly !! i = Some o) T os.
Definition refs_at (c : cfg) (a : archetype) (ly : layout) (p k : nat) (T : list tid) (rs : list cref) : Prop :=
  Forall2 (λ t r, ∃ i o, arch_ids a !! i = Some t ∧ ly_offs ly !! i = Some o ∧
    r = Ref p (off_at k (ctype_of c t) o) (ti_size (c_ty c t))) T rs.

Lemma get_offsets_unchecked_spec c a ly T : search_ok (c_bs c) → incr (arch_ids a) → length (ly_offs ly) = length a →
  (∀ t, t ∈ T → t ∈ arch_ids a) → ∃ os, get_offsets_unchecked c T a ly = POk os ∧ offs_at a ly T os.
Proof.
  intros Hbs Ha Hl. induction T as [|t T IH]; intros Hsub; simpl; [exists []; split; [done|constructor]|].
  destruct (proj1 (elem_of_list_lookup _ _) (Hsub t ltac:(by left))) as [i Hi].
  rewrite (proj2 (find_index_spec c Hbs _ _ _ Ha) Hi).
  destruct (lookup_lt_is_Some_2 (ly_offs ly) i) as [o Ho].
  { rewrite Hl. apply lookup_lt_Some in Hi. unfold arch_ids in Hi. by rewrite fmap_length in Hi. }
  rewrite Ho. destruct IH as (os & -> & Hos); [intros; apply Hsub; by right|]. exists (o :: os). split; [done|].
  constructor; eauto.
Qed.
Lemma get_offsets_spec c a ly T : search_ok (c_bs c) → incr (arch_ids a) → length (ly_offs ly) = length a →
  (∀ t, t ∈ T → t ∈ arch_ids a) → ∃ os, get_offsets c T a ly = POk (Some os) ∧ offs_at a ly T os.
Proof.
  intros Hbs Ha Hl. induction T as [|t T IH]; intros Hsub; simpl; [exists []; split; [done|constructor]|].
  destruct (proj1 (elem_of_list_lookup _ _) (Hsub t ltac:(by left))) as [i Hi].
  rewrite (proj2 (find_index_spec c Hbs _ _ _ Ha) Hi).
  destruct (lookup_lt_is_Some_2 (ly_offs ly) i) as [o Ho].
  { rewrite Hl. apply lookup_lt_Some in Hi. unfold arch_ids in Hi. by rewrite fmap_length in Hi. }
  rewrite Ho. destruct IH as (os & -> & Hos); [intros; apply Hsub; by right|]. exists (o :: os). split; [done|].
  constructor; eauto.
Qed.
Lemma get_offsets_none c a ly T : search_ok (c_bs c) → incr (arch_ids a) → length (ly_offs ly) = length a →
  ¬ (∀ t, t ∈ T → t ∈ arch_ids a) → get_offsets c T a ly = POk None.
Proof.
  intros Hbs Ha Hl. induction T as [|t T IH]; intros Hsub; simpl.
  { destruct Hsub. intros t Ht. by apply elem_of_nil in Ht. }
  destruct (find_component_index c a t) as [i|] eqn:E; [|done].
  apply (find_index_spec c Hbs _ _ _ Ha) in E. destruct (lookup_lt_is_Some_2 (ly_offs ly) i) as [o Ho].
  { rewrite Hl. apply lookup_lt_Some in E. unfold arch_ids in E. by rewrite fmap_length in E. }
  rewrite Ho, IH; [done|]. intros H. apply Hsub. intros t' [->|Ht]%elem_of_cons; [by eapply elem_of_list_lookup_2|auto].
Qed.
Lemma ptrs_to_refs_spec ps : (∀ p, p ∈ ps → p_off p + p_size p ≤ PAGE) →
  ptrs_to_refs ps = POk ((λ p, Ref (p_page p) (p_off p) (p_size p)) <$> ps).
Proof.
  induction ps as [|p ps IH]; intros H; simpl; [done|]. unfold ptr_to_ref, in_page.
  rewrite (proj2 (N.leb_le _ _) (H p ltac:(by left))). simpl. rewrite IH; [done|]. intros; apply H. by right.
Qed.
Lemma arch_wf_lookup c a i t : arch_wf c a → arch_ids a !! i = Some t → a !! i = Some (ctype_of c t).
Proof. intros (_ & _ & ->). rewrite ctype_of_ids, list_lookup_fmap. intros ->. done. Qed.
Lemma get_refs_spec c a ly p k T os : arch_wf c a → columns a (ly_offs ly) (ly_cap ly) 0 PAGE → N.of_nat k < ly_cap ly →
  offs_at a ly T os → ∃ rs, get_refs c p k T os = POk rs ∧ refs_at c a ly p k T rs.
Proof.
  intros Hwf Hc Hk Hos. unfold get_refs. rewrite ptrs_to_refs_spec.
  - eexists. split; [done|]. unfold refs_at, add_to_ptrs, get_ptrs. rewrite <- list_fmap_compose.
    induction Hos as [|t o T os (i & Hi & Ho) Hos IH]; simpl; constructor; [|done].
    exists i, o. split_and!; [done|done|]. unfold off_at, data_off. simpl. f_equal. lia.
  - unfold add_to_ptrs, get_ptrs. intros q (q' & -> & (i & (t & o & -> & Ht & Ho)%lookup_zip_with_Some)%elem_of_list_lookup)%elem_of_list_fmap.
    simpl. destruct (Forall2_lookup_lr _ _ _ _ _ _ Hos Ht Ho) as (j & Hj & Hoj).
    pose proof (arch_wf_lookup _ _ _ _ Hwf Hj) as Hx.
    pose proof (columns_in _ _ _ _ _ _ _ _ Hc Hx Hoj Hk) as (_ & _ & H). unfold off_at, data_off in *. simpl in *. lia.
Qed.

(** ** References into a location *)
Definition at_loc (c : cfg) (s : ac) (p k : nat) (T : list tid) (rs : list cref) : Prop :=
  ∃ a ly, page_arch s p = Some (a, ly) ∧ refs_at c a ly p k T rs.
Lemma loc_page c s p k id m : ac_inv c s → loc s p k = Some (id, m) → ∃ pg i a ly,
  ac_pages s !! p = Some pg ∧ ac_p2a s !! p = Some i ∧ ac_archs s !! i = Some a ∧ ac_layouts s !! i = Some ly ∧
  page_arch s p = Some (a, ly) ∧ arch_wf c a ∧ columns a (ly_offs ly) (ly_cap ly) 0 PAGE ∧ N.of_nat k < ly_cap ly ∧
  pg_ids pg !! k = Some id ∧ m = row_map a (ly_offs ly) (pg_mem pg) k ∧ page_view_unchecked s p = POk (View a ly p) ∧
  (N.of_nat (length (pg_ids pg)) ≤ ly_cap ly).
Proof.
  intros Hi (pg & i & a & ly & Hp & H1 & Ha & Hly & Hk & ->)%loc_Some.
  assert (pg_ids pg ≠ []) as Hne by (intros Hn; by rewrite Hn in Hk).
  pose proof (ac_rows _ _ Hi _ _ _ _ Hp H1 Hly Hne) as Hr. pose proof (lookup_lt_Some _ _ _ Hk).
  destruct (ac_arch_ok _ _ Hi _ _ _ Ha Hly) as (Hwf & Hc & _).
  exists pg, i, a, ly. split_and!; try done; try lia.
  - unfold page_arch. by rewrite H1, Ha, Hly.
  - unfold page_view_unchecked, arch_with_layout_unchecked, vget_unchecked. rewrite H1. simpl. rewrite Ha, Hly. simpl. by rewrite Hp.
Qed.
Lemma view_refs_spec c s p k id m T : search_ok (c_bs c) → ac_inv c s → loc s p k = Some (id, m) →
  ∃ v, page_view_unchecked s p = POk v ∧
    ((∀ t, t ∈ T → is_Some (m !! t)) →
      ∃ rs, view_refs c v k T = POk (Some rs) ∧ view_refs_unchecked c v k T = POk rs ∧ at_loc c s p k T rs) ∧
    (¬ (∀ t, t ∈ T → is_Some (m !! t)) → view_refs c v k T = POk None).
Proof.
  intros Hbs Hi Hl. destruct (loc_page _ _ _ _ _ _ Hi Hl) as (pg & i & a & ly & Hp & H1 & Ha & Hly & Hpa & Hwf & Hc & Hk & Hid & Hm & Hv & _).
  eexists. split; [exact Hv|]. pose proof (loc_dom _ _ _ _ _ _ _ _ Hi Hl H1 Ha) as Hdom. pose proof Hc as (Hlen & _).
  pose proof (proj1 Hwf) as Hinc. unfold view_refs, view_refs_unchecked. simpl. split.
  - intros HT. assert (∀ t, t ∈ T → t ∈ arch_ids a) as Hsub by (intros t Ht; apply Hdom; auto).
    destruct (get_offsets_spec c a ly T Hbs Hinc Hlen Hsub) as (os & -> & Hos).
    destruct (get_offsets_unchecked_spec c a ly T Hbs Hinc Hlen Hsub) as (os' & -> & Hos').
    assert (os' = os) as ->.
    { clear -Hos Hos' Hinc. apply incr_nodup in Hinc. revert os' Hos'.
      induction Hos as [|t o T os (i & Hi & Ho) Hos IH]; intros os' H; inversion H as [|? o' ? os1 (j & Hj & Ho') H']; subst; [done|].
      assert (i = j) as <- by exact (NoDup_lookup _ _ _ _ Hinc Hi Hj). f_equal; [congruence|auto]. }
    destruct (get_refs_spec c a ly p k T os Hwf Hc Hk Hos) as (rs & Hrs & Hat). simpl. rewrite Hrs. simpl.
    exists rs. split_and!; [done|done|]. exists a, ly. done.
  - intros HT. rewrite get_offsets_none; [done|done|done|done|]. intros H. apply HT. intros t Ht. by apply Hdom, H.
Qed.

(** Reading gives the components of the row. *)
Lemma read_refs_spec c s p k id m T rs : ac_inv c s → loc s p k = Some (id, m) → at_loc c s p k T rs →
  Forall2 (λ t v, m !! t = Some v) T (read_ref (ac_pages s) <$> rs).
Proof.
  intros Hi Hl (a' & ly' & Hpa' & Hrs).
  destruct (loc_page _ _ _ _ _ _ Hi Hl) as (pg & i & a & ly & Hp & H1 & Ha & Hly & Hpa & Hwf & Hc & Hk & Hid & Hm & Hv & _).
  rewrite Hpa in Hpa'. injection Hpa' as <- <-. unfold refs_at in Hrs. clear Hv Hl.
  induction Hrs as [|t r T rs (j & o & Hj & Ho & ->) Hrs IH]; simpl; constructor; [|done].
  unfold read_ref. simpl. rewrite Hp, Hm. apply row_map_lookup; [apply incr_nodup, Hwf|apply Hc|].
  exists j, (ctype_of c t), o. split_and!; try done. by apply arch_wf_lookup.
Qed.

(** Assigning changes that row only. *)
Record rewritten (c : cfg) (s : ac) (p k : nat) (id : N) (m : gmap tid (list cell)) (s' : ac) : Prop := Rewritten {
  rw_inv : ac_inv c s';
  rw_same : loc s' p k = Some (id, m);
  rw_loc : ∀ p' k', (p', k') ≠ (p, k) → loc s' p' k' = loc s p' k';
  rw_pages : ∀ p' pg, ac_pages s !! p' = Some pg → ∃ pg', ac_pages s' !! p' = Some pg' ∧ pg_ids pg' = pg_ids pg ∧ pg_vcap pg' = pg_vcap pg;
  rw_shape : ac_set_pages [] s' = ac_set_pages [] s;
  rw_len : length (ac_pages s') = length (ac_pages s);
}.
Lemma shape_arch s s' : ac_set_pages [] s' = ac_set_pages [] s → page_arch s' = page_arch s.
Proof. destruct s, s'; unfold ac_set_pages; simpl; intros [= -> -> -> -> -> ->]. done. Qed.
Lemma pages_shape s s' : ac_set_pages [] s' = ac_set_pages [] s → s' = ac_set_pages (ac_pages s') s.
Proof. destruct s, s'; unfold ac_set_pages; simpl; intros [= -> -> -> -> -> ->]. done. Qed.

Lemma write_ref_spec c s p k id m t r v : ac_inv c s → loc s p k = Some (id, m) → at_loc c s p k [t] [r] →
  N.of_nat (length v) = ti_size (c_ty c t) →
  rewritten c s p k id (<[t := Some <$> v]> m) (ac_set_pages (write_ref (ac_pages s) r v) s).
Proof.
  intros Hi Hl (a' & ly' & Hpa' & Hr) Hv. apply Forall2_cons in Hr as [(j & o & Hj & Ho & ->) _].
  destruct (loc_page _ _ _ _ _ _ Hi Hl) as (pg & i & a & ly & Hp & H1 & Ha & Hly & Hpa & Hwf & Hc & Hk & Hid & Hm & _ & Hrow).
  rewrite Hpa in Hpa'. injection Hpa' as <- <-. unfold write_ref. simpl. rewrite Hp.
  set (pg' := Page _ _ _). pose proof (lookup_lt_Some _ _ _ Hp) as Hplt. pose proof (arch_wf_lookup _ _ _ _ Hwf Hj) as Hx.
  pose proof (incr_nodup _ (proj1 Hwf)) as Hnd. pose proof (proj1 Hc) as Hlen.
  set (s' := ac_set_pages (<[p:=pg']> (ac_pages s)) s).
  assert (ac_pages s' !! p = Some pg') as Hp' by by apply list_lookup_insert.
  assert (ac_inv c s') as Hi'.
  { pose proof Hi as Hi0. destruct Hi; split; simpl; rewrite ?insert_length; try done.
    - intros q Hq. destruct (ac_free_empty _ Hq) as (pgq & Hpgq & Hnil). exists pgq. split; [|done].
      rewrite list_lookup_insert_ne; [done|]. intros <-. assert (pgq = pg) as -> by congruence. by rewrite Hnil in Hid.
    - intros q pgq Hq Hnq. destruct (decide (q = p)) as [->|Hqp].
      + apply (ac_used _ _ Hp). intros Hn. by rewrite Hn in Hid.
      + rewrite list_lookup_insert_ne in Hq by done. eauto.
    - intros q pgq l lj Hq Hlq Hlj Hnq. destruct (decide (q = p)) as [->|Hqp].
      + rewrite list_lookup_insert in Hq by done. injection Hq as <-. simplify_eq. done.
      + rewrite list_lookup_insert_ne in Hq by done. eauto. }
  assert (∀ l y u b, (l < length (pg_ids pg))%nat → ∀ n, a !! n = Some y → ly_offs ly !! n = Some u →
    in_rng (off_at l y u) (ct_size y) b → (n, l) ≠ (j, k) → pg_mem pg' b = pg_mem pg b) as Hother.
  { intros l y u b Hl' n Hy Hu Hb Hne. apply mwrite_out. rewrite fmap_length, Hv. intros Hb'. apply Hne.
    destruct (columns_disj _ _ _ _ _ _ _ l _ _ _ k b Hc Hy Hu Hx Ho) as [-> ->]; try done. lia. }
  split; [done| | | |done|simpl; by rewrite insert_length].
  - apply loc_Some. exists pg', i, a, ly. split_and!; try done. rewrite Hm. apply map_eq. intros t'. symmetry.
    destruct (decide (t' = t)) as [->|Hne].
    + rewrite lookup_insert. apply row_map_lookup; [done|done|]. exists j, (ctype_of c t), o. split_and!; try done.
      simpl. symmetry. apply mread_mwrite. by rewrite fmap_length.
    + rewrite lookup_insert_ne by done. apply option_eq. intros w. rewrite !row_map_lookup by done.
      assert (∀ n y u, a !! n = Some y → ly_offs ly !! n = Some u → t' = ct_id y →
        mread (pg_mem pg') (off_at k y u) (ct_size y) = mread (pg_mem pg) (off_at k y u) (ct_size y)) as Hsame.
      { intros n y u Hy Hu ->. apply mread_ext. intros b Hb. eapply (Hother k y u b); try done.
        - by eapply lookup_lt_Some.
        - intros [= ->]. rewrite Hx in Hy. by injection Hy as <-. }
      split; intros (n & y & u & Hy & Hu & Ht & ->); exists n, y, u; (split_and!; try done); first [by eapply Hsame|symmetry; by eapply Hsame].
  - intros q l Hne. unfold loc. change (page_arch s' q) with (page_arch s q). destruct (decide (q = p)) as [->|Hqp].
    + rewrite Hp', Hp, Hpa. simpl. destruct (pg_ids pg !! l) as [idl|] eqn:El; [|done]. do 2 f_equal.
      apply row_map_eq; [done|done|]. intros n y u b Hy Hu Hb. eapply (Hother l y u _); try done.
      * by eapply lookup_lt_Some.
      * unfold in_rng. lia.
      * congruence.
    + simpl. by rewrite list_lookup_insert_ne.
  - intros q pgq Hq. destruct (decide (q = p)) as [->|Hqp].
    + exists pg'. assert (pgq = pg) as -> by congruence. done.
    + exists pgq. split; [|done]. simpl. by rewrite list_lookup_insert_ne.
Qed.
Lemma assign_spec c p k id T rs : ∀ vs s m, ac_inv c s → loc s p k = Some (id, m) → at_loc c s p k T rs →
  length vs = length T → vals_ok c (zip T vs) →
  rewritten c s p k id (put (zip T vs) m) (ac_set_pages (assign_to_refs (ac_pages s) rs vs) s).
Proof.
  revert rs. induction T as [|t T IH]; intros rs [|v vs] s m Hi Hl Hat Hlen Hok; simpl in *; try done.
  - assert (ac_set_pages (assign_to_refs (ac_pages s) rs []) s = s) as -> by (destruct rs; by destruct s).
    split; try done. intros p' pg Hp. eauto.
  - destruct Hat as (a & ly & Hpa & Hrs). inversion Hrs as [|? r ? rs' Hr Hrs']; subst.
    assert (rewritten c s p k id (<[t := Some <$> v]> m) (ac_set_pages (write_ref (ac_pages s) r v) s)) as H1.
    { apply (write_ref_spec c s p k id m t r v); [done|done| |apply Hok; by left]. exists a, ly. split; [done|]. by repeat constructor. }
    set (s1 := ac_set_pages (write_ref (ac_pages s) r v) s) in *.
    assert (rewritten c s1 p k id (put (zip T vs) (<[t := Some <$> v]> m)) (ac_set_pages (assign_to_refs (ac_pages s1) rs' vs) s1)) as H2.
    { apply IH; [apply H1|apply H1| |lia|].
      - exists a, ly. split; [|done]. rewrite (shape_arch s); [done|]. apply H1.
      - intros t' v' Hin. apply Hok. by right. }
    split; [apply H2|apply H2| | | |].
    + intros p' k' Hne. rewrite (rw_loc _ _ _ _ _ _ _ H2) by done. by apply H1.
    + intros p' pg Hp. destruct (rw_pages _ _ _ _ _ _ _ H1 _ _ Hp) as (pg1 & Hp1 & <- & <-).
      apply (rw_pages _ _ _ _ _ _ _ H2 _ _ Hp1).
    + done.
    + etrans; [apply H2|apply H1].
Qed.
