(** PageP.v — component memory: reading, writing and copying rows. *)
From Verif.Model Require Export Page.
From Verif.Proofs Require Export LayoutP.
Local Open Scope N_scope.

(** ** Bytes *)
Lemma mread_length m off len : length (mread m off len) = N.to_nat len.
Proof. unfold mread. by rewrite fmap_length, seq_length. Qed.
Lemma mread_lookup m off len k : (k < N.to_nat len)%nat → mread m off len !! k = Some (m (off + N.of_nat k)).
Proof. intros H. unfold mread. rewrite list_lookup_fmap, lookup_seq_lt by done. done. Qed.
Lemma mread_ext m m' off len : (∀ b, off ≤ b < off + len → m b = m' b) → mread m off len = mread m' off len.
Proof.
  intros H. unfold mread. apply list_fmap_ext. intros i k Hk%lookup_seq. apply H. lia.
Qed.
Lemma mread_shift m m' off off' len : (∀ j, j < len → m (off + j) = m' (off' + j)) → mread m off len = mread m' off' len.
Proof. intros H. unfold mread. apply list_fmap_ext. intros i k Hk%lookup_seq. apply H. lia. Qed.
Lemma mwrite_in m off l b x : off ≤ b → l !! N.to_nat (b - off) = Some x → mwrite m off l b = x.
Proof.
  intros Hle Hl. unfold mwrite. pose proof (lookup_lt_Some _ _ _ Hl).
  assert ((off <=? b) && (b <? off + N.of_nat (length l)) = true) as ->.
  { apply andb_true_iff. split; [by apply N.leb_le|]. apply N.ltb_lt. lia. }
  by rewrite Hl.
Qed.
Lemma mwrite_out m off l b : ¬ (off ≤ b < off + N.of_nat (length l)) → mwrite m off l b = m b.
Proof.
  intros H. unfold mwrite. destruct (_ && _) eqn:E; [|done].
  apply andb_true_iff in E as [?%N.leb_le ?%N.ltb_lt]. lia.
Qed.
Lemma mwrite_copy ms md src dst len b : mwrite md dst (mread ms src len) b =
  if bool_decide (dst ≤ b < dst + len) then ms (src + (b - dst)) else md b.
Proof.
  case_bool_decide as H.
  - apply mwrite_in; [lia|]. rewrite mread_lookup by lia. do 2 f_equal. lia.
  - apply mwrite_out. rewrite mread_length. lia.
Qed.
Lemma mread_mwrite m off l len : N.of_nat (length l) = len → mread (mwrite m off l) off len = l.
Proof.
  intros <-. apply list_eq. intros i. destruct (decide (i < length l)%nat) as [Hi|Hi].
  - rewrite mread_lookup by lia. apply lookup_lt_is_Some in Hi as [x Hx]. rewrite Hx. f_equal.
    apply mwrite_in; [lia|]. by replace (N.to_nat (off + N.of_nat i - off)) with i by lia.
  - rewrite !lookup_ge_None_2; [done|lia|rewrite mread_length; lia].
Qed.
Lemma mread_mwrite_ne m off l off' len : off' + len ≤ off ∨ off + N.of_nat (length l) ≤ off' →
  mread (mwrite m off l) off' len = mread m off' len.
Proof. intros H. apply mread_ext. intros b Hb. apply mwrite_out. lia. Qed.

(** ** Sequences of copies (source offset, destination offset, length) *)
Definition in_rng (o n b : N) : Prop := o ≤ b < o + n.
Fixpoint do_copies (same : bool) (ms md : mem) (l : list (N * N * N)) : mem :=
  match l with
  | [] => md
  | (s, d, n) :: r => do_copies same ms (mwrite md d (mread (if same then md else ms) s n)) r
  end.
Lemma do_copies_spec same ms md l :
  (∀ i j s d n s' d' n' b, (i < j)%nat → l !! i = Some (s, d, n) → l !! j = Some (s', d', n') → in_rng d n b → ¬ in_rng d' n' b) →
  (same = true → ∀ s d n s' d' n' b, (s, d, n) ∈ l → (s', d', n') ∈ l → in_rng s n b → ¬ in_rng d' n' b) →
  (same = true → ∀ s d n b, (s, d, n) ∈ l → in_rng s n b → md b = ms b) →
  (∀ s d n j, (s, d, n) ∈ l → j < n → do_copies same ms md l (d + j) = ms (s + j)) ∧
  (∀ b, (∀ s d n, (s, d, n) ∈ l → ¬ in_rng d n b) → do_copies same ms md l b = md b).
Proof.
  revert md. induction l as [|[[s d] n] l IH]; intros md Hd Hsd Heq; simpl.
  - split; [by intros ???? ?%elem_of_nil|done].
  - set (md1 := mwrite md d _). destruct (IH md1) as [IH1 IH2].
    { intros i j ??????? Hij Hi Hj. apply (Hd (S i) (S j) s0 d0 n0 s' d' n'); [lia|done|done]. }
    { intros Hs ??????? H1 H2. apply (Hsd Hs s0 d0 n0 s' d' n'); by right. }
    { intros Hs s' d' n' b H1 Hb. unfold md1. rewrite mwrite_copy. rewrite bool_decide_eq_false_2.
      - apply (Heq Hs s' d' n'); [by right|done].
      - eapply (Hsd Hs s' d' n' s d n); [by right|by left|done]. }
    assert (∀ j, j < n → md1 (d + j) = ms (s + j)) as Hmd1.
    { intros j Hj. unfold md1. rewrite mwrite_copy, bool_decide_eq_true_2 by lia. replace (s + (d + j - d)) with (s + j) by lia.
      destruct same; [|done]. apply (Heq eq_refl s d n); [by left|]. unfold in_rng. lia. }
    split.
    + intros s' d' n' j Hin Hj. apply elem_of_cons in Hin as [[= -> -> ->]|Hin].
      * rewrite IH2; [by apply Hmd1|]. intros s' d' n' (i & Hi)%elem_of_list_lookup.
        apply (Hd 0%nat (S i) s d n s' d' n'); [lia|done|done|]. unfold in_rng. lia.
      * by eapply IH1.
    + intros b Hb. rewrite IH2; [|intros; eapply Hb; by right].
      unfold md1. rewrite mwrite_copy, bool_decide_eq_false_2; [done|]. apply (Hb s d n). by left.
Qed.

(** ** Columns *)
Definition off_at (k : nat) (x : ctype) (o : N) : N := data_off k o (ct_size x).
Lemma columns_tail x a o os cap lo hi : columns (x :: a) (o :: os) cap lo hi → columns a os cap lo hi.
Proof.
  intros (Hl & H1 & H2). split; [simpl in Hl; lia|]. split.
  - intros i y oy. apply (H1 (S i)).
  - intros i j y oy oj Hij. apply (H2 (S i) (S j)). lia.
Qed.
Lemma columns_in a os cap hi i x o k : columns a os cap 0 hi → a !! i = Some x → os !! i = Some o → N.of_nat k < cap →
  o ≤ off_at k x o ∧ off_at k x o + ct_size x ≤ o + ct_size x * cap ∧ off_at k x o + ct_size x ≤ hi.
Proof.
  intros (_ & H1 & _) Hx Ho Hk. destruct (H1 _ _ _ Hx Ho) as (_ & Hhi & _). unfold off_at, data_off.
  assert (ct_size x * (N.of_nat k + 1) ≤ ct_size x * cap) by (apply N.mul_le_mono_l; lia). lia.
Qed.
(** Two (row, component) pairs overlap only if they are the same. *)
Lemma columns_disj a os cap hi i x o k j y u l b : columns a os cap 0 hi →
  a !! i = Some x → os !! i = Some o → a !! j = Some y → os !! j = Some u → N.of_nat k < cap → N.of_nat l < cap →
  in_rng (off_at k x o) (ct_size x) b → in_rng (off_at l y u) (ct_size y) b → i = j ∧ k = l.
Proof.
  intros Hc Hx Ho Hy Hu Hk Hl Hb1 Hb2. unfold in_rng in *.
  pose proof (columns_in _ _ _ _ _ _ _ _ Hc Hx Ho Hk) as (A1 & A2 & _).
  pose proof (columns_in _ _ _ _ _ _ _ _ Hc Hy Hu Hl) as (B1 & B2 & _). destruct Hc as (_ & _ & H2).
  destruct (decide (i = j)) as [->|Hne].
  - split; [done|]. assert (x = y) as <- by congruence. assert (o = u) as <- by congruence.
    clear -Hb1 Hb2. unfold off_at, data_off in *. destruct (decide (k = l)); [done|].
    assert (ct_size x * (N.of_nat k + 1) ≤ ct_size x * N.of_nat l ∨ ct_size x * (N.of_nat l + 1) ≤ ct_size x * N.of_nat k) as [?|?].
    { destruct (decide (k < l)%nat); [left|right]; apply N.mul_le_mono_l; lia. }
    all: lia.
  - exfalso. destruct (decide (i < j)%nat).
    + pose proof (H2 i j _ _ _ ltac:(lia) Hx Ho Hu). lia.
    + pose proof (H2 j i _ _ _ ltac:(lia) Hy Hu Ho). lia.
Qed.

(** ** Rows *)
Definition row_map (a : archetype) (os : list N) (m : mem) (k : nat) : gmap tid (list cell) :=
  list_to_map (zip (arch_ids a) (zip_with (λ x o, mread m (off_at k x o) (ct_size x)) a os)).
Lemma arch_ids_lookup a i : arch_ids a !! i = ct_id <$> a !! i.
Proof. unfold arch_ids. apply list_lookup_fmap. Qed.
Lemma row_map_lookup a os m k t v : NoDup (arch_ids a) → length os = length a →
  row_map a os m k !! t = Some v ↔
  ∃ i x o, a !! i = Some x ∧ os !! i = Some o ∧ t = ct_id x ∧ v = mread m (off_at k x o) (ct_size x).
Proof.
  intros Hnd Hl. unfold row_map. rewrite <- elem_of_list_to_map.
  - rewrite elem_of_list_lookup. split.
    + intros (i & (t' & v' & [= <- <-] & Ht & Hv)%lookup_zip_with_Some).
      rewrite arch_ids_lookup in Ht. apply fmap_Some in Ht as (x & Hx & ->).
      apply lookup_zip_with_Some in Hv as (x' & o & -> & Hx' & Ho). assert (x' = x) as -> by congruence. eauto 10.
    + intros (i & x & o & Hx & Ho & -> & ->). exists i. apply lookup_zip_with_Some. do 2 eexists. split; [done|].
      split; [by rewrite arch_ids_lookup, Hx|]. apply lookup_zip_with_Some. eauto 10.
  - rewrite fst_zip; [done|]. rewrite zip_with_length. unfold arch_ids. rewrite fmap_length. lia.
Qed.
Lemma row_map_dom a os m k t : NoDup (arch_ids a) → length os = length a →
  is_Some (row_map a os m k !! t) ↔ t ∈ arch_ids a.
Proof.
  intros Hnd Hl. split.
  - intros (v & (i & x & o & Hx & _ & -> & _)%row_map_lookup); [|done..]. apply elem_of_list_fmap_1. by eapply elem_of_list_lookup_2.
  - intros (x & -> & (i & Hx)%elem_of_list_lookup)%elem_of_list_fmap.
    destruct (lookup_lt_is_Some_2 os i) as [o Ho]; [rewrite Hl; by eapply lookup_lt_Some|].
    eexists. apply row_map_lookup; [done|done|]. eauto 10.
Qed.
Lemma row_map_eq a os m k m' k' : NoDup (arch_ids a) → length os = length a →
  (∀ i x o j, a !! i = Some x → os !! i = Some o → j < ct_size x → m (off_at k x o + j) = m' (off_at k' x o + j)) →
  row_map a os m k = row_map a os m' k'.
Proof.
  intros Hnd Hl H. apply map_eq. intros t. apply option_eq. intros v. rewrite !row_map_lookup by done.
  split; intros (i & x & o & Hx & Ho & -> & ->); exists i, x, o; (split_and!; [done..|]); [|symmetry];
    apply mread_shift; eauto.
Qed.

(** ** Moving a row inside a page *)
Lemma move_component_eq ms m src dst a os cap : columns a os cap 0 PAGE → N.of_nat src < cap → N.of_nat dst < cap →
  src ≠ dst →
  move_component_data m src dst a os =
  POk (do_copies true ms m (zip_with (λ x o, (off_at src x o, off_at dst x o, ct_size x)) a os)).
Proof.
  intros Hc Hs Hd Hne. revert m os Hc.
  induction a as [|x a IH]; intros m [|o os] Hc; simpl; try done.
  { destruct Hc as [Hc _]. done. }
  pose proof (columns_in _ _ _ _ 0%nat x o _ Hc eq_refl eq_refl Hs) as (A1 & A2 & A3).
  pose proof (columns_in _ _ _ _ 0%nat x o _ Hc eq_refl eq_refl Hd) as (B1 & B2 & B3).
  fold (off_at src x o) (off_at dst x o). unfold copy_same, in_page.
  apply N.leb_le in A3, B3. rewrite A3, B3. simpl.
  assert ((off_at src x o + ct_size x <=? off_at dst x o) || (off_at dst x o + ct_size x <=? off_at src x o) = true) as ->.
  { apply orb_true_iff. rewrite !N.leb_le. unfold off_at, data_off.
    assert (ct_size x * (N.of_nat src + 1) ≤ ct_size x * N.of_nat dst ∨ ct_size x * (N.of_nat dst + 1) ≤ ct_size x * N.of_nat src) as [?|?].
    { destruct (decide (src < dst)%nat); [left|right]; apply N.mul_le_mono_l; lia. }
    all: lia. }
  simpl. unfold mbind, pres_bind. apply IH. by eapply columns_tail.
Qed.
Lemma move_component_spec m src dst a os cap : NoDup (arch_ids a) → columns a os cap 0 PAGE →
  N.of_nat src < cap → N.of_nat dst < cap → src ≠ dst →
  ∃ m', move_component_data m src dst a os = POk m' ∧ row_map a os m' dst = row_map a os m src ∧
    ∀ k, N.of_nat k < cap → k ≠ dst → row_map a os m' k = row_map a os m k.
Proof.
  intros Hnd Hc Hs Hd Hne. rewrite (move_component_eq m _ _ _ _ _ _ Hc Hs Hd Hne). eexists. split; [done|].
  set (l := zip_with _ _ _).
  assert (∀ i t, l !! i = Some t ↔ ∃ x o, t = (off_at src x o, off_at dst x o, ct_size x) ∧ a !! i = Some x ∧ os !! i = Some o) as Hl.
  { intros i t. unfold l. rewrite lookup_zip_with_Some. done. }
  destruct (do_copies_spec true m m l) as [H1 H2].
  { intros i j ??????? Hij (x & o & [= -> -> ->] & Hx & Ho)%Hl (y & u & [= -> -> ->] & Hy & Hu)%Hl Hb Hb'.
    destruct (columns_disj _ _ _ _ _ _ _ _ _ _ _ _ _ Hc Hx Ho Hy Hu Hd Hd Hb Hb'). lia. }
  { intros _ ???????. intros (i & (x & o & [= -> -> ->] & Hx & Ho)%Hl)%elem_of_list_lookup (j & (y & u & [= -> -> ->] & Hy & Hu)%Hl)%elem_of_list_lookup Hb Hb'.
    destruct (columns_disj _ _ _ _ _ _ _ _ _ _ _ _ _ Hc Hx Ho Hy Hu Hs Hd Hb Hb'). lia. }
  { done. }
  pose proof Hc as (Hlen & _). split.
  - apply row_map_eq; [done|done|]. intros i x o j Hx Ho Hj. eapply (H1 _ _ (ct_size x)); [|done].
    apply elem_of_list_lookup. exists i. apply Hl. eauto.
  - intros k Hk Hkd. apply row_map_eq; [done|done|]. intros i x o j Hx Ho Hj. apply H2.
    intros s d n (i' & (y & u & [= -> -> ->] & Hy & Hu)%Hl)%elem_of_list_lookup Hb.
    assert (in_rng (off_at k x o) (ct_size x) (off_at k x o + j)) as Hb' by (unfold in_rng; lia).
    destruct (columns_disj _ _ _ _ _ _ _ _ _ _ _ _ _ Hc Hx Ho Hy Hu Hk Hd Hb' Hb). lia.
Qed.

(** ** Copying the common components between pages *)
Definition pair_copy (si di : nat) (sa da : archetype) (so d_o : list N) (p : nat * nat) : option (N * N * N) :=
  o ← so !! p.1; x ← sa !! p.1; u ← d_o !! p.2; y ← da !! p.2;
  Some (off_at si x o, off_at di y u, ct_size y).
Lemma set_mem_id pg : Page (pg_ids pg) (pg_vcap pg) (pg_mem pg) = pg.
Proof. by destruct pg. Qed.

(** Same page or not, source and destination pages as they were before. *)
Lemma copy_common_eq pages sp dp si di sa da sl dl pairs ps pd l same :
  same = Nat.eqb sp dp →
  pages !! dp = Some pd → (same = false → pages !! sp = Some ps) → 
  Forall2 (λ p t, pair_copy si di sa da (ly_offs sl) (ly_offs dl) p = Some t) pairs l →
  (∀ s d n, (s, d, n) ∈ l → s + n ≤ PAGE ∧ d + n ≤ PAGE ∧ (same = true → s + n ≤ d ∨ d + n ≤ s)) →
  (∀ x y sx dy, (x, y) ∈ pairs → sa !! x = Some sx → da !! y = Some dy → ct_size sx = ct_size dy) →
  copy_common pages sp dp si di sa da sl dl pairs =
  POk (<[dp := Page (pg_ids pd) (pg_vcap pd) (do_copies same (pg_mem ps) (pg_mem pd) l)]> pages).
Proof.
  intros Hsame Hdp Hsp Hl. revert pages pd Hdp Hsp.
  induction Hl as [|[x y] [[s d] n] pairs l Hp Hl IH]; intros pages pd Hdp Hsp Hin Hsz; simpl.
  - by rewrite set_mem_id, list_insert_id.
  - unfold pair_copy in Hp. simpl in Hp.
    destruct (ly_offs sl !! x) as [o|]; [|done]. destruct (sa !! x) as [cx|] eqn:Ex; [|done].
    destruct (ly_offs dl !! y) as [u|]; [|done]. destruct (da !! y) as [cy|] eqn:Ey; [|done].
    simpl in Hp. injection Hp as <- <- <-.
    assert (ct_size cx = ct_size cy) as Hcs by (eapply Hsz; [by left|done|done]).
    destruct (Hin _ _ _ ltac:(by left)) as (H1 & H2 & H3). fold (off_at si cx o) (off_at di cy u).
    unfold pages_copy. rewrite Hdp.
    assert (∃ ps0, pages !! sp = Some ps0 ∧ pg_mem ps0 = if same then pg_mem pd else pg_mem ps) as (ps0 & Hps0 & Hm0).
    { destruct same.
      - symmetry in Hsame. apply Nat.eqb_eq in Hsame as ->. eauto.
      - exists ps. eauto. }
    rewrite Hps0, <- Hsame. unfold copy_same, copy_across, in_page. apply N.leb_le in H1, H2. rewrite H1, H2. simpl.
    set (m1 := mwrite (pg_mem pd) (off_at di cy u) (mread (if same then pg_mem pd else pg_mem ps) (off_at si cx o) (ct_size cy))).
    assert (∀ K : mem → pres (list page), (m ← (if same then
        (if (off_at si cx o + ct_size cy <=? off_at di cy u) || (off_at di cy u + ct_size cy <=? off_at si cx o)
         then POk (mwrite (pg_mem ps0) (off_at di cy u) (mread (pg_mem ps0) (off_at si cx o) (ct_size cy))) else PUB OverlappingCopy)
        else POk (mwrite (pg_mem pd) (off_at di cy u) (mread (pg_mem ps0) (off_at si cx o) (ct_size cy)))); K m) = K m1) as HK.
    { intros K. rewrite Hm0. unfold m1. destruct same; [|done]. destruct (H3 eq_refl) as [H4|H4]; apply N.leb_le in H4; rewrite H4, ?orb_true_r; done. }
    rewrite HK. simpl. unfold mbind, pres_bind. simpl.
    set (pd1 := Page (pg_ids pd) (pg_vcap pd) m1).
    rewrite (IH _ pd1).
    + simpl. by rewrite list_insert_insert.
    + apply list_lookup_insert. by eapply lookup_lt_Some.
    + intros ->. symmetry in Hsame. apply Nat.eqb_neq in Hsame. rewrite list_lookup_insert_ne by done. auto.
    + intros s d n Hin'. apply Hin. by right.
    + intros x' y' ?? Hin'. apply Hsz. by right.
Qed.

Lemma forall2_some {A B} (f : A → option B) l : (∀ x, x ∈ l → is_Some (f x)) → ∃ l', Forall2 (λ x y, f x = Some y) l l'.
Proof.
  induction l as [|x l IH]; intros H; [by exists []|]. destruct (H x ltac:(by left)) as [y Hy].
  destruct IH as [l' Hl']; [intros; apply H; by right|]. exists (y :: l'). by constructor.
Qed.
Definition sizes_agree (a b : archetype) : Prop := ∀ x y, x ∈ a → y ∈ b → ct_id x = ct_id y → ct_size x = ct_size y.

Lemma copy_component_spec pages sp dp si di sa da sl dl ps pd :
  incr (arch_ids sa) → incr (arch_ids da) → sizes_agree sa da →
  columns sa (ly_offs sl) (ly_cap sl) 0 PAGE → columns da (ly_offs dl) (ly_cap dl) 0 PAGE →
  N.of_nat si < ly_cap sl → N.of_nat di < ly_cap dl → pages !! sp = Some ps → pages !! dp = Some pd →
  (sp = dp → sa = da ∧ sl = dl ∧ si ≠ di) →
  ∃ m', copy_component_data pages sp dp si di sa da sl dl = POk (<[dp := Page (pg_ids pd) (pg_vcap pd) m']> pages) ∧
    (∀ t v, row_map sa (ly_offs sl) (pg_mem ps) si !! t = Some v → t ∈ arch_ids da →
       row_map da (ly_offs dl) m' di !! t = Some v) ∧
    (∀ k, N.of_nat k < ly_cap dl → k ≠ di → row_map da (ly_offs dl) m' k = row_map da (ly_offs dl) (pg_mem pd) k).
Proof.
  intros Hsa Hda Hsz Hcs Hcd Hsi Hdi Hps Hpd Hsame.
  unfold copy_component_data. destruct (arch_union_spec sa da Hsa Hda) as (Hlen & Hnd & Hu).
  destruct (arch_union sa da) as [ls rs]. simpl in Hlen, Hnd, Hu. set (pairs := zip ls rs) in *.
  pose proof (incr_nodup _ Hsa) as Hnds. pose proof (incr_nodup _ Hda) as Hndd.
  pose proof Hcs as (Hls & _). pose proof Hcd as (Hld & _).
  assert (∀ x y, (x, y) ∈ pairs → ∃ cx cy o u, sa !! x = Some cx ∧ da !! y = Some cy ∧ ly_offs sl !! x = Some o ∧
    ly_offs dl !! y = Some u ∧ ct_id cx = ct_id cy ∧ ct_size cx = ct_size cy) as Hpairs.
  { intros x y (t & Hx & Hy)%Hu. rewrite arch_ids_lookup in Hx, Hy.
    apply fmap_Some in Hx as (cx & Hx & ->), Hy as (cy & Hy & Heq).
    destruct (lookup_lt_is_Some_2 (ly_offs sl) x) as [o Ho]; [rewrite Hls; by eapply lookup_lt_Some|].
    destruct (lookup_lt_is_Some_2 (ly_offs dl) y) as [u Hu']; [rewrite Hld; by eapply lookup_lt_Some|].
    exists cx, cy, o, u. split_and!; try done. apply Hsz; [by eapply elem_of_list_lookup_2..|done]. }
  destruct (forall2_some (pair_copy si di sa da (ly_offs sl) (ly_offs dl)) pairs) as [l Hl].
  { intros [x y] (cx & cy & o & u & Hx & Hy & Ho & Hu' & _)%Hpairs. unfold pair_copy. simpl. rewrite Ho, Hx. simpl. rewrite Hu', Hy. simpl. eauto. }
  assert (∀ i s d n, l !! i = Some (s, d, n) → ∃ x y cx cy o u, pairs !! i = Some (x, y) ∧ sa !! x = Some cx ∧ da !! y = Some cy ∧
    ly_offs sl !! x = Some o ∧ ly_offs dl !! y = Some u ∧ ct_id cx = ct_id cy ∧ ct_size cx = ct_size cy ∧
    s = off_at si cx o ∧ d = off_at di cy u ∧ n = ct_size cy) as Hlk.
  { intros i s d n Hi. destruct (Forall2_lookup_r _ _ _ _ _ Hl Hi) as ([x y] & Hp & Hpc).
    destruct (Hpairs x y) as (cx & cy & o & u & Hx & Hy & Ho & Hu' & Hid & Hs); [by eapply elem_of_list_lookup_2|].
    unfold pair_copy in Hpc. simpl in Hpc. rewrite Ho, Hx in Hpc. simpl in Hpc. rewrite Hu', Hy in Hpc. simpl in Hpc.
    injection Hpc as <- <- <-. exists x, y, cx, cy, o, u. done. }
  assert (∀ i j x x' y, pairs !! i = Some (x, y) → pairs !! j = Some (x', y) → i = j) as Hinj.
  { intros i j x x' y Hi Hj. assert (x = x') as <-.
    - apply elem_of_list_lookup_2, Hu in Hi as (t & Hx & Hy), Hj as (t' & Hx' & Hy').
      assert (t = t') as <- by congruence. exact (NoDup_lookup _ _ _ _ Hnds Hx Hx').
    - exact (NoDup_lookup _ _ _ _ Hnd Hi Hj). }
  rewrite (copy_common_eq _ _ _ _ _ _ _ _ _ _ ps pd l (Nat.eqb sp dp)); [|done|done|done|done| |].
  2:{ intros s d n (i & (x & y & cx & cy & o & u & Hp & Hx & Hy & Ho & Hu' & Hid & Hs & -> & -> & ->)%Hlk)%elem_of_list_lookup.
      pose proof (columns_in _ _ _ _ _ _ _ _ Hcs Hx Ho Hsi) as (A1 & A2 & A3).
      pose proof (columns_in _ _ _ _ _ _ _ _ Hcd Hy Hu' Hdi) as (B1 & B2 & B3). rewrite Hs in A3.
      split_and!; [done|done|]. intros (-> & -> & Hne)%Nat.eqb_eq%Hsame.
      assert (x = y) as ->.
      { eapply (NoDup_lookup (arch_ids da)); [done| |]; rewrite arch_ids_lookup; [rewrite Hx|rewrite Hy]; simpl; [reflexivity|by rewrite Hid]. }
      assert (cx = cy) as -> by congruence. assert (o = u) as -> by congruence. unfold off_at, data_off.
      assert (ct_size cy * (N.of_nat si + 1) ≤ ct_size cy * N.of_nat di ∨ ct_size cy * (N.of_nat di + 1) ≤ ct_size cy * N.of_nat si) as [?|?].
      { destruct (decide (si < di)%nat); [left|right]; apply N.mul_le_mono_l; lia. }
      all: lia. }
  2:{ intros x y sx dy Hp Hx Hy. destruct (Hpairs _ _ Hp) as (cx & cy & o & u & Hx' & Hy' & _ & _ & _ & Hs). congruence. }
  eexists. split; [done|].
  destruct (do_copies_spec (Nat.eqb sp dp) (pg_mem ps) (pg_mem pd) l) as [H1 H2].
  { intros i j ??????? Hij (x & y & cx & cy & o & u & Hp & Hx & Hy & Ho & Hu' & Hid & Hs & -> & -> & ->)%Hlk
      (x1 & y1 & cx1 & cy1 & o1 & u1 & Hp1 & Hx1 & Hy1 & Ho1 & Hu1 & Hid1 & Hs1 & -> & -> & ->)%Hlk Hb Hb'.
    destruct (columns_disj _ _ _ _ _ _ _ _ _ _ _ _ _ Hcd Hy Hu' Hy1 Hu1 Hdi Hdi Hb Hb') as [-> _].
    pose proof (Hinj _ _ _ _ _ Hp Hp1). lia. }
  { intros (-> & -> & Hne)%Nat.eqb_eq%Hsame. intros ???????.
    intros (i & (x & y & cx & cy & o & u & Hp & Hx & Hy & Ho & Hu' & Hid & Hs & -> & -> & ->)%Hlk)%elem_of_list_lookup.
    intros (j & (x1 & y1 & cx1 & cy1 & o1 & u1 & Hp1 & Hx1 & Hy1 & Ho1 & Hu1 & Hid1 & Hs1 & -> & -> & ->)%Hlk)%elem_of_list_lookup Hb Hb'.
    rewrite <- Hs in Hb. destruct (columns_disj _ _ _ _ _ _ _ _ _ _ _ _ _ Hcd Hx Ho Hy1 Hu1 Hsi Hdi Hb Hb'). lia. }
  { intros Heq%Nat.eqb_eq. rewrite Heq in *. intros. congruence. }
  split.
  - intros t v (i & x & o & Hx & Ho & -> & ->)%row_map_lookup Hin; [|done..].
    apply elem_of_list_lookup in Hin as (j & Hj).
    assert ((i, j) ∈ pairs) as Hp. { apply Hu. exists (ct_id x). rewrite arch_ids_lookup, Hx. done. }
    destruct (Hpairs _ _ Hp) as (cx & cy & o' & u & Hx' & Hy & Ho' & Hu' & Hid & Hs).
    assert (cx = x) as -> by congruence. assert (o' = o) as -> by congruence.
    apply row_map_lookup; [done|done|]. exists j, cy, u. split_and!; [done..|]. rewrite Hs.
    apply mread_shift. intros b Hb. symmetry. eapply (H1 _ _ (ct_size cy)); [|done].
    apply elem_of_list_lookup in Hp as (k & Hk). destruct (Forall2_lookup_l _ _ _ _ _ Hl Hk) as ([[s d] n] & Hlk' & Hpc).
    apply elem_of_list_lookup. exists k. rewrite Hlk'. f_equal.
    unfold pair_copy in Hpc. simpl in Hpc. rewrite Ho, Hx in Hpc. simpl in Hpc. rewrite Hu', Hy in Hpc. simpl in Hpc. congruence.
  - intros k Hk Hkd. apply row_map_eq; [done|done|]. intros i x o j Hx Ho Hj. apply H2.
    intros s d n (i' & (x1 & y & cx & cy & o1 & u & Hp & Hx1 & Hy & Ho1 & Hu' & Hid & Hs & -> & -> & ->)%Hlk)%elem_of_list_lookup Hb.
    assert (in_rng (off_at k x o) (ct_size x) (off_at k x o + j)) as Hb' by (unfold in_rng; lia).
    destruct (columns_disj _ _ _ _ _ _ _ _ _ _ _ _ _ Hcd Hx Ho Hy Hu' Hk Hdi Hb' Hb). lia.
Qed.
