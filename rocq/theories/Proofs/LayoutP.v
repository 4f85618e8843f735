(** LayoutP.v — page layouts. *)
From Verif.Proofs Require Export ArchP.
Local Open Scope N_scope.

Lemma align_up_spec o al : 0 < al → o ≤ align_up o al ∧ align_up o al < o + al ∧ (al | align_up o al).
Proof.
  intros H. unfold align_up. pose proof (N.mod_lt o al ltac:(lia)) as Hlt. pose proof (N.div_mod o al ltac:(lia)) as Hdm.
  destruct (N.eqb_spec (o mod al) 0) as [E|E].
  - split_and!; [lia|lia|]. apply N.mod_divide; [lia|done].
  - revert Hdm E Hlt. generalize (o mod al) as m, (o / al) as q. intros m q Hdm E Hlt.
    split_and!; [lia|lia|]. exists (q + 1). rewrite N.mul_add_distr_r, (N.mul_comm q). lia.
Qed.
Lemma align_up_mult o al : 0 < al → (al | o) → align_up o al = o.
Proof. intros H Hd. unfold align_up. apply N.mod_divide in Hd as ->; [done|lia]. Qed.

(** Columns of [cap] rows one after the other. *)
Definition columns (a : archetype) (os : list N) (cap lo hi : N) : Prop :=
  length os = length a ∧
  (∀ i x o, a !! i = Some x → os !! i = Some o → lo ≤ o ∧ o + ct_size x * cap ≤ hi ∧ (ct_align x | o)) ∧
  (∀ i j x o o', (i < j)%nat → a !! i = Some x → os !! i = Some o → os !! j = Some o' → o + ct_size x * cap ≤ o').

Lemma offsets_columns a cap o os e : Forall (λ x, 0 < ct_align x) a →
  calc_offsets_loop a cap o = (os, e) → o ≤ e ∧ columns a os cap o e.
Proof.
  intros Hal. revert o os e. induction Hal as [|x a Hx Hal IH]; intros o os e; simpl.
  - intros [= <- <-]. split; [lia|]. split; [done|]. split; intros i; intros; by rewrite lookup_nil in *.
  - destruct (calc_offsets_loop a cap _) as [os' e'] eqn:E. intros [= <- <-].
    destruct (IH _ _ _ E) as (Hle & Hlen & H1 & H2). destruct (align_up_spec o (ct_align x) Hx) as (Hu1 & Hu2 & Hu3).
    split; [lia|]. split; [simpl; lia|]. split.
    + intros [|i] y oi; simpl.
      * intros [= <-] [= <-]. split_and!; [lia|lia|done].
      * intros Hy Ho. destruct (H1 _ _ _ Hy Ho) as (? & ? & ?). split_and!; [lia|lia|done].
    + intros [|i] [|j] y oi oj Hij; try lia; simpl.
      * intros [= <-] [= <-] Hj. destruct (lookup_lt_is_Some_2 a j) as [y Hy].
        { rewrite <- Hlen. by eapply lookup_lt_Some. }
        destruct (H1 _ _ _ Hy Hj). lia.
      * intros Hy Ho Hj. eapply (H2 i j); eauto with lia.
Qed.

Lemma layout_new_inv md a ly : layout_new md a = POk ly →
  calc_capacity md a = POk (ly_cap ly) ∧ ∃ e, calc_offsets_loop a (ly_cap ly) 0 = (ly_offs ly, e) ∧ e ≤ PAGE.
Proof.
  unfold layout_new, calc_offsets, mbind, pres_bind, assertP. destruct (calc_capacity md a) as [cap| |]; try done.
  destruct (calc_offsets_loop a cap 0) as [os e] eqn:E. destruct (N.leb_spec e PAGE); try done.
  intros [= <-]. simpl. eauto.
Qed.
Lemma layout_columns md a ly : Forall (λ x, 0 < ct_align x) a → layout_new md a = POk ly →
  columns a (ly_offs ly) (ly_cap ly) 0 PAGE.
Proof.
  intros Hal (_ & e & He & Hle)%layout_new_inv. apply offsets_columns in He as (_ & Hl & H1 & H2); [|done].
  split; [done|]. split; [|done]. intros i x o Hx Ho. destruct (H1 _ _ _ Hx Ho) as (? & ? & ?). split_and!; [lia|lia|done].
Qed.

Lemma layout_good md a ly : Forall rust_type a → layout_new md a = POk ly →
  (∀ i k b, owns a ly i k b → b < PAGE) ∧
  (∀ i k j l b, owns a ly i k b → owns a ly j l b → i = j ∧ k = l) ∧
  (∀ i x o k, a !! i = Some x → ly_offs ly !! i = Some o → (ct_align x | o + ct_size x * k)) ∧
  length (ly_offs ly) = length a.
Proof.
  intros Hty Hly. assert (Forall (λ x, 0 < ct_align x) a) as Hal.
  { eapply Forall_impl; [exact Hty|]. by intros x [? _]. }
  destruct (layout_columns _ _ _ Hal Hly) as (Hlen & H1 & H2).
  assert (∀ i k b x o, a !! i = Some x → ly_offs ly !! i = Some o → k < ly_cap ly →
     o + ct_size x * k ≤ b < o + ct_size x * k + ct_size x → o ≤ b < o + ct_size x * ly_cap ly) as Hcol.
  { intros i k b x o Hx Ho Hk Hb. split; [lia|]. assert (ct_size x * (k + 1) ≤ ct_size x * ly_cap ly); [|lia].
    apply N.mul_le_mono_l. lia. }
  assert (∀ i k j l b, (i < j)%nat → owns a ly i k b → owns a ly j l b → False) as Hij.
  { intros i k j l b Hij (x & o & Hx & Ho & Hk & Hb) (y & o' & Hy & Ho' & Hl & Hb').
    apply (Hcol i) in Hb; [|done..]. pose proof (H2 _ _ _ _ _ Hij Hx Ho Ho'). lia. }
  split_and!.
  - intros i k b (x & o & Hx & Ho & Hk & Hb). apply (Hcol i) in Hb; [|done..]. destruct (H1 _ _ _ Hx Ho). lia.
  - intros i k j l b Ho1 Ho2. destruct (decide (i = j)) as [->|Hne].
    + split; [done|]. destruct Ho1 as (x & o & Hx & Ho & Hk & Hb). destruct Ho2 as (y & o' & Hy & Ho' & Hl & Hb').
      simplify_eq. destruct (N.lt_trichotomy k l) as [Hlt|[?|Hlt]]; [|done|].
      * assert (ct_size x * (k + 1) ≤ ct_size x * l) by (apply N.mul_le_mono_l; lia). lia.
      * assert (ct_size x * (l + 1) ≤ ct_size x * k) by (apply N.mul_le_mono_l; lia). lia.
    + exfalso. destruct (decide (i < j)%nat); [by eapply (Hij i k j l)|]. eapply (Hij j l i k); [lia|done..].
  - intros i x o k Hx Ho. destruct (H1 _ _ _ Hx Ho) as (_ & _ & Hd). apply N.divide_add_r; [done|].
    apply N.divide_mul_l. rewrite Forall_lookup in Hty. by destruct (Hty _ _ Hx).
  - done.
Qed.

(** ** Which archetypes are accepted *)
Lemma foldr_max_spec x l : (∀ y, y ∈ x :: l → y ≤ foldr N.max x l) ∧ foldr N.max x l ∈ x :: l.
Proof.
  induction l as [|z l [IH1 IH2]]; simpl.
  - split; [|by left]. intros y ->%elem_of_list_singleton. lia.
  - split.
    + intros y [->|[->|Hy]%elem_of_cons]%elem_of_cons; [|lia|].
      * specialize (IH1 x ltac:(by left)). lia.
      * specialize (IH1 y ltac:(by right)). lia.
    + destruct (N.max_spec z (foldr N.max x l)) as [[_ ->]|[_ ->]].
      * apply elem_of_cons in IH2 as [->|]; [by left|]. right. by right.
      * right. by left.
Qed.
Lemma foldr_min_spec x l : (∀ y, y ∈ x :: l → foldr N.min x l ≤ y) ∧ foldr N.min x l ∈ x :: l.
Proof.
  induction l as [|z l [IH1 IH2]]; simpl.
  - split; [|by left]. intros y ->%elem_of_list_singleton. lia.
  - split.
    + intros y [->|[->|Hy]%elem_of_cons]%elem_of_cons; [|lia|].
      * specialize (IH1 x ltac:(by left)). lia.
      * specialize (IH1 y ltac:(by right)). lia.
    + destruct (N.min_spec z (foldr N.min x l)) as [[_ ->]|[_ ->]].
      * right. by left.
      * apply elem_of_cons in IH2 as [->|]; [by left|]. right. by right.
Qed.
Lemma div_all_spec row l : Forall (λ s, 0 < s) l → div_all row l = POk ((λ s, row / s) <$> l).
Proof.
  induction 1 as [|s l Hs Hl IH]; simpl; [done|]. unfold div_checked.
  destruct (N.eqb_spec s 0); [lia|]. unfold mbind, pres_bind in *. simpl. by rewrite IH.
Qed.

Lemma foldr_max_cons x l : foldr N.max x l = foldr N.max 0 (x :: l).
Proof. simpl. induction l as [|z l IH]; simpl; [lia|]. rewrite IH. lia. Qed.

Lemma capacity_spec md a : a ≠ [] → Forall (λ x, 0 < ct_size x) a →
  amax a mod PTR_SIZE ≤ PAGE / N.of_nat (length a) →
  ∃ cap, calc_capacity md a = POk cap ∧ (∀ x, x ∈ a → ct_size x * cap ≤ slice a) ∧
    (∀ m, (∀ x, x ∈ a → ct_size x * m ≤ slice a) → m ≤ cap).
Proof.
  intros Hne Hsz Hm. destruct a as [|x0 a]; [done|]. unfold calc_capacity, list_max1.
  change (ct_align <$> x0 :: a) with (ct_align x0 :: (ct_align <$> a)).
  unfold mbind at 1, pres_bind at 1. rewrite foldr_max_cons.
  change (foldr N.max 0 (ct_align x0 :: (ct_align <$> a))) with (amax (x0 :: a)).
  set (b := x0 :: a) in *. unfold div_checked. assert (N.of_nat (length b) ≠ 0) as Hl by (simpl; lia).
  apply N.eqb_neq in Hl as ->. unfold mbind at 1, pres_bind at 1. unfold usize_sub.
  apply N.leb_le in Hm as ->. unfold mbind at 1, pres_bind at 1. fold (slice b).
  rewrite div_all_spec; [|by apply Forall_fmap].
  unfold mbind, pres_bind. rewrite <- list_fmap_compose. unfold compose. unfold b at 1. simpl.
  set (q := λ y, slice b / ct_size y).
  destruct (foldr_min_spec (q x0) (q <$> a)) as [H1 H2].
  exists (foldr N.min (q x0) (q <$> a)). rewrite Forall_forall in Hsz. split; [done|]. split.
  - intros y Hy. specialize (H1 (q y)). rewrite N.mul_comm. specialize (Hsz y Hy).
    etransitivity; [apply N.mul_le_mono_r, H1|].
    + unfold b in Hy. apply elem_of_cons in Hy as [->|Hy]; [by left|]. right. by apply elem_of_list_fmap_1.
    + unfold q. rewrite N.mul_comm. apply N.mul_div_le. lia.
  - intros m Hm'. assert (∃ y, y ∈ b ∧ foldr N.min (q x0) (q <$> a) = q y) as (y & Hy & ->).
    { apply elem_of_cons in H2 as [->|(y & -> & Hy)%elem_of_list_fmap].
      - exists x0. split; [by left|done].
      - exists y. split; [by right|done]. }
    apply N.div_le_lower_bound; [specialize (Hsz y Hy); lia|]. by apply Hm'.
Qed.

Lemma loop_end_small a cap o os e s : Forall (λ x, 0 < ct_align x) a →
  (∀ x, x ∈ a → ct_size x * cap + (ct_align x - 1) ≤ s) →
  calc_offsets_loop a cap o = (os, e) → e ≤ o + N.of_nat (length a) * s.
Proof.
  intros Hal. revert o os e. induction Hal as [|x a Hx Hal IH]; intros o os e Hs; cbn [calc_offsets_loop].
  - intros [= <- <-]. simpl. lia.
  - destruct (calc_offsets_loop a cap _) as [os' e'] eqn:E. intros [= <- <-].
    apply IH in E; [|intros y Hy; apply Hs; by right].
    destruct (align_up_spec o (ct_align x) Hx) as (_ & Hu & _). specialize (Hs x ltac:(by left)).
    cbn [length]. rewrite Nat2N.inj_succ, N.mul_succ_l. lia.
Qed.
Lemma loop_end_packed a cap o os e s al : 0 < al → (al | o) →
  (∀ x, x ∈ a → ct_align x = al ∧ (al | ct_size x) ∧ ct_size x * cap ≤ s) →
  calc_offsets_loop a cap o = (os, e) → e ≤ o + N.of_nat (length a) * s.
Proof.
  intros Hal. revert o os e. induction a as [|x a IH]; intros o os e Ho Hs; cbn [calc_offsets_loop].
  - intros [= <- <-]. simpl. lia.
  - destruct (calc_offsets_loop a cap _) as [os' e'] eqn:E. intros [= <- <-].
    destruct (Hs x ltac:(by left)) as (Ha & Hd & Hx). rewrite Ha, align_up_mult in E by done.
    apply IH in E; [cbn [length]; rewrite Nat2N.inj_succ, N.mul_succ_l; lia| |intros y Hy; apply Hs; by right].
    apply N.divide_add_r; [done|]. by apply N.divide_mul_l.
Qed.

Lemma budgeted_div a : a ≠ [] → budgeted a ↔ amax a mod PTR_SIZE ≤ PAGE / N.of_nat (length a).
Proof.
  intros Hne. assert (0 < N.of_nat (length a)) as Hpos by (destruct a; [done|simpl; lia]). unfold budgeted. split.
  - intros H. apply N.div_le_lower_bound; lia.
  - intros H. pose proof (N.mul_div_le PAGE (N.of_nat (length a)) ltac:(lia)).
    transitivity (PAGE / N.of_nat (length a) * N.of_nat (length a)); [by apply N.mul_le_mono_r|lia].
Qed.
Lemma budgeted_small a : (length a ≤ 2340)%nat → budgeted a.
Proof.
  intros H. unfold budgeted. assert (amax a mod PTR_SIZE < 8) as Hm by (apply N.mod_lt; done).
  transitivity (7 * N.of_nat (length a)); [apply N.mul_le_mono_r; lia|]. unfold PAGE. lia.
Qed.
Lemma layout_accepts md a : a ≠ [] → budgeted a → Forall rust_type a → Forall (λ x, 0 < ct_size x) a →
  (∀ x, x ∈ a → ct_size x ≤ slice a) →
  (amax a < 8 ∨ ∃ al, ∀ x, x ∈ a → ct_align x = al) →
  ∃ ly, layout_new md a = POk ly ∧ 1 ≤ ly_cap ly.
Proof.
  intros Hne Hbud Hty Hsz Hfit Hcase.
  assert (0 < N.of_nat (length a)) as Hpos by (destruct a; [done|simpl; lia]).
  pose proof (proj1 (budgeted_div a Hne) Hbud) as Hrow.
  destruct (capacity_spec md a Hne Hsz ltac:(lia)) as (cap & Hcap & Hle & Hmax).
  unfold layout_new, mbind, pres_bind. rewrite Hcap. unfold calc_offsets.
  destruct (calc_offsets_loop a cap 0) as [os e] eqn:E.
  assert (e ≤ PAGE) as He.
  { assert (e ≤ 0 + N.of_nat (length a) * (PAGE / N.of_nat (length a))) as He.
    - destruct Hcase as [Hs|[al Hal]].
      + eapply loop_end_small; [| |exact E].
        * eapply Forall_impl; [exact Hty|]. by intros x [? _].
        * intros x Hx. specialize (Hle x Hx). unfold slice in Hle. rewrite (N.mod_small (amax a)) in Hle, Hrow by done.
          assert (ct_align x ≤ amax a) as Ha; [|clear -Hle Ha Hs Hrow; generalize dependent (PAGE / N.of_nat (length a)); intros q ? ?; lia]. unfold amax. clear -Hx.
          induction Hx as [x a|x y a Hx IH]; simpl; [lia|]. etransitivity; [exact IH|]. apply N.le_max_r.
      + destruct a as [|x0 a']; [done|]. pose proof (Hal x0 ltac:(by left)) as Hx0.
        rewrite Forall_forall in Hty.
        eapply (loop_end_packed _ _ _ _ _ _ al); [| | |exact E].
        * destruct (Hty x0 ltac:(by left)) as [? _]. congruence.
        * apply N.divide_0_r.
        * intros x Hx. destruct (Hty x Hx) as [_ Hd]. rewrite (Hal x Hx) in Hd. split_and!; [auto|done|].
          specialize (Hle x Hx). etransitivity; [exact Hle|]. apply N.le_sub_l.
    - pose proof (N.mul_div_le PAGE (N.of_nat (length a)) ltac:(lia)). lia. }
  unfold assertP. apply N.leb_le in He as ->. simpl. eexists. split; [done|]. simpl. apply Hmax. intros x Hx. rewrite N.mul_1_r. auto.
Qed.

Lemma align_up_round o al : 0 < al → align_up o al = (o + (al - 1)) / al * al.
Proof.
  intros Hal. unfold align_up. pose proof (N.div_mod o al ltac:(lia)) as Hd. pose proof (N.mod_lt o al ltac:(lia)) as Hm.
  set (q := o / al) in *. set (r := o mod al) in *. destruct (N.eqb_spec r 0) as [Hr|Hr].
  - rewrite Hr in *. replace ((o + (al - 1)) / al) with q; [lia|]. apply (N.div_unique _ _ q (al - 1)); lia.
  - replace ((o + (al - 1)) / al) with (q + 1); [lia|]. apply (N.div_unique _ _ (q + 1) (r - 1)); lia.
Qed.
Lemma loop_end a k o os e : Forall rust_type a → calc_offsets_loop a k o = (os, e) → e = row_end (stacked k a) o.
Proof.
  intros Hty. revert o os e. induction Hty as [|x a [Hal _] Hty IH]; intros o os e; cbn [calc_offsets_loop]; [by intros [= _ <-]|].
  destruct (calc_offsets_loop a k _) as [os' e'] eqn:E. intros [= _ <-]. apply IH in E. rewrite E, align_up_round by done. done.
Qed.
Lemma shares_fun a k m : shares k a → shares m a → k = m.
Proof.
  assert (∀ k m, shares k a → shares m a → ¬ k < m) as H.
  { intros i j [_ (x & Hx & Hi)] [Hj _] Hlt. specialize (Hj x Hx). assert (ct_size x * (i + 1) ≤ ct_size x * j) by (apply N.mul_le_mono_l; lia). lia. }
  intros H1 H2. pose proof (H _ _ H1 H2). pose proof (H _ _ H2 H1). lia.
Qed.
Lemma div_all_zero row l : 0 ∈ l → div_all row l = PPanic.
Proof.
  induction l as [|s l IH]; [by intros ?%elem_of_nil|]. intros Hin. simpl. unfold div_checked. destruct (N.eqb_spec s 0); [done|].
  unfold mbind, pres_bind in *. rewrite IH; [done|]. by apply elem_of_cons in Hin as [<-|].
Qed.
Lemma layout_zero md a x : x ∈ a → ct_size x = 0 → layout_new md a = PPanic.
Proof.
  intros Hx Hz. unfold layout_new. assert (calc_capacity md a = PPanic) as ->; [|done].
  destruct a as [|x0 a]; [by apply elem_of_nil in Hx|]. unfold calc_capacity, list_max1. change (ct_align <$> x0 :: a) with (ct_align x0 :: (ct_align <$> a)).
  unfold mbind at 1, pres_bind at 1. unfold div_checked at 1. assert (N.of_nat (length (x0 :: a)) ≠ 0) as Hl by (simpl; lia).
  apply N.eqb_neq in Hl as ->. unfold mbind at 1, pres_bind at 1. destruct (usize_sub _ _ _) as [row| |] eqn:E; [|done|].
  - unfold mbind, pres_bind. rewrite div_all_zero; [done|]. apply elem_of_list_fmap. by exists x.
  - unfold usize_sub in E. destruct (_ <=? _); [done|]. by destruct md.
Qed.
Lemma layout_unbudgeted a : a ≠ [] → ¬ budgeted a → layout_new Debug a = PPanic.
Proof.
  intros Hne Hn. rewrite budgeted_div in Hn by done. unfold layout_new. assert (calc_capacity Debug a = PPanic) as ->; [|done].
  destruct a as [|x0 a]; [done|]. unfold calc_capacity, list_max1. change (ct_align <$> x0 :: a) with (ct_align x0 :: (ct_align <$> a)).
  unfold mbind at 1, pres_bind at 1. rewrite foldr_max_cons.
  change (foldr N.max 0 (ct_align x0 :: (ct_align <$> a))) with (amax (x0 :: a)).
  unfold div_checked at 1. assert (N.of_nat (length (x0 :: a)) ≠ 0) as Hl by (simpl; lia).
  apply N.eqb_neq in Hl as ->. unfold mbind at 1, pres_bind at 1. unfold usize_sub. apply N.leb_nle in Hn as ->. done.
Qed.
Lemma layout_exact md a : a ≠ [] → budgeted a → Forall rust_type a →
  match layout_new md a with
  | POk ly => (∀ x, x ∈ a → 0 < ct_size x) ∧ shares (ly_cap ly) a ∧ row_end (stacked (ly_cap ly) a) 0 ≤ PAGE
  | PPanic => (∃ x, x ∈ a ∧ ct_size x = 0) ∨ ∃ k, shares k a ∧ PAGE < row_end (stacked k a) 0
  | PUB _ => False
  end.
Proof.
  intros Hne Hbud Hty. pose proof (proj1 (budgeted_div a Hne) Hbud) as Hrow.
  destruct (decide (Exists (λ x, ct_size x = 0) a)) as [Hz|Hnz].
  - apply Exists_exists in Hz as (x & Hx & Hz). rewrite (layout_zero _ _ _ Hx Hz). left. by exists x.
  - assert (Forall (λ x, 0 < ct_size x) a) as Hsz.
    { rewrite Forall_forall. intros x Hx. destruct (decide (ct_size x = 0)); [|lia]. destruct Hnz. apply Exists_exists. by exists x. }
    destruct (capacity_spec md a Hne Hsz ltac:(lia)) as (cap & Hcap & Hle & Hmax).
    assert (shares cap a) as Hsh.
    { split; [done|]. destruct (decide (Exists (λ x, slice a < ct_size x * (cap + 1)) a)) as [He|He]; [by apply Exists_exists in He|].
      exfalso. assert (cap + 1 ≤ cap); [|lia]. apply Hmax. intros x Hx. destruct (decide (slice a < ct_size x * (cap + 1))); [|lia].
      destruct He. apply Exists_exists. by exists x. }
    unfold layout_new, mbind, pres_bind. rewrite Hcap. unfold calc_offsets.
    destruct (calc_offsets_loop a cap 0) as [os e] eqn:E. pose proof (loop_end _ _ _ _ _ Hty E) as ->. unfold assertP.
    destruct (N.leb_spec (row_end (stacked cap a) 0) PAGE) as [Hend|Hend]; simpl.
    + split_and!; [|done|done]. by rewrite Forall_forall in Hsz.
    + right. by exists cap.
Qed.
Lemma layout_iff md a k : a ≠ [] → (md = Debug ∨ (length a ≤ 2340)%nat) → Forall rust_type a →
  (∃ ly, layout_new md a = POk ly ∧ ly_cap ly = k) ↔ budgeted a ∧ (∀ x, x ∈ a → 0 < ct_size x) ∧ shares k a ∧ row_end (stacked k a) 0 ≤ PAGE.
Proof.
  intros Hne Hmd Hty. assert (budgeted a ∨ ¬ budgeted a) as [Hb|Hb].
  { destruct (decide (amax a mod PTR_SIZE * N.of_nat (length a) ≤ PAGE)); [by left|by right]. }
  - pose proof (layout_exact md a Hne Hb Hty) as H. destruct (layout_new md a) as [ly| |].
    + destruct H as (H1 & H2 & H3). split; [by intros (? & [= <-] & <-)|]. intros (_ & _ & H5 & _). exists ly. split; [done|]. by eapply shares_fun.
    + split; [by intros (? & ? & _)|]. intros (_ & H1 & H2 & H3). exfalso. destruct H as [(x & Hx & Hz)|(m & Hm & Hgt)].
      * specialize (H1 x Hx). lia.
      * rewrite (shares_fun _ _ _ Hm H2) in Hgt. lia.
    + done.
  - destruct Hmd as [->|Hl]; [|by destruct Hb; apply budgeted_small]. rewrite layout_unbudgeted by done. split; [by intros (? & ? & _)|by intros [? _]].
Qed.
Lemma layout_panics_iff md a : a ≠ [] → (md = Debug ∨ (length a ≤ 2340)%nat) → Forall rust_type a →
  layout_new md a = PPanic ↔ ¬ budgeted a ∨ (∃ x, x ∈ a ∧ ct_size x = 0) ∨ ∃ k, shares k a ∧ PAGE < row_end (stacked k a) 0.
Proof.
  intros Hne Hmd Hty. assert (budgeted a ∨ ¬ budgeted a) as [Hb|Hb].
  { destruct (decide (amax a mod PTR_SIZE * N.of_nat (length a) ≤ PAGE)); [by left|by right]. }
  - pose proof (layout_exact md a Hne Hb Hty) as H. destruct (layout_new md a) as [ly| |]; [|split; [by right|done]|done].
    split; [done|]. destruct H as (H1 & H2 & H3). intros [?|[(x & Hx & Hz)|(m & Hm & Hgt)]]; [done|..].
    + specialize (H1 x Hx). lia.
    + rewrite (shares_fun _ _ _ Hm H2) in Hgt. lia.
  - destruct Hmd as [->|Hl]; [|by destruct Hb; apply budgeted_small]. rewrite layout_unbudgeted by done. split; [by left|done].
Qed.

(** ** Archetypes that fit but are refused *)
(** Alignment padding above the 8-byte granularity is not budgeted for: three components, 5 rows computed. *)
Definition refused : archetype := [CType 1 1092 1; CType 2 1088 64; CType 3 1092 1].
(** A zero-sized component divides by zero. *)
Definition zero_sized : archetype := [CType 1 0 1].
(** Components of very different sizes: every component gets an equal share, in which the large one does not fit. *)
Definition uneven : archetype := [CType 1 10000 8; CType 2 8 8].

Lemma refused_facts md : Forall rust_type refused ∧ row_end refused 0 ≤ PAGE ∧ layout_new md refused = PPanic.
Proof.
  split; [|split].
  - repeat constructor; simpl; try lia; [by exists 1092|by exists 17|by exists 1092].
  - by vm_compute.
  - by destruct md.
Qed.
Lemma zero_facts md : Forall rust_type zero_sized ∧ row_end zero_sized 0 ≤ PAGE ∧ layout_new md zero_sized = PPanic.
Proof.
  split; [|split].
  - repeat constructor; simpl; try lia. by exists 0.
  - by vm_compute.
  - by destruct md.
Qed.
Lemma uneven_facts md : Forall rust_type uneven ∧ row_end uneven 0 ≤ PAGE ∧ ∃ offs, layout_new md uneven = POk (Layout offs 0).
Proof.
  split; [|split].
  - repeat constructor; simpl; try lia; [by exists 1250|by exists 1].
  - by vm_compute.
  - exists [0; 0]. by destruct md.
Qed.
