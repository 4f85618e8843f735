(** BinarySearchP.v — both library versions of binary search meet the documented contract; Vec growth too. *)
From Verif.Model Require Export BinarySearch.
From Verif.Spec Require Export Env.
From Verif.Proofs Require Export Wp.
Local Open Scope N_scope.

Lemma ssorted_lookup (l : list N) i j x y : StronglySorted N.le l → (i < j)%nat →
  l !! i = Some x → l !! j = Some y → x ≤ y.
Proof.
  intros Hs. revert i j. induction Hs as [|z l Hs IH Hz]; intros i j Hij Hi Hj; [done|].
  destruct j as [|j]; [lia|]. destruct i as [|i]; simpl in *.
  - injection Hi as <-. rewrite Forall_lookup in Hz. by eapply Hz.
  - eapply (IH i j); [lia|done..].
Qed.

Lemma below_take (l : list N) x i y : StronglySorted N.le l → l !! i = Some y → y < x →
  Forall (λ z, z < x) (take (S i) l).
Proof.
  intros Hs Hi Hlt. apply Forall_lookup. intros j z [Hj Hji]%lookup_take_Some.
  destruct (decide (j = i)) as [->|]; [congruence|].
  assert (z ≤ y) by (eapply (ssorted_lookup l j i); eauto; lia). lia.
Qed.
Lemma above_drop (l : list N) x i y : StronglySorted N.le l → l !! i = Some y → x < y →
  Forall (λ z, x < z) (drop i l).
Proof.
  intros Hs Hi Hlt. apply Forall_lookup. intros j z Hj. rewrite lookup_drop in Hj.
  destruct (decide (j = 0%nat)) as [->|].
  - rewrite Nat.add_0_r in Hj. congruence.
  - assert (y ≤ z) by (eapply (ssorted_lookup l i (i + j)); eauto; lia). lia.
Qed.

Definition search_post (l : list N) (x : N) (r : bsres) : Prop :=
  match r with
  | BFound i => l !! i = Some x
  | BMissing i => (i ≤ length l)%nat ∧ Forall (λ y, y < x) (take i l) ∧ Forall (λ y, x < y) (drop i l)
  end.

Lemma bs_old_loop_ok fuel l x left right : StronglySorted N.le l →
  (left ≤ right ≤ length l)%nat → (right - left < fuel)%nat →
  Forall (λ y, y < x) (take left l) → Forall (λ y, x < y) (drop right l) →
  search_post l x (bs_old_loop fuel l x left right).
Proof.
  intros Hs. revert left right. induction fuel as [|fuel IH]; intros left right Hle Hf Hl Hr; [lia|]. cbn [bs_old_loop]. cbv zeta.
  destruct (Nat.ltb_spec left right).
  - assert (Nat.div (right - left) 2 < right - left)%nat as Hd by (apply Nat.div_lt; lia).
    set (mid := (left + Nat.div (right - left) 2)%nat) in *.
    destruct (lookup_lt_is_Some_2 l mid) as [y Hy]; [lia|]. rewrite Hy.
    destruct (N.compare_spec y x).
    + subst. done.
    + apply IH; [lia|lia| |done]. by eapply below_take.
    + apply IH; [lia|lia|done|]. by eapply above_drop.
  - assert (left = right) as -> by lia. split_and!; [lia|done..].
Qed.
Lemma bs_old_ok : search_ok bs_old.
Proof.
  intros l x Hs. apply (bs_old_loop_ok (S (length l)) l x 0 (length l)); try done; try lia.
  - by rewrite take_0.
  - by rewrite drop_all.
Qed.

Lemma bs_new_loop_ok fuel l x base size : StronglySorted N.le l →
  (0 < size)%nat → (base + size ≤ length l)%nat → (size ≤ fuel)%nat →
  base = 0%nat ∨ (∃ y, l !! base = Some y ∧ y ≤ x) → Forall (λ y, x < y) (drop (base + size) l) →
  let b := bs_new_loop fuel l x base size in
  (b < length l)%nat ∧ (b = 0%nat ∨ ∃ y, l !! b = Some y ∧ y ≤ x) ∧ Forall (λ y, x < y) (drop (S b) l).
Proof.
  intros Hs. revert base size. induction fuel as [|fuel IH]; intros base size H0 Hle Hf Hl Hr; [lia|]. cbn [bs_new_loop]. cbv zeta.
  destruct (Nat.ltb_spec 1 size).
  - assert (Nat.div size 2 < size)%nat by (apply Nat.div_lt; lia).
    assert (0 < Nat.div size 2)%nat by (apply Nat.div_str_pos; lia).
    assert (Nat.div size 2 ≤ size - Nat.div size 2)%nat.
    { pose proof (Nat.div_mod size 2). pose proof (Nat.mod_upper_bound size 2). lia. }
    set (half := Nat.div size 2) in *.
    destruct (lookup_lt_is_Some_2 l (base + half)) as [y Hy]; [lia|]. rewrite Hy.
    assert (base + half + (size - half) = base + size)%nat as Heq by lia.
    destruct (N.compare_spec y x).
    + apply IH; [lia|lia|lia| |by rewrite Heq]. right. exists y. split; [done|lia].
    + apply IH; [lia|lia|lia| |by rewrite Heq]. right. exists y. split; [done|lia].
    + apply IH; [lia|lia|lia|done|].
      assert (Forall (λ z, x < z) (drop (base + half) l)) as Hh by by eapply above_drop.
      replace (base + (size - half))%nat with (base + half + (size - half - half))%nat by lia.
      rewrite <- drop_drop. by apply Forall_drop.
  - assert (size = 1)%nat as -> by lia. rewrite Nat.add_1_r in Hr. split_and!; [lia|done..].
Qed.
Lemma bs_new_ok : search_ok bs_new.
Proof.
  intros l x Hs. unfold bs_new. destruct l as [|z l]; [split_and!; simpl; [lia|constructor..]|].
  set (l' := z :: l) in *.
  destruct (bs_new_loop_ok (length l') l' x 0 (length l')) as (Hb & Hlow & Hhigh); try done.
  { simpl; lia. }
  { by left. }
  { rewrite drop_ge; [constructor|done]. }
  set (b := bs_new_loop _ _ _ _ _) in *.
  destruct (lookup_lt_is_Some_2 l' b) as [y Hy]; [done|]. rewrite Hy.
  destruct (N.compare_spec y x).
  - by subst.
  - split_and!; [lia| |done]. by eapply below_take.
  - split_and!; [lia| |by eapply above_drop].
    destruct Hlow as [->|(y' & Hy' & ?)]; [by rewrite take_0|]. rewrite Hy in Hy'. injection Hy' as <-. lia.
Qed.

Lemma rawvec_grow_ok : grow_ok rawvec_grow.
Proof. intros cap required. unfold rawvec_grow. lia. Qed.
