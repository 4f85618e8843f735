(** SortedP.v — strictly sorted id lists, binary search in them, and lists of values kept in parallel. *)
From Verif.Model Require Export Base.
From Verif.Spec Require Export Env.
From Verif.Proofs Require Export Wp.
Local Open Scope N_scope.

Notation incr l := (StronglySorted N.lt l).

Lemma incr_le l : incr l → StronglySorted N.le l.
Proof.
  induction 1 as [|x l Hs IH Hx]; constructor; [done|].
  eapply Forall_impl; [exact Hx|]. simpl. lia.
Qed.
Lemma incr_nodup l : incr l → NoDup l.
Proof.
  induction 1 as [|x l Hs IH Hx]; constructor; [|done].
  intros Hin. rewrite Forall_forall in Hx. apply Hx in Hin. lia.
Qed.
Lemma incr_lookup l i j x y : incr l → l !! i = Some x → l !! j = Some y → (i < j)%nat → x < y.
Proof.
  intros Hs. revert i j. induction Hs as [|z l Hs IH Hz]; intros i j Hi Hj Hij; [done|].
  destruct j as [|j]; [lia|]. destruct i as [|i]; simpl in *.
  - injection Hi as <-. rewrite Forall_lookup in Hz. by eapply Hz.
  - eapply (IH i j); [done..|lia].
Qed.
Lemma incr_app l1 l2 : incr (l1 ++ l2) ↔ incr l1 ∧ incr l2 ∧ (∀ x y, x ∈ l1 → y ∈ l2 → x < y).
Proof.
  induction l1 as [|z l1 IH]; simpl.
  - split; [|naive_solver]. intros. split_and!; [constructor|done|]. intros x y Hx. by apply elem_of_nil in Hx.
  - split.
    + intros Hs. inversion Hs as [|? ? Hs' Hf]; subst. apply IH in Hs' as (H1 & H2 & H3).
      apply Forall_app in Hf as [Hf1 Hf2]. rewrite Forall_forall in Hf2.
      split_and!; [by constructor|done|]. intros x y [->|Hx]%elem_of_cons Hy; auto.
    + intros (H1 & H2 & H3). inversion H1 as [|? ? H1' Hf]; subst. constructor.
      * apply IH. split_and!; [done..|]. intros x y Hx. apply H3. by apply elem_of_cons; right.
      * apply Forall_app. split; [done|]. apply Forall_forall. intros y Hy. apply H3; [by apply elem_of_cons; left|done].
Qed.
(** Two strictly sorted lists with the same elements are equal. *)
Lemma incr_ext l1 l2 : incr l1 → incr l2 → (∀ x, x ∈ l1 ↔ x ∈ l2) → l1 = l2.
Proof.
  intros Hs. revert l2. induction Hs as [|x l1 Hs IH Hx]; intros l2 H2 Hel.
  - destruct l2 as [|y l2]; [done|]. specialize (Hel y). rewrite elem_of_nil, elem_of_cons in Hel. naive_solver.
  - destruct H2 as [|y l2 H2 Hy].
    { specialize (Hel x). rewrite elem_of_nil, elem_of_cons in Hel. naive_solver. }
    rewrite Forall_forall in Hx, Hy.
    assert (x = y) as <-.
    { destruct (N.lt_trichotomy x y) as [Hlt|[?|Hlt]]; [|done|].
      - assert (x ∈ y :: l2) as [?|Hin%Hy]%elem_of_cons by (apply Hel, elem_of_cons; by left); [done|lia].
      - assert (y ∈ x :: l1) as [?|Hin%Hx]%elem_of_cons by (apply Hel, elem_of_cons; by left); [done|lia]. }
    f_equal. apply IH; [done|]. intros z. split; intros Hz.
    + assert (z ∈ x :: l2) as [->|?]%elem_of_cons by (apply Hel, elem_of_cons; by right); [|done].
      apply Hx in Hz. lia.
    + assert (z ∈ x :: l1) as [->|?]%elem_of_cons by (apply Hel, elem_of_cons; by right); [|done].
      apply Hy in Hz. lia.
Qed.

(** The two outcomes of a binary search in a strictly sorted list. *)
Lemma search_cases bs l x : search_ok bs → incr l →
  (∃ i, bs l x = BFound i ∧ l !! i = Some x) ∨
  (∃ i, bs l x = BMissing i ∧ (i ≤ length l)%nat ∧ x ∉ l ∧ incr (take i l ++ x :: drop i l)).
Proof.
  intros Hbs Hs. specialize (Hbs l x (incr_le _ Hs)).
  destruct (bs l x) as [i|i]; [by eauto|right]. destruct Hbs as (Hi & Hlt & Hgt).
  rewrite Forall_forall in Hlt, Hgt.
  exists i. split_and!; [done|done| |].
  - rewrite <- (take_drop i l). intros [Hin%Hlt|Hin%Hgt]%elem_of_app; lia.
  - rewrite <- (take_drop i l), incr_app in Hs. destruct Hs as (H1 & H2 & H3).
    apply incr_app. split_and!; [done| |].
    + constructor; [done|]. apply Forall_forall. auto.
    + intros y z Hy [->|Hz]%elem_of_cons; auto.
Qed.
Lemma search_found bs l x : search_ok bs → incr l → x ∈ l → ∃ i, bs l x = BFound i ∧ l !! i = Some x.
Proof. intros Hbs Hs Hx. destruct (search_cases bs l x Hbs Hs) as [?|(i & _ & _ & Hn & _)]; done. Qed.
Lemma search_missing bs l x : search_ok bs → incr l → x ∉ l → ∃ i, bs l x = BMissing i.
Proof.
  intros Hbs Hs Hx. destruct (search_cases bs l x Hbs Hs) as [(i & _ & H)|(i & ? & _)]; [|by eauto].
  destruct Hx. by eapply elem_of_list_lookup_2.
Qed.
Lemma search_found_inv bs l x i : search_ok bs → incr l → bs l x = BFound i → l !! i = Some x.
Proof. intros Hbs Hs H. specialize (Hbs l x (incr_le _ Hs)). by rewrite H in Hbs. Qed.
Lemma search_missing_inv bs l x i : search_ok bs → incr l → bs l x = BMissing i → x ∉ l.
Proof.
  intros Hbs Hs H Hin. destruct (search_found bs l x Hbs Hs Hin) as (j & Hj & _). congruence.
Qed.

(** ** Parallel lists: keys and values *)
Definition assocl {V} (ks : list N) (vs : list V) (k : N) (v : V) : Prop := ∃ i, ks !! i = Some k ∧ vs !! i = Some v.

Section assoc.
Context {V : Type}.
Implicit Types (ks : list N) (vs : list V).

Lemma assoc_fun ks vs k v v' : incr ks → assocl ks vs k v → assocl ks vs k v' → v = v'.
Proof.
  intros Hs (i & Hi & Hv) (j & Hj & Hv'). assert (i = j) as -> by (eapply NoDup_lookup; [by apply incr_nodup|done..]).
  congruence.
Qed.
Lemma assoc_dom ks vs k v : assocl ks vs k v → k ∈ ks.
Proof. intros (i & Hi & _). by eapply elem_of_list_lookup_2. Qed.
Lemma dom_assoc ks vs k : length vs = length ks → k ∈ ks → ∃ v, assocl ks vs k v.
Proof.
  intros Hl (i & Hi)%elem_of_list_lookup. destruct (lookup_lt_is_Some_2 vs i) as [v Hv].
  { rewrite Hl. by eapply lookup_lt_Some. }
  exists v, i. done.
Qed.
Lemma assoc_zip ks vs k v : assocl ks vs k v ↔ (k, v) ∈ zip ks vs.
Proof.
  unfold assocl. rewrite elem_of_list_lookup. split.
  - intros (i & Hi & Hv). exists i. rewrite lookup_zip_with, Hi. simpl. by rewrite Hv.
  - intros (i & H). rewrite lookup_zip_with in H. exists i.
    destruct (ks !! i); simpl in H; [|done]. destruct (vs !! i); simpl in H; [|done]. naive_solver.
Qed.
Lemma assoc_insert ks vs i x y k v : length vs = length ks → (i ≤ length ks)%nat →
  assocl (take i ks ++ x :: drop i ks) (take i vs ++ y :: drop i vs) k v ↔ (k = x ∧ v = y) ∨ assocl ks vs k v.
Proof.
  intros Hl Hi. rewrite !assoc_zip. rewrite zip_with_app by (rewrite !take_length; lia).
  simpl. rewrite elem_of_app, elem_of_cons.
  assert ((k, v) ∈ zip ks vs ↔ (k, v) ∈ zip (take i ks) (take i vs) ∨ (k, v) ∈ zip (drop i ks) (drop i vs)) as ->.
  { rewrite <- elem_of_app, <- zip_with_app by (rewrite !take_length; lia). by rewrite !take_drop. }
  naive_solver.
Qed.
Lemma assoc_update ks vs i x y k v : incr ks → length vs = length ks → ks !! i = Some x →
  assocl ks (<[i := y]> vs) k v ↔ (k = x ∧ v = y) ∨ (k ≠ x ∧ assocl ks vs k v).
Proof.
  intros Hs Hl Hi. pose proof (lookup_lt_Some _ _ _ Hi). split.
  - intros (j & Hj & Hv). apply list_lookup_insert_Some in Hv as [(-> & -> & _)|[Hne Hv]].
    + left. split; [congruence|done].
    + right. split; [|by exists j]. intros ->. apply Hne. eapply NoDup_lookup; [by apply incr_nodup|done..].
  - intros [[-> ->]|(Hne & j & Hj & Hv)]; [exists i|exists j].
    + split; [done|]. apply list_lookup_insert. lia.
    + split; [done|]. rewrite list_lookup_insert_ne; [done|]. intros ->. congruence.
Qed.
End assoc.
Lemma assoc_fmap {V W} (f : V → W) ks vs k w : assocl ks (f <$> vs) k w ↔ ∃ v, w = f v ∧ assocl ks vs k v.
Proof.
  unfold assocl. split.
  - intros (i & Hi & Hw). apply list_lookup_fmap_Some in Hw as (v & ? & ?). eauto.
  - intros (v & -> & i & Hi & Hv). exists i. split; [done|]. apply list_lookup_fmap_Some. eauto.
Qed.
Lemma assoc_forall2 {V W} (R : V → W → Prop) ks vs ws k w : Forall2 R vs ws → assocl ks ws k w →
  ∃ v, assocl ks vs k v ∧ R v w.
Proof.
  intros HR (i & Hi & Hw). destruct (Forall2_lookup_r _ _ _ _ _ HR Hw) as (v & Hv & ?). exists v. split; [by exists i|done].
Qed.
Lemma assoc_forall2_l {V W} (R : V → W → Prop) ks vs ws k v : Forall2 R vs ws → assocl ks vs k v →
  ∃ w, assocl ks ws k w ∧ R v w.
Proof.
  intros HR (i & Hi & Hw). destruct (Forall2_lookup_l _ _ _ _ _ HR Hw) as (w & ? & ?). exists w. split; [by exists i|done].
Qed.
