(** LenP.v — len() of the iterators of ordered queries and of pages while they are used. *)
From Verif.Model Require Export QueryObj.
From Verif.Proofs Require Export OrdQ.

Lemma oiter_next_len it x it' : oiter_next it = POk (x, it') → oiter_len it' = oiter_len it.
Proof.
  unfold oiter_next, oiter_len. destruct (oi_ranges it !! oi_range it) as [[start stop]|]; [|by intros [= _ <-]].
  destruct (Nat.leb _ _); (destruct (vget_unchecked _ _) as [v| |]; [|done..]); simpl; (destruct (ptrs_to_refs _) as [rs| |]; [|done..]); by intros [= _ <-].
Qed.
Lemma oiter_advance_len n : ∀ it it', advance oiter_next n it = POk it' → oiter_len it' = oiter_len it.
Proof.
  induction n as [|n IH]; intros it it' H; simpl in H; [by injection H as <-|]. destruct (oiter_next it) as [[x it1]| |] eqn:E; [|done..].
  simpl in H. rewrite (IH _ _ H). by eapply oiter_next_len.
Qed.
Lemma ordered_len_after c q s g fuel it l it' : ordered_query fuel c q s g = Some (POk it) → yields oiter_next it l it' →
  ∀ n, (n ≤ length l)%nat → ∃ it2, advance oiter_next n it = POk it2 ∧ yields oiter_next it2 (drop n l) it' ∧
    oiter_len it2 = (n + length (drop n l))%nat.
Proof.
  intros Hq Hy n Hn. destruct (yields_advance _ _ _ _ Hy n Hn) as (it2 & Ha & Hy2). exists it2. split; [done|]. split; [done|].
  rewrite (oiter_advance_len _ _ _ Ha), (ordered_len _ _ _ _ _ _ _ _ Hq Hy), drop_length. lia.
Qed.

Lemma piter_next_len it x it' : piter_next it = POk (x, it') → piter_len it' = piter_len it ∧
  match x with Some _ => pi_next it' = S (pi_next it) ∧ (pi_next it < piter_len it)%nat | None => (piter_len it ≤ pi_next it)%nat end.
Proof.
  unfold piter_next, piter_len. destruct (Nat.leb _ _) eqn:E.
  - intros [= <- <-]. by apply Nat.leb_le in E.
  - apply Nat.leb_gt in E. destruct (ptrs_to_refs _) as [rs| |]; [|done..]. simpl. by intros [= <- <-].
Qed.
Lemma piter_count it l it' : yields piter_next it l it' → (pi_next it ≤ piter_len it)%nat → piter_len it = (pi_next it + length l)%nat.
Proof.
  induction 1 as [it it' H|it x it1 l it' H _ IH]; intros Hle.
  - apply piter_next_len in H as [_ H]. simpl. lia.
  - apply piter_next_len in H as (H1 & H2 & H3). rewrite H1, H2 in IH. simpl. lia.
Qed.
Lemma piter_advance_len n : ∀ it it', advance piter_next n it = POk it' → piter_len it' = piter_len it.
Proof.
  induction n as [|n IH]; intros it it' H; simpl in H; [by injection H as <-|]. destruct (piter_next it) as [[x it1]| |] eqn:E; [|done..].
  simpl in H. rewrite (IH _ _ H). by apply piter_next_len in E as [? _].
Qed.
Lemma page_len_after v l it' : yields piter_next (piter_new v) l it' →
  ∀ n, (n ≤ length l)%nat → ∃ it2, advance piter_next n (piter_new v) = POk it2 ∧ yields piter_next it2 (drop n l) it' ∧
    piter_len it2 = (n + length (drop n l))%nat.
Proof.
  intros Hy n Hn. destruct (yields_advance _ _ _ _ Hy n Hn) as (it2 & Ha & Hy2). exists it2. split; [done|]. split; [done|].
  rewrite (piter_advance_len _ _ _ Ha), (piter_count _ _ _ Hy), drop_length; simpl; lia.
Qed.
