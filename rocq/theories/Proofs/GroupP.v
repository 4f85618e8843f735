(** GroupP.v — one order group: doubly linked list in two arrays. *)
From Verif.Model Require Export Orders.
From Verif.Proofs Require Export Wp.
Local Open Scope N_scope.

(** Successor in a list of ids; NULL_ID if there is none. *)
Definition hdn (l : list N) : N := match l with [] => NULL_ID | x :: _ => x end.
Fixpoint nxt (l : list N) (x : N) : N :=
  match l with
  | [] => NULL_ID
  | y :: r => if bool_decide (y = x) then hdn r else nxt r x
  end.

Lemma nxt_notin l x : x ∉ l → nxt l x = NULL_ID.
Proof.
  induction l as [|y l IH]; simpl; [done|]. rewrite not_elem_of_cons. intros [Hne ?].
  rewrite bool_decide_false by congruence. auto.
Qed.
Lemma nxt_app l1 l2 x : NoDup l1 → nxt (l1 ++ l2) x =
  if decide (x ∈ l1) then (if decide (last l1 = Some x) then hdn l2 else nxt l1 x) else nxt l2 x.
Proof.
  induction l1 as [|y l1 IH]; intros Hnd; simpl.
  - destruct (decide (x ∈ [])) as [H|]; [by apply elem_of_nil in H|done].
  - apply NoDup_cons in Hnd as [Hy Hnd]. specialize (IH Hnd). destruct (decide (y = x)) as [->|Hne].
    + rewrite bool_decide_true by done.
      destruct (decide (x ∈ x :: l1)) as [_|Hn]; [|by destruct Hn; apply elem_of_cons; left].
      destruct l1 as [|z l1]; simpl.
      * by rewrite decide_True.
      * destruct (decide (last (z :: l1) = Some x)) as [Hl|]; [|done].
        apply last_Some_elem_of in Hl. done.
    + rewrite bool_decide_false by done. rewrite IH.
      assert (x ∈ y :: l1 ↔ x ∈ l1) as Hiff by (rewrite elem_of_cons; naive_solver).
      destruct (decide (x ∈ l1)) as [Hx|Hx]; destruct (decide (x ∈ y :: l1)) as [Hx'|Hx']; try tauto.
      destruct l1 as [|z l1]; [by apply elem_of_nil in Hx|]. done.
Qed.
Lemma nxt_head x l : nxt (x :: l) x = hdn l.
Proof. simpl. by rewrite bool_decide_true. Qed.
Lemma hdn_app l1 l2 : hdn (l1 ++ l2) = if decide (l1 = []) then hdn l2 else hdn l1.
Proof. by destruct l1. Qed.
Lemma nxt_in_or l x : nxt l x = NULL_ID ∨ nxt l x ∈ l.
Proof.
  induction l as [|y l IH]; simpl; [by left|]. case_bool_decide.
  - destruct l as [|z l]; simpl; [by left|right]. set_solver.
  - destruct IH as [IH|IH]; [by left|right]. by apply elem_of_cons; right.
Qed.

Lemma nxt_at l1 x l2 : NoDup (l1 ++ x :: l2) → nxt (l1 ++ x :: l2) x = hdn l2.
Proof.
  intros (Hnd & Hd & _)%NoDup_app. rewrite nxt_app by done. rewrite decide_False, nxt_head; [done|].
  intros Hin. apply (Hd x Hin). set_solver.
Qed.
Lemma hdn_cases l : (l = [] ∧ hdn l = NULL_ID) ∨ ∃ x r, l = x :: r ∧ hdn l = x.
Proof. destruct l; eauto. Qed.
Lemma list_filter_all_ne (id : N) (l : list N) : id ∉ l → filter (λ x, x ≠ id) l = l.
Proof.
  induction l as [|y l IH]; [done|]. rewrite not_elem_of_cons. intros [? ?]. rewrite filter_cons_True by congruence. f_equal. auto.
Qed.
Lemma elem_insert_after (l1 : list N) t id l2 x : x ∈ l1 ++ t :: id :: l2 → x = id ∨ x ∈ l1 ++ t :: l2.
Proof. set_solver. Qed.
Lemma elem_insert_before (l1 : list N) t id l2 x : x ∈ l1 ++ id :: t :: l2 → x = id ∨ x ∈ l1 ++ t :: l2.
Proof. set_solver. Qed.
Lemma nodup_insert_before (l1 : list N) t id l2 : NoDup (l1 ++ t :: l2) → id ∉ l1 ++ t :: l2 → NoDup (l1 ++ id :: t :: l2).
Proof.
  intros Hnd Hnin. rewrite <- Permutation_middle. by apply NoDup_cons.
Qed.
Lemma nodup_insert_after (l1 : list N) t id l2 : NoDup (l1 ++ t :: l2) → id ∉ l1 ++ t :: l2 → NoDup (l1 ++ t :: id :: l2).
Proof.
  intros Hnd Hnin. rewrite (Permutation_swap id t l2). by apply nodup_insert_before.
Qed.
Lemma nxt_insert_after l1 t l2 id x : NoDup (l1 ++ t :: l2) → id ∉ l1 ++ t :: l2 →
  nxt (l1 ++ t :: id :: l2) x =
  if decide (x = t) then id else if decide (x = id) then hdn l2 else nxt (l1 ++ t :: l2) x.
Proof.
  intros (Hnd & Hd & [Ht _]%NoDup_cons)%NoDup_app Hid. rewrite !nxt_app by done.
  destruct (decide (x ∈ l1)) as [Hx|Hx].
  - rewrite (decide_False (P := x = t)) by (intros ->; apply (Hd t Hx); set_solver).
    rewrite (decide_False (P := x = id)) by (intros ->; set_solver). done.
  - simpl. repeat case_decide; repeat case_bool_decide; congruence.
Qed.
Lemma nxt_insert_before l1 t l2 id x : NoDup (l1 ++ t :: l2) → id ∉ l1 ++ t :: l2 →
  nxt (l1 ++ id :: t :: l2) x =
  if decide (x = id) then t else if decide (last l1 = Some x) then id else nxt (l1 ++ t :: l2) x.
Proof.
  intros (Hnd & Hd & [Ht _]%NoDup_cons)%NoDup_app Hid. rewrite !nxt_app by done.
  destruct (decide (x ∈ l1)) as [Hx|Hx].
  - rewrite (decide_False (P := x = id)) by (intros ->; set_solver). simpl. by case_decide.
  - rewrite (decide_False (P := last l1 = Some x)) by (intros ?%last_Some_elem_of; done).
    simpl. repeat case_decide; repeat case_bool_decide; congruence.
Qed.
Lemma nxt_remove l1 id l2 x : NoDup (l1 ++ id :: l2) →
  nxt (l1 ++ l2) x =
  if decide (x = id) then NULL_ID else if decide (last l1 = Some x) then hdn l2 else nxt (l1 ++ id :: l2) x.
Proof.
  intros (Hnd & Hd & [Ht _]%NoDup_cons)%NoDup_app. rewrite !nxt_app by done.
  destruct (decide (x ∈ l1)) as [Hx|Hx].
  - rewrite (decide_False (P := x = id)) by (intros ->; apply (Hd id Hx); set_solver). simpl. by case_decide.
  - rewrite (decide_False (P := last l1 = Some x)) by (intros ?%last_Some_elem_of; done).
    simpl. case_decide.
    + subst. by apply nxt_notin.
    + rewrite bool_decide_false by congruence. done.
Qed.

(** Link arrays without uninitialised cells. *)
Definition lgood (cap : N) (a : arr N) : Prop := length a = N.to_nat cap ∧ Forall is_Some a.
Definition alk (a : arr N) (x : N) : N := match a !! N.to_nat x with Some (Some v) => v | _ => NULL_ID end.

Lemma aget_lgood cap a i : lgood cap a → i < cap → aget a i = POk (alk a i).
Proof.
  intros [Hl Hf] Hi. apply aget_ok. unfold alk. destruct (lookup_lt_is_Some_2 a (N.to_nat i)) as [v Hv]; [lia|].
  rewrite Hv. rewrite Forall_lookup in Hf. destruct (Hf _ _ Hv) as [w ->]. done.
Qed.
Lemma aset_lgood cap a i v : lgood cap a → i < cap →
  ∃ a', aset a i v = POk a' ∧ lgood cap a' ∧ ∀ x, alk a' x = if decide (x = i) then v else alk a x.
Proof.
  intros [Hl Hf] Hi. exists (<[N.to_nat i := Some v]> a). split; [apply aset_lt; lia|]. split.
  - split; [by rewrite insert_length|]. apply Forall_insert; [done|eauto].
  - intros x. unfold alk. destruct (decide (x = i)) as [->|Hne].
    + rewrite list_lookup_insert by lia. done.
    + rewrite list_lookup_insert_ne; [done|]. intros ?%N2Nat.inj. congruence.
Qed.
Lemma alloc_links_lgood cap : lgood cap (alloc_links cap) ∧ ∀ x, alk (alloc_links cap) x = NULL_ID.
Proof.
  unfold alloc_links, alloc_filled. split; [split|].
  - by rewrite replicate_length.
  - apply Forall_replicate. eauto.
  - intros x. unfold alk. destruct (_ !! _) eqn:E; [|done]. by apply lookup_replicate in E as [-> _].
Qed.

(** The group holds the list [l] of ids. *)
Record grp_repr (cap : N) (g : grp) (l : list N) : Prop := GrpRepr {
  gr_fwd : lgood cap (g_fwd g);
  gr_bwd : lgood cap (g_bwd g);
  gr_nodup : NoDup l;
  gr_lt : ∀ x, x ∈ l → x < cap ∧ x ≠ NULL_ID;
  gr_head : g_head g = hdn l;
  gr_tail : g_tail g = hdn (reverse l);
  gr_nxt : ∀ x, alk (g_fwd g) x = nxt l x;
  gr_prv : ∀ x, alk (g_bwd g) x = nxt (reverse l) x;
}.

Lemma grp_repr_new cap : grp_repr cap (Grp NULL_ID NULL_ID (alloc_links cap) (alloc_links cap)) [].
Proof.
  destruct (alloc_links_lgood cap) as [H1 H2]. split; simpl; try done; [constructor|].
  intros x Hx. by apply elem_of_nil in Hx.
Qed.

Section ops.
Context (U : Prop) (cap : N).

Lemma fwd_get_wp g i (Q : grp → N → Prop) P : lgood cap (g_fwd g) → i < cap →
  Q g (alk (g_fwd g) i) → sat U (fwd_get i g) Q P.
Proof. intros Hg Hi HQ. unfold fwd_get. wp. rewrite (aget_lgood cap) by done. done. Qed.
Lemma bwd_get_wp g i (Q : grp → N → Prop) P : lgood cap (g_bwd g) → i < cap →
  Q g (alk (g_bwd g) i) → sat U (bwd_get i g) Q P.
Proof. intros Hg Hi HQ. unfold bwd_get. wp. rewrite (aget_lgood cap) by done. done. Qed.
Lemma fwd_set_wp g i v (Q : grp → unit → Prop) P : lgood cap (g_fwd g) → i < cap →
  (∀ a', lgood cap a' → (∀ x, alk a' x = if decide (x = i) then v else alk (g_fwd g) x) → Q (g_set_fwd a' g) tt) →
  sat U (fwd_set i v g) Q P.
Proof.
  intros Hg Hi HQ. unfold fwd_set. wp. destruct (aset_lgood _ _ i v Hg Hi) as (a' & -> & ? & ?). wp. auto.
Qed.
Lemma bwd_set_wp g i v (Q : grp → unit → Prop) P : lgood cap (g_bwd g) → i < cap →
  (∀ a', lgood cap a' → (∀ x, alk a' x = if decide (x = i) then v else alk (g_bwd g) x) → Q (g_set_bwd a' g) tt) →
  sat U (bwd_set i v g) Q P.
Proof.
  intros Hg Hi HQ. unfold bwd_set. wp. destruct (aset_lgood _ _ i v Hg Hi) as (a' & -> & ? & ?). wp. auto.
Qed.

Lemma assert_no_order_null md g (Q : grp → unit → Prop) P : Q g tt → sat U (assert_no_order md NULL_ID NULL_ID g) Q P.
Proof. intros HQ. by destruct md. Qed.

(** Appending. *)
Lemma grp_add_wp md g l id P : grp_repr cap g l → id < cap → id ≠ NULL_ID → id ∉ l →
  sat U (grp_add md id g) (λ g' _, grp_repr cap g' (l ++ [id])) P.
Proof.
  intros Hr Hid Hnull Hnin. pose proof (gr_nodup _ _ _ Hr) as Hnd. unfold grp_add. wp. rewrite (gr_head _ _ _ Hr).
  destruct l as [|y l].
  - change (hdn []) with NULL_ID. rewrite N.eqb_refl. wp. split; simpl; try apply Hr; try done.
    + apply NoDup_singleton.
    + intros x ->%elem_of_list_singleton. done.
    + intros x. rewrite (gr_nxt _ _ _ Hr). simpl. by case_bool_decide.
    + intros x. rewrite (gr_prv _ _ _ Hr). simpl. by case_bool_decide.
  - set (l' := y :: l) in *.
    assert (hdn l' ∈ l') as Hin by (simpl; set_solver).
    assert ((hdn l' =? NULL_ID) = false) as ->.
    { apply N.eqb_neq. by apply (gr_lt _ _ _ Hr). }
    wp1. apply fwd_get_wp; [apply Hr|done|]. wp1. apply bwd_get_wp; [apply Hr|done|].
    rewrite (gr_nxt _ _ _ Hr), (gr_prv _ _ _ Hr), (nxt_notin l'), (nxt_notin (reverse l')) by (rewrite ?elem_of_reverse; done).
    wp1. apply assert_no_order_null.
    assert (∃ z l0, l' = l0 ++ [z]) as (z & l0 & Hl').
    { destruct (last l') as [z|] eqn:E; [apply last_Some in E as [l0 ?]; eauto|]. by apply last_None in E. }
    assert (g_tail g = z) as ->. { rewrite (gr_tail _ _ _ Hr), Hl', reverse_snoc. done. }
    assert (z ∈ l') as Hz by (rewrite Hl'; set_solver).
    clearbody l'.
    wp1. apply fwd_set_wp; [apply Hr|by apply (gr_lt _ _ _ Hr)|]. intros f Hf Hfx.
    wp1. apply bwd_set_wp; [apply Hr|done|]. intros b Hb Hbx. wp.
    split; simpl; try done.
    + apply NoDup_app. split; [done|]. split; [|apply NoDup_singleton]. intros x Hx ->%elem_of_list_singleton. done.
    + intros x [?| ->%elem_of_list_singleton]%elem_of_app; [by apply (gr_lt _ _ _ Hr)|done].
    + rewrite (gr_head _ _ _ Hr). rewrite hdn_app, decide_False; [done|]. intros ->. by apply elem_of_nil in Hin.
    + by rewrite (reverse_snoc l').
    + intros x. rewrite Hfx, (gr_nxt _ _ _ Hr), nxt_app by done.
      assert (last l' = Some x ↔ x = z) as Hlast by (rewrite Hl', last_snoc; naive_solver).
      destruct (decide (x = z)) as [->|Hne].
      * rewrite decide_True by done. rewrite decide_True by (by apply Hlast). done.
      * destruct (decide (x ∈ l')) as [Hx|Hx].
        -- rewrite decide_False by tauto. done.
        -- simpl. rewrite nxt_notin by done. by case_bool_decide.
    + intros x. rewrite reverse_snoc, Hbx. simpl.
      destruct (decide (x = id)) as [->|Hne].
      * rewrite bool_decide_true by done. by rewrite Hl', reverse_snoc.
      * rewrite bool_decide_false by done. apply (gr_prv _ _ _ Hr).
Qed.

Lemma hdn_lt g l : grp_repr cap g l → hdn l = NULL_ID ∧ l = [] ∨ hdn l < cap ∧ hdn l ≠ NULL_ID ∧ hdn l ∈ l.
Proof.
  intros Hr. destruct l as [|x l]; [by left|right]. destruct (gr_lt _ _ _ Hr x) as [? ?]; [set_solver|]. simpl. set_solver.
Qed.

(** Inserting after a member. *)
Lemma grp_add_next_wp md g l1 t l2 id P : grp_repr cap g (l1 ++ t :: l2) → id < cap → id ≠ NULL_ID → id ∉ l1 ++ t :: l2 →
  sat U (grp_add_next md id t g) (λ g' _, grp_repr cap g' (l1 ++ t :: id :: l2)) P.
Proof.
  intros Hr Hid Hnull Hnin. set (l := l1 ++ t :: l2) in *. pose proof (gr_nodup _ _ _ Hr) as Hnd.
  assert (reverse l = reverse l2 ++ t :: reverse l1) as Hrev by (unfold l; rewrite reverse_app, reverse_cons, <- app_assoc; done).
  assert (NoDup (reverse l)) as Hndr by by rewrite reverse_Permutation.
  assert (id ∉ reverse l) as Hninr by by rewrite elem_of_reverse.
  destruct (gr_lt _ _ _ Hr t) as [Ht Htn]; [unfold l; set_solver|].
  assert (t ≠ id) as Hne by (intros ->; apply Hnin; unfold l; set_solver).
  unfold grp_add_next.
  wp1. apply fwd_get_wp; [apply Hr|done|]. wp1. apply bwd_get_wp; [apply Hr|done|].
  rewrite (gr_nxt _ _ _ Hr), (gr_prv _ _ _ Hr), (nxt_notin l), (nxt_notin (reverse l)) by done.
  wp1. apply assert_no_order_null.
  wp1. apply fwd_get_wp; [apply Hr|done|]. rewrite (gr_nxt _ _ _ Hr).
  assert (nxt l t = hdn l2) as Hnt by by apply nxt_at. rewrite Hnt.
  assert (∀ f b, lgood cap f → lgood cap b →
    (∀ x, alk f x = if decide (x = id) then hdn l2 else nxt l x) →
    (∀ x, alk b x = if decide (last (reverse l2) = Some x) then id else nxt (reverse l) x) →
    sat U ((_ ← fwd_set t id; _ ← bwd_set id t; g ← getS;
      if g_tail g =? t then modS (g_set_tail id) else mret ()) (Grp (g_head g) (g_tail g) f b))
     (λ g' _, grp_repr cap g' (l1 ++ t :: id :: l2)) P) as Hrest.
  { intros f b Hf Hb Hfx Hbx.
    wp1. apply fwd_set_wp; [done|done|]. intros f' Hf' Hfx'.
    wp1. apply bwd_set_wp; [done|done|]. intros b' Hb' Hbx'. do 2 wp1. simpl in *.
    assert (grp_repr cap (Grp (g_head g) (if g_tail g =? t then id else g_tail g) f' b') (l1 ++ t :: id :: l2)) as Hres.
    2:{ destruct (g_tail g =? t); done. }
    split; simpl; try done.
    - by apply nodup_insert_after.
    - intros x Hx. apply elem_insert_after in Hx as [->|Hx]; [done|]. by apply (gr_lt _ _ _ Hr).
    - rewrite (gr_head _ _ _ Hr). unfold l. by rewrite !hdn_app.
    - rewrite (gr_tail _ _ _ Hr), Hrev. rewrite reverse_app, !reverse_cons, <- !app_assoc. simpl.
      rewrite !hdn_app. destruct l2 as [|y l2].
      + simpl. by rewrite N.eqb_refl.
      + assert (reverse (y :: l2) ≠ []) as Hnn by (rewrite reverse_cons; by destruct (reverse l2)).
        rewrite !decide_False by done. destruct (N.eqb_spec (hdn (reverse (y :: l2))) t) as [Heq|]; [|done].
        exfalso. assert (t ∈ reverse (y :: l2)) as Hin.
        { rewrite <- Heq. destruct (reverse (y :: l2)); [done|]. simpl. set_solver. }
        rewrite Hrev in Hndr. apply NoDup_app in Hndr as (_ & Hd & _). apply (Hd t Hin). set_solver.
    - intros x. rewrite Hfx', Hfx, (nxt_insert_after l1 t l2 id x) by done.
      fold l; repeat case_decide; congruence.
    - intros x. rewrite Hbx', Hbx. replace (reverse (l1 ++ t :: id :: l2)) with (reverse l2 ++ id :: t :: reverse l1)
        by (rewrite reverse_app, !reverse_cons, <- !app_assoc; done).
      rewrite (nxt_insert_before (reverse l2) t (reverse l1) id x) by (rewrite <- Hrev; done).
      rewrite Hrev. repeat case_decide; congruence. }
  destruct (hdn_cases l2) as [[-> Hh]|(y & l2' & -> & Hh)]; rewrite Hh.
  - rewrite N.eqb_refl. do 2 wp1. destruct g as [hd tl f b]. simpl in *. apply Hrest; [apply Hr|apply Hr| |].
    + intros x. rewrite (gr_nxt _ _ _ Hr). simpl. case_decide; [|done]. subst. by apply nxt_notin.
    + intros x. rewrite (gr_prv _ _ _ Hr). done.
  - destruct (gr_lt _ _ _ Hr y) as [Hy Hyn]; [unfold l; set_solver|].
    apply N.eqb_neq in Hyn as Hyn'. rewrite Hyn'.
    assert (y ≠ id) as Hyid by (intros ->; apply Hnin; unfold l; set_solver).
    assert (y ≠ t) as Hyt.
    { intros ->. unfold l in Hnd. apply NoDup_app in Hnd as (_ & _ & Hnd). apply NoDup_cons in Hnd as [Hnd _]. set_solver. }
    do 2 wp1. apply bwd_set_wp; [apply Hr|done|]. intros b' Hb' Hbx'.
    wp1. apply fwd_get_wp; [apply Hr|done|]. apply fwd_set_wp; [apply Hr|done|]. intros f' Hf' Hfx'.
    destruct g as [hd tl f b]. simpl in *. apply Hrest; try done.
    + intros x. rewrite Hfx', !(gr_nxt _ _ _ Hr). simpl. by rewrite Hnt.
    + intros x. rewrite Hbx', (gr_prv _ _ _ Hr). simpl. rewrite reverse_cons, last_snoc.
      repeat case_decide; congruence.
Qed.

(** Inserting before a member. *)
Lemma grp_add_prev_wp md g l1 t l2 id P : grp_repr cap g (l1 ++ t :: l2) → id < cap → id ≠ NULL_ID → id ∉ l1 ++ t :: l2 →
  sat U (grp_add_prev md id t g) (λ g' _, grp_repr cap g' (l1 ++ id :: t :: l2)) P.
Proof.
  intros Hr Hid Hnull Hnin. set (l := l1 ++ t :: l2) in *. pose proof (gr_nodup _ _ _ Hr) as Hnd.
  assert (reverse l = reverse l2 ++ t :: reverse l1) as Hrev by (unfold l; rewrite reverse_app, reverse_cons, <- app_assoc; done).
  assert (NoDup (reverse l)) as Hndr by by rewrite reverse_Permutation.
  assert (id ∉ reverse l) as Hninr by by rewrite elem_of_reverse.
  destruct (gr_lt _ _ _ Hr t) as [Ht Htn]; [unfold l; set_solver|].
  assert (t ≠ id) as Hne by (intros ->; apply Hnin; unfold l; set_solver).
  unfold grp_add_prev.
  wp1. apply fwd_get_wp; [apply Hr|done|]. wp1. apply bwd_get_wp; [apply Hr|done|].
  rewrite (gr_nxt _ _ _ Hr), (gr_prv _ _ _ Hr), (nxt_notin l), (nxt_notin (reverse l)) by done.
  wp1. apply assert_no_order_null.
  wp1. apply bwd_get_wp; [apply Hr|done|]. rewrite (gr_prv _ _ _ Hr).
  assert (nxt (reverse l) t = hdn (reverse l1)) as Hpt by (rewrite Hrev; apply nxt_at; by rewrite <- Hrev).
  rewrite Hpt.
  assert (∀ f b, lgood cap f → lgood cap b →
    (∀ x, alk f x = if decide (last l1 = Some x) then id else nxt l x) →
    (∀ x, alk b x = if decide (x = id) then hdn (reverse l1) else nxt (reverse l) x) →
    sat U ((_ ← bwd_set t id; _ ← fwd_set id t; g ← getS;
      if g_head g =? t then modS (g_set_head id) else mret ()) (Grp (g_head g) (g_tail g) f b))
     (λ g' _, grp_repr cap g' (l1 ++ id :: t :: l2)) P) as Hrest.
  { intros f b Hf Hb Hfx Hbx.
    wp1. apply bwd_set_wp; [done|done|]. intros b' Hb' Hbx'.
    wp1. apply fwd_set_wp; [done|done|]. intros f' Hf' Hfx'. do 2 wp1. simpl in *.
    assert (grp_repr cap (Grp (if g_head g =? t then id else g_head g) (g_tail g) f' b') (l1 ++ id :: t :: l2)) as Hres.
    2:{ destruct (g_head g =? t); done. }
    split; simpl; try done.
    - by apply nodup_insert_before.
    - intros x Hx. apply elem_insert_before in Hx as [->|Hx]; [done|]. by apply (gr_lt _ _ _ Hr).
    - rewrite (gr_head _ _ _ Hr). unfold l. rewrite !hdn_app. destruct l1 as [|y l1].
      + simpl. by rewrite N.eqb_refl.
      + simpl. destruct (N.eqb_spec y t) as [->|]; [|done].
        exfalso. unfold l in Hnd. simpl in Hnd. apply NoDup_cons in Hnd as [Hnd _]. set_solver.
    - rewrite (gr_tail _ _ _ Hr), Hrev. rewrite reverse_app, !reverse_cons, <- !app_assoc. simpl.
      by rewrite !hdn_app.
    - intros x. rewrite Hfx', Hfx, (nxt_insert_before l1 t l2 id x) by done.
      fold l. repeat case_decide; congruence.
    - intros x. rewrite Hbx', Hbx. replace (reverse (l1 ++ id :: t :: l2)) with (reverse l2 ++ t :: id :: reverse l1)
        by (rewrite reverse_app, !reverse_cons, <- !app_assoc; done).
      rewrite (nxt_insert_after (reverse l2) t (reverse l1) id x) by (rewrite <- Hrev; done).
      rewrite Hrev. repeat case_decide; congruence. }
  destruct l1 as [|y l1' _] using rev_ind.
  - change (hdn (reverse [])) with NULL_ID. rewrite N.eqb_refl. do 2 wp1. destruct g as [hd tl f b]. simpl in *. apply Hrest; [apply Hr|apply Hr| |].
    + intros x. rewrite (gr_nxt _ _ _ Hr). done.
    + intros x. rewrite (gr_prv _ _ _ Hr). simpl. case_decide; [|done]. subst. by apply nxt_notin.
  - rewrite reverse_snoc in *. change (hdn (y :: reverse l1')) with y in *.
    destruct (gr_lt _ _ _ Hr y) as [Hy Hyn]; [unfold l; set_solver|].
    apply N.eqb_neq in Hyn as Hyn'. rewrite Hyn'.
    assert (y ≠ id) as Hyid by (intros ->; apply Hnin; unfold l; set_solver).
    assert (y ≠ t) as Hyt.
    { intros ->. unfold l in Hnd. apply NoDup_app in Hnd as (_ & Hnd & _). apply (Hnd t); set_solver. }
    do 2 wp1. apply fwd_set_wp; [apply Hr|done|]. intros f' Hf' Hfx'.
    wp1. apply bwd_get_wp; [apply Hr|done|]. apply bwd_set_wp; [apply Hr|done|]. intros b' Hb' Hbx'.
    destruct g as [hd tl f b]. simpl in *. apply Hrest; try done.
    + intros x. rewrite Hfx', !(gr_nxt _ _ _ Hr). simpl. rewrite last_snoc. repeat case_decide; congruence.
    + intros x. rewrite Hbx', !(gr_prv _ _ _ Hr). simpl. rewrite Hpt. done.
Qed.

(** Removing. *)
Lemma grp_remove_in_wp g l1 id l2 P : grp_repr cap g (l1 ++ id :: l2) →
  sat U (grp_remove id g) (λ g' _, grp_repr cap g' (l1 ++ l2)) P.
Proof.
  intros Hr. set (l := l1 ++ id :: l2) in *. pose proof (gr_nodup _ _ _ Hr) as Hnd.
  assert (reverse l = reverse l2 ++ id :: reverse l1) as Hrev by (unfold l; rewrite reverse_app, reverse_cons, <- app_assoc; done).
  assert (NoDup (reverse l)) as Hndr by by rewrite reverse_Permutation.
  destruct (gr_lt _ _ _ Hr id) as [Hid Hnull]; [unfold l; set_solver|].
  assert (nxt (reverse l) id = hdn (reverse l1)) as Hp by (rewrite Hrev; apply nxt_at; by rewrite <- Hrev).
  assert (nxt l id = hdn l2) as Hn by by apply nxt_at.
  unfold grp_remove.
  wp1. apply fwd_get_wp; [apply Hr|done|]. wp1. apply bwd_get_wp; [apply Hr|done|].
  rewrite (gr_nxt _ _ _ Hr), (gr_prv _ _ _ Hr), Hp, Hn.
  assert (id ∉ l1 ∧ id ∉ l2) as [Hnin1 Hnin2].
  { unfold l in Hnd. apply NoDup_app in Hnd as (? & Hd & ?%NoDup_cons). split; [|tauto]. intros Hin. apply (Hd id Hin). set_solver. }
  wp1. apply (sat_mono _ _ (λ g' _, ∃ b, g' = Grp (g_head g) (g_tail g) (g_fwd g) b ∧ lgood cap b ∧
     ∀ x, alk b x = if decide (last (reverse l2) = Some x) then hdn (reverse l1) else nxt (reverse l) x) _ P); [| |done].
  { destruct l2 as [|y l2].
    - change (hdn []) with NULL_ID. rewrite N.eqb_refl. wp. exists (g_bwd g). split_and!; [by destruct g|apply Hr|].
      intros x. apply Hr.
    - destruct (gr_lt _ _ _ Hr y) as [Hy Hyn]; [unfold l; set_solver|]. apply N.eqb_neq in Hyn. change (hdn (y :: l2)) with y. rewrite Hyn.
      apply bwd_set_wp; [apply Hr|done|]. intros b' Hb Hbx. exists b'. split_and!; [done..|]. intros x.
      rewrite Hbx, (gr_prv _ _ _ Hr), reverse_cons, last_snoc. repeat case_decide; congruence. }
  intros g1 _ (b1 & -> & Hb1 & Hbx1).
  wp1. apply bwd_get_wp; [done|done|]. simpl g_bwd. rewrite Hbx1.
  rewrite decide_False by (intros ?%last_Some_elem_of; by rewrite elem_of_reverse in *).
  rewrite Hp.
  wp1. apply (sat_mono _ _ (λ g' _, ∃ f, g' = Grp (g_head g) (g_tail g) f b1 ∧ lgood cap f ∧
     ∀ x, alk f x = if decide (last l1 = Some x) then hdn l2 else nxt l x) _ P); [| |done].
  { destruct l1 as [|y l1' _] using rev_ind.
    - change (hdn (reverse [])) with NULL_ID. rewrite N.eqb_refl. wp. exists (g_fwd g). split_and!; [done|apply Hr|].
      intros x. apply Hr.
    - destruct (gr_lt _ _ _ Hr y) as [Hy Hyn]; [unfold l; set_solver|]. apply N.eqb_neq in Hyn. rewrite reverse_snoc. change (hdn (y :: reverse l1')) with y. rewrite Hyn.
      wp1. apply fwd_get_wp; [apply Hr|done|]. apply fwd_set_wp; [apply Hr|done|]. intros f' Hf Hfx. exists f'. split_and!; [done..|]. intros x.
      rewrite Hfx, !(gr_nxt _ _ _ Hr), last_snoc. repeat case_decide; congruence. }
  intros g2 _ (f1 & -> & Hf1 & Hfx1).
  do 3 wp1. simpl g_head.
  apply (sat_mono _ _ (λ g' _, g' = Grp (hdn (l1 ++ l2)) (g_tail g) f1 b1) _ P); [| |done].
  { rewrite (gr_head _ _ _ Hr). unfold l. rewrite !hdn_app. destruct l1 as [|y l1].
    - simpl. rewrite N.eqb_refl. wp1. apply fwd_get_wp; [done|done|]. wp. simpl. rewrite Hfx1, decide_False, Hn by done. done.
    - simpl. destruct (N.eqb_spec y id) as [->|]; [exfalso; set_solver|]. wp. done. }
  intros g3 _ ->. do 3 wp1. simpl g_tail.
  apply (sat_mono _ _ (λ g' _, g' = Grp (hdn (l1 ++ l2)) (hdn (reverse (l1 ++ l2))) f1 b1) _ P); [| |done].
  { rewrite (gr_tail _ _ _ Hr), Hrev, reverse_app, !hdn_app. destruct l2 as [|y l2 _] using rev_ind.
    - simpl. rewrite N.eqb_refl. wp1. apply bwd_get_wp; [done|done|]. wp. simpl. rewrite Hbx1, decide_False, Hp by done. done.
    - rewrite reverse_snoc. simpl. destruct (N.eqb_spec y id) as [->|]; [exfalso; set_solver|]. wp. done. }
  intros g4 _ ->. wp1. apply bwd_set_wp; [done|done|]. intros b' Hb Hbx.
  apply fwd_set_wp; [done|done|]. intros f' Hf Hfx. simpl in *.
  assert (NoDup (l1 ++ l2)) as Hnd'.
  { unfold l in Hnd. apply NoDup_app in Hnd as (? & Hd & [? ?]%NoDup_cons). apply NoDup_app. split_and!; [done| |done].
    intros x Hx Hx2. apply (Hd x Hx). set_solver. }
  split; simpl; try done.
  - intros x Hx. apply (gr_lt _ _ _ Hr). unfold l. set_solver.
  - intros x. rewrite Hfx, Hfx1, (nxt_remove l1 id l2 x) by done. done.
  - intros x. rewrite Hbx, Hbx1, reverse_app, (nxt_remove (reverse l2) id (reverse l1) x) by by rewrite <- Hrev.
    by rewrite <- Hrev.
Qed.
Lemma grp_remove_notin_wp g l id P : grp_repr cap g l → id < cap → id ≠ NULL_ID → id ∉ l →
  sat U (grp_remove id g) (λ g' _, grp_repr cap g' l) P.
Proof.
  intros Hr Hid Hnull Hnin. unfold grp_remove.
  assert (id ∉ reverse l) as Hninr by by rewrite elem_of_reverse.
  wp1. apply fwd_get_wp; [apply Hr|done|]. wp1. apply bwd_get_wp; [apply Hr|done|].
  rewrite (gr_nxt _ _ _ Hr), (gr_prv _ _ _ Hr), (nxt_notin l), (nxt_notin (reverse l)) by done.
  rewrite N.eqb_refl. do 3 wp1. apply bwd_get_wp; [apply Hr|done|].
  rewrite (gr_prv _ _ _ Hr), (nxt_notin (reverse l)) by done. rewrite N.eqb_refl. do 4 wp1.
  assert ((g_head g =? id) = false) as ->.
  { apply N.eqb_neq. rewrite (gr_head _ _ _ Hr). destruct l; simpl; set_solver. }
  do 4 wp1.
  assert ((g_tail g =? id) = false) as ->.
  { apply N.eqb_neq. rewrite (gr_tail _ _ _ Hr). destruct (reverse l); simpl; set_solver. }
  do 3 wp1. apply bwd_set_wp; [apply Hr|done|]. intros b Hb Hbx. apply fwd_set_wp; [apply Hr|done|]. intros f Hf Hfx.
  split; simpl; try apply Hr; try done.
  - intros x. rewrite Hfx. simpl. rewrite (gr_nxt _ _ _ Hr). case_decide; [|done]. subst. by rewrite nxt_notin.
  - intros x. rewrite Hbx. simpl. rewrite (gr_prv _ _ _ Hr). case_decide; [|done]. subst. by rewrite nxt_notin.
Qed.

Definition idrop (id : N) (l : list N) : list N := filter (λ x, x ≠ id) l.
Lemma idrop_in l1 id l2 : NoDup (l1 ++ id :: l2) → idrop id (l1 ++ id :: l2) = l1 ++ l2.
Proof.
  intros (? & Hd & [Hn ?]%NoDup_cons)%NoDup_app. unfold idrop. rewrite filter_app, filter_cons_False by naive_solver.
  f_equal; apply list_filter_all_ne; [|done]. intros Hin. apply (Hd id Hin). set_solver.
Qed.
Lemma idrop_notin id l : id ∉ l → idrop id l = l.
Proof. apply list_filter_all_ne. Qed.
Lemma grp_remove_wp g l id P : grp_repr cap g l → id < cap → id ≠ NULL_ID →
  sat U (grp_remove id g) (λ g' _, grp_repr cap g' (idrop id l)) P.
Proof.
  intros Hr Hid Hnull. destruct (decide (id ∈ l)) as [Hin|Hnin].
  - apply elem_of_list_split in Hin as (l1 & l2 & ->). rewrite idrop_in by apply Hr. by apply grp_remove_in_wp.
  - rewrite idrop_notin by done. by apply grp_remove_notin_wp.
Qed.

(** Growing. *)
Lemma links_grow_ok a new : lgood cap a → cap ≤ new → ∃ a', links_grow a cap new = POk a' ∧ lgood new a' ∧ ∀ x, alk a' x = alk a x.
Proof.
  intros [Hl Hf] Hle. unfold links_grow, arealloc. destruct (N.eqb_spec cap new) as [<-|Hne].
  { simpl. eexists. split; [done|]. rewrite Hl, Nat.sub_diag, take_ge, app_nil_r by lia. done. }
  rewrite copy_prefix_le by (unfold alloc_uninit; rewrite ?replicate_length; lia). simpl.
  eexists. split; [done|]. split; [split|].
  - unfold alloc_uninit. rewrite !app_length, take_length, app_length, take_length, !drop_length, !replicate_length. lia.
  - apply Forall_app. split; [|by apply Forall_replicate; eauto].
    rewrite take_app_le by (rewrite take_length; lia). rewrite take_take. by apply Forall_take.
  - intros x. unfold alk. rewrite take_app_le by (rewrite take_length; lia). rewrite take_take, Nat.min_id.
    destruct (decide (x < cap)) as [Hx|Hx].
    + rewrite lookup_app_l by (rewrite take_length; lia). by rewrite lookup_take by lia.
    + rewrite (lookup_ge_None_2 a) by lia. destruct (_ !! _) as [[]|] eqn:E; [|done..].
      rewrite lookup_app_r in E by (rewrite take_length; lia). by apply lookup_replicate in E as [[= ->] _].
Qed.
End ops.
