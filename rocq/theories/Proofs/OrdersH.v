(** OrdersH.v — order groups over whole histories. *)
From Verif.Proofs Require Export OrdersP.
Local Open Scope N_scope.

Lemma order_snoc tr x g : members (tr ++ [x]) g = order_step g (members tr g) x.1.
Proof. unfold members. by rewrite foldl_app. Qed.
Lemma insert_after_split to e l : to ∈ l → ∃ l1 l2, l = l1 ++ to :: l2 ∧ insert_after to e l = l1 ++ to :: e :: l2.
Proof.
  induction l as [|x l IH]; [by intros ?%elem_of_nil|]. intros Hin. simpl. case_bool_decide as Hx.
  - subst. by exists [], l.
  - apply elem_of_cons in Hin as [?|Hin]; [congruence|]. destruct (IH Hin) as (l1 & l2 & -> & ->). by exists (x :: l1), l2.
Qed.
Lemma insert_before_split to e l : to ∈ l → ∃ l1 l2, l = l1 ++ to :: l2 ∧ insert_before to e l = l1 ++ e :: to :: l2.
Proof.
  induction l as [|x l IH]; [by intros ?%elem_of_nil|]. intros Hin. simpl. case_bool_decide as Hx.
  - subst. by exists [], l.
  - apply elem_of_cons in Hin as [?|Hin]; [congruence|]. destruct (IH Hin) as (l1 & l2 & -> & ->). by exists (x :: l1), l2.
Qed.
Lemma idrop_fmap (e : entity) (l : list entity) : (∀ x, x ∈ l → e_id x = e_id e → x = e) →
  idrop (e_id e) (e_id <$> l) = e_id <$> filter (λ x, x ≠ e) l.
Proof.
  induction l as [|y l IH]; intros Hinj; [done|]. unfold idrop in *. rewrite fmap_cons.
  destruct (decide (y = e)) as [->|Hne].
  - rewrite filter_cons_False by naive_solver. rewrite filter_cons_False by naive_solver. apply IH. set_solver.
  - rewrite filter_cons_True. 2:{ intros Heq. apply Hne, Hinj; [by left|done]. }
    rewrite filter_cons_True by done. rewrite fmap_cons. f_equal. apply IH. set_solver.
Qed.
Lemma id_notin (e : entity) (l : list entity) : (∀ x, x ∈ l → e_id x = e_id e → x = e) → e ∉ l → e_id e ∉ e_id <$> l.
Proof. intros Hinj Hni (x & Heq & Hx)%elem_of_list_fmap. apply Hni. by rewrite <- (Hinj x Hx). Qed.
Lemma alive_snoc tr o r e : alive_in (tr ++ [(o, r)]) e ↔ r = Some e ∨ (alive_in tr e ∧ o ≠ ODestroy e).
Proof. apply since_snoc. Qed.

Lemma proper_snoc tr o r : orders_proper (tr ++ [(o, r)]) → orders_proper tr ∧ order_use_ok tr o.
Proof.
  intros H. split; [|by apply (H tr o r [])].
  intros tr1 o1 r1 tr2 ->. apply (H tr1 o1 r1 (tr2 ++ [(o, r)])). by rewrite <- app_assoc.
Qed.

Section orders.
Context (c : cfg) (cap : N) (Hbs : search_ok (c_bs c)) (Hmd : c_mode c = Debug).

Lemma alive_id tr s e : run c cap tr s → alive_in tr e → e_id e < ec_cap (st_ec s) ∧ e_id e ≠ NULL_ID.
Proof.
  intros Hr Ha. split; [by eapply live_ids|]. destruct (handles_nodup _ _ Hmd _ _ Hr) as [_ Hf].
  rewrite Forall_forall in Hf. apply Hf. destruct Ha as (tr1 & [o r] & tr2 & -> & Hx & _). simpl in Hx. subst r.
  unfold issued. rewrite omap_app. simpl. set_solver.
Qed.

Lemma destroy_alive tr s e s' r : run c cap tr s → step c (ODestroy e) s = ROk s' r → alive_in tr e.
Proof.
  intros Hr H. destruct (decide (e ∈ live tr)) as [?%live_alive|Hn]; [done|].
  exfalso. eapply destroy_dead_rejected; [exact Hmd|exact Hr| |exact H]. by rewrite <- live_alive.
Qed.

(** One call, [alv] being handles that include all live ones. *)
Definition orders_match (tr : trace) (s : store) : Prop :=
  (∀ g, NoDup (members tr g) ∧ ∀ e, e ∈ members tr g → alive_in tr e) ∧
  orders_hold (st_orders s) (ec_cap (st_ec s)) (λ g, e_id <$> members tr g).
Lemma orders_match_step (alv : entity → Prop) tr s o s' r : orders_match tr s →
  (∀ e, alive_in tr e → alv e) → (∀ e1 e2, alv e1 → alv e2 → e_id e1 = e_id e2 → e1 = e2) →
  (∀ e, alv e → e_id e < ec_cap (st_ec s) ∧ e_id e ≠ NULL_ID) → ec_cap (st_ec s) ≤ ec_cap (st_ec s') →
  (∀ e, o = ODestroy e → alv e) → order_use_ok tr o → step c o s = ROk s' r → orders_match (tr ++ [(o, r)]) s'.
Proof.
    intros [Hg Hh] Halv Huniq Hlt Hcap Hdes Huse H.
    assert (∀ g e, alv e → ∀ x, x ∈ members tr g → e_id x = e_id e → x = e) as Hinj.
    { intros g e He x Hx Heq. apply Huniq; [by apply Halv, (Hg g)|done|done]. }
    enough ((∀ g, NoDup (order_step g (members tr g) o) ∧ ∀ e, e ∈ order_step g (members tr g) o → alive_in (tr ++ [(o, r)]) e) ∧
      orders_hold (st_orders s') (ec_cap (st_ec s')) (λ g, e_id <$> order_step g (members tr g) o)) as [H1 H2].
    { split.
      - intros g. rewrite order_snoc. apply H1.
      - eapply orders_hold_ext; [|exact H2]. intros g. by rewrite order_snoc. }
    assert (∀ e, (∀ g, e ∈ order_step g (members tr g) o → alive_in tr e ∧ o ≠ ODestroy e) →
              (∀ g, e ∈ order_step g (members tr g) o → alive_in (tr ++ [(o, r)]) e)) as Hal.
    { intros e He g Hin. apply alive_snoc. right. by apply (He g). }
    pose proof H as Hs. apply step_orders in Hs.
    inversion Hs as [o' Ho Hs'|e Hc Hs'|g e Hc Hs'|g e to Hc Hs'|g e to Hc Hs'|g e Hc Hs'|o' Ho Hc Hs']; subst; simpl in *.
    + assert (∀ g, order_step g (members tr g) o = members tr g) as Heq by (destruct Ho as [->|[a ->]]; done).
      assert (∀ e, o ≠ ODestroy e) as Hnd by (destruct Ho as [->|[a ->]]; done).
      split.
      * intros g. rewrite Heq. split; [apply Hg|]. intros e He. apply (Hal e) with g; [|by rewrite Heq].
        intros g'. rewrite Heq. intros He'. split; [by apply (Hg g')|done].
      * eapply orders_hold_ext; [intros t; by rewrite Heq|].
        destruct Hs' as [[-> ->]|Hs']; [done|].
        by apply (sat_ok True _ _ _ _ _ (orders_grow_wp c True _ _ _ _ (λ _, True) Hh Hcap) Hs').
    + pose proof (Hdes e eq_refl) as He. destruct (Hlt e He) as [He1 He2].
      split.
      * intros g. split; [apply NoDup_filter, Hg|]. intros x Hx. apply (Hal x) with g; [|done].
        intros g'. rewrite elem_of_list_filter. intros [Hne Hx']. split; [by apply (Hg g')|congruence].
      * rewrite Hc. eapply orders_hold_ext.
        2:{ apply (sat_ok True _ _ _ _ _ (orders_remove_all_wp True _ _ _ _ (λ _, True) Hh He1 He2) Hs'). }
        intros t. simpl. apply idrop_fmap. by apply Hinj.
    + destruct Huse as [He Hni]. destruct (Hlt e (Halv e He)) as [He1 He2]. split.
      * intros g'. case_bool_decide as Hgg.
        -- subst g'. split; [apply NoDup_app; split; [apply Hg|]; split; [|apply NoDup_singleton]|].
           ++ intros x Hx ->%elem_of_list_singleton. done.
           ++ intros x Hx. apply alive_snoc. right. split; [|done].
              apply elem_of_app in Hx as [Hx| ->%elem_of_list_singleton]; [by apply (Hg g)|done].
        -- split; [apply Hg|]. intros x Hx. apply alive_snoc. right. split; [by apply (Hg g')|done].
      * rewrite Hc. eapply orders_hold_ext.
        2:{ apply (sat_ok True _ _ _ _ _ (orders_add_wp c Hbs True _ _ _ g _ (λ _, True) Hh He1 He2 (id_notin _ _ (Hinj g e (Halv e He)) Hni)) Hs'). }
        intros t. unfold upd. case_decide as Ht; case_bool_decide; try congruence. subst. by rewrite fmap_app.
    + destruct Huse as (He & Hni & Hto). destruct (Hlt e (Halv e He)) as [He1 He2].
      destruct (insert_after_split to e (members tr g) Hto) as (l1 & l2 & Hl & Hins).
      split.
      * intros g'. case_bool_decide as Hgg.
        -- subst g'. rewrite Hins. split.
           ++ rewrite (Permutation_swap e to l2), <- Permutation_middle, <- Hl. apply NoDup_cons. split; [done|apply Hg].
           ++ intros x Hx. apply alive_snoc. right. split; [|done].
              assert (x = e ∨ x ∈ members tr g) as [->|?] by (rewrite Hl; set_solver); [done|by apply (Hg g)].
        -- split; [apply Hg|]. intros x Hx. apply alive_snoc. right. split; [by apply (Hg g')|done].
      * rewrite Hc.
        assert (e_id <$> members tr g = (e_id <$> l1) ++ e_id to :: (e_id <$> l2)) as Hl' by (by rewrite Hl, fmap_app).
        eapply orders_hold_ext.
        2:{ apply (sat_ok True _ _ _ _ _ (orders_add_next_wp c Hbs True _ _ _ g _ _ _ _ (λ _, True) Hh He1 He2 (id_notin _ _ (Hinj g e (Halv e He)) Hni) Hl') Hs'). }
        intros t. unfold upd. case_decide as Ht; case_bool_decide; try congruence. subst. by rewrite Hins, fmap_app.
    + destruct Huse as (He & Hni & Hto). destruct (Hlt e (Halv e He)) as [He1 He2].
      destruct (insert_before_split to e (members tr g) Hto) as (l1 & l2 & Hl & Hins).
      split.
      * intros g'. case_bool_decide as Hgg.
        -- subst g'. rewrite Hins. split.
           ++ rewrite <- Permutation_middle, <- Hl. apply NoDup_cons. split; [done|apply Hg].
           ++ intros x Hx. apply alive_snoc. right. split; [|done].
              assert (x = e ∨ x ∈ members tr g) as [->|?] by (rewrite Hl; set_solver); [done|by apply (Hg g)].
        -- split; [apply Hg|]. intros x Hx. apply alive_snoc. right. split; [by apply (Hg g')|done].
      * rewrite Hc.
        assert (e_id <$> members tr g = (e_id <$> l1) ++ e_id to :: (e_id <$> l2)) as Hl' by (by rewrite Hl, fmap_app).
        eapply orders_hold_ext.
        2:{ apply (sat_ok True _ _ _ _ _ (orders_add_prev_wp c Hbs True _ _ _ g _ _ _ _ (λ _, True) Hh He1 He2 (id_notin _ _ (Hinj g e (Halv e He)) Hni) Hl') Hs'). }
        intros t. unfold upd. case_decide as Ht; case_bool_decide; try congruence. subst. by rewrite Hins, fmap_app.
    + destruct (Hlt e (Halv e Huse)) as [He1 He2]. split.
      * intros g'. case_bool_decide as Hgg.
        -- subst g'. split; [apply NoDup_filter, Hg|]. intros x [_ Hx]%elem_of_list_filter. apply alive_snoc. right.
           split; [by apply (Hg g)|done].
        -- split; [apply Hg|]. intros x Hx. apply alive_snoc. right. split; [by apply (Hg g')|done].
      * rewrite Hc. eapply orders_hold_ext.
        2:{ apply (sat_ok True _ _ _ _ _ (orders_remove_wp c Hbs True _ _ _ g _ (λ _, True) Hh He1 He2) Hs'). }
        intros t. unfold upd. case_decide as Ht; case_bool_decide; try congruence. subst. apply idrop_fmap. by apply Hinj, Halv.
    + assert (∀ g, order_step g (members tr g) o = members tr g) as Heq by (by destruct o).
      assert (∀ e, o ≠ ODestroy e) as Hnd by (by destruct o).
      split.
      * intros g. rewrite Heq. split; [apply Hg|]. intros e He. apply (Hal e) with g; [|by rewrite Heq].
        intros g'. rewrite Heq. intros He'. split; [by apply (Hg g')|done].
      * eapply orders_hold_ext; [intros t; by rewrite Heq|]. by rewrite Hc, Hs'.
Qed.
Lemma orders_match_init md s : store_with_capacity md cap = POk s → orders_match [] s.
Proof.
  intros H. unfold store_with_capacity in H. apply pbind_ok in H as ([] & _ & [= <-]). simpl. split.
  - intros g. split; [constructor|]. intros e He. by apply elem_of_nil in He.
  - apply orders_new_hold.
Qed.
Lemma run_orders tr s : run c cap tr s → orders_proper tr → orders_match tr s.
Proof.
  induction 1 as [s H|tr s o s' r Hr IH H]; intros Hp; [by eapply orders_match_init|].
  apply proper_snoc in Hp as [Hp Huse]. eapply (orders_match_step (alive_in tr)); [by apply IH|done| | | | |done|exact H].
  - by eapply live_ids.
  - intros e He. by eapply alive_id.
  - exact (capacity_mono _ _ Hmd _ _ _ _ _ Hr H).
  - intros e ->. by eapply destroy_alive.
Qed.

Lemma ec_by_id s I L e : ec_inv (st_ec s) I L → e ∈ L → entity_by_id s (e_id e) = POk e.
Proof. intros Hec Ha. apply (inv_live _ _ _ Hec) in Ha as [_ Hv%aget_ver]. unfold entity_by_id. rewrite Hv. by destruct e. Qed.
Lemma entity_by_id_alive tr s e : run c cap tr s → alive_in tr e → entity_by_id s (e_id e) = POk e.
Proof. intros Hr Ha%live_alive. by eapply ec_by_id; [apply (run_ec _ _ Hmd _ _ Hr)|]. Qed.
Lemma hdn_fmap (l : list entity) : hdn (e_id <$> l) = default NULL_ID (e_id <$> head l).
Proof. by destruct l. Qed.
Lemma opt_by_id (alv : entity → Prop) s (o : option entity) :
  (∀ e, alv e → e_id e ≠ NULL_ID ∧ entity_by_id s (e_id e) = POk e) → (∀ e, o = Some e → alv e) →
  entity_by_id_opt s (POk (onull (default NULL_ID (e_id <$> o)))) = POk o.
Proof.
  intros Hs Ho. destruct o as [e|]; simpl; [|done].
  destruct (Hs e (Ho e eq_refl)) as [Hn%N.eqb_neq He]. unfold onull. rewrite Hn. simpl. by rewrite He.
Qed.
Lemma by_id_opt tr s (o : option entity) : run c cap tr s → (∀ e, o = Some e → alive_in tr e) →
  entity_by_id_opt s (POk (onull (default NULL_ID (e_id <$> o)))) = POk o.
Proof.
  intros Hr. apply opt_by_id. intros e He. split; [by eapply alive_id|by eapply entity_by_id_alive].
Qed.
Lemma head_drop {A} (l : list A) i : head (drop i l) = l !! i.
Proof. revert i. induction l as [|x l IH]; intros [|i]; simpl; [done..|]. apply IH. Qed.
Lemma head_reverse {A} (l : list A) : head (reverse l) = last l.
Proof. destruct l as [|x l _] using rev_ind; [done|]. by rewrite reverse_snoc, last_snoc. Qed.
Lemma last_take {A} (l : list A) i : (S i ≤ length l)%nat → last (take (S i) l) = l !! i.
Proof.
  intros Hi. destruct (lookup_lt_is_Some_2 l i) as [x Hx]; [lia|]. rewrite (take_S_r _ _ _ Hx), last_snoc. done.
Qed.
Lemma nxt_pos (l : list entity) i e : NoDup (e_id <$> l) → l !! i = Some e →
  nxt (e_id <$> l) (e_id e) = default NULL_ID (e_id <$> (l !! S i)) ∧
  nxt (reverse (e_id <$> l)) (e_id e) = default NULL_ID (e_id <$> before l i).
Proof.
  intros Hnd Hi. pose proof (take_drop_middle _ _ _ Hi) as Hs.
  rewrite <- Hs, fmap_app, fmap_cons in Hnd. split.
  - rewrite <- Hs at 1. rewrite fmap_app, fmap_cons, nxt_at by done. by rewrite hdn_fmap, head_drop.
  - rewrite <- Hs at 1. rewrite fmap_app, fmap_cons, reverse_app, reverse_cons, <- app_assoc. simpl.
    rewrite nxt_at. 2:{ rewrite <- (reverse_Permutation ((e_id <$> take i l) ++ _)) in Hnd.
      rewrite reverse_app, reverse_cons, <- app_assoc in Hnd. done. }
    rewrite <- fmap_reverse, hdn_fmap, head_reverse. unfold before. destruct i as [|i]; [done|].
    rewrite last_take; [done|]. apply lookup_lt_Some in Hi. lia.
Qed.

Lemma orders_match_exact tr s g : orders_match tr s →
  (∀ e1 e2, alive_in tr e1 → alive_in tr e2 → e_id e1 = e_id e2 → e1 = e2) →
  (∀ e, alive_in tr e → e_id e < ec_cap (st_ec s) ∧ e_id e ≠ NULL_ID ∧ entity_by_id s (e_id e) = POk e) →
  NoDup (members tr g) ∧ (∀ e, e ∈ members tr g → alive_in tr e) ∧
  first_ordered c s g = POk (head (members tr g)) ∧
  last_ordered c s g = POk (last (members tr g)) ∧
  (∀ i e, members tr g !! i = Some e →
     next_ordered c s g e = POk (members tr g !! S i) ∧ previous_ordered c s g e = POk (before (members tr g) i)) ∧
  (∀ e, alive_in tr e → e ∉ members tr g → next_ordered c s g e = POk None ∧ previous_ordered c s g e = POk None).
Proof.
  intros [Hg Hh] Huniq Hid. destruct (Hg g) as [Hnd Ha].
  assert (∀ e, alive_in tr e → e_id e ≠ NULL_ID ∧ entity_by_id s (e_id e) = POk e) as Hid' by (intros e He; apply Hid, He).
  destruct (get_end_spec c Hbs _ _ _ g Hh) as [Hhd Htl].
  assert (NoDup (e_id <$> members tr g)) as Hndi.
  { apply NoDup_fmap_2_strong; [|done]. intros x y Hx Hy. auto. }
  split_and!; [done|done| | | |].
  - unfold first_ordered. rewrite Hhd, hdn_fmap. apply (opt_by_id (alive_in tr)); [done|]. intros e He. apply Ha.
    destruct (members tr g); [done|]. injection He as ->. by left.
  - unfold last_ordered. rewrite Htl, <- fmap_reverse, hdn_fmap, head_reverse. apply (opt_by_id (alive_in tr)); [done|].
    intros e He. apply Ha. by apply last_Some_elem_of.
  - intros i e Hi. assert (e ∈ members tr g) as He by by eapply elem_of_list_lookup_2.
    destruct (nxt_pos _ _ _ Hndi Hi) as [Hn1 Hn2].
    destruct (get_link_spec c Hbs _ _ _ g (e_id e) Hh) as [H1 H2]; [by apply Hid, Ha|].
    unfold next_ordered, previous_ordered. rewrite H1, H2, Hn1, Hn2. split.
    + apply (opt_by_id (alive_in tr)); [done|]. intros x Hx. apply Ha. by eapply elem_of_list_lookup_2.
    + apply (opt_by_id (alive_in tr)); [done|]. intros x Hx. apply Ha. destruct i as [|i]; [done|]. by eapply elem_of_list_lookup_2.
  - intros e He Hni. destruct (get_link_spec c Hbs _ _ _ g (e_id e) Hh) as [H1 H2]; [by apply Hid|].
    assert (e_id e ∉ e_id <$> members tr g) as Hni'. { apply id_notin; [|done]. intros x Hx. auto. }
    unfold next_ordered, previous_ordered. rewrite H1, H2, !nxt_notin by (rewrite ?elem_of_reverse; done). done.
Qed.
Lemma order_exact tr s g : run c cap tr s → orders_proper tr →
  NoDup (members tr g) ∧ (∀ e, e ∈ members tr g → alive_in tr e) ∧
  first_ordered c s g = POk (head (members tr g)) ∧
  last_ordered c s g = POk (last (members tr g)) ∧
  (∀ i e, members tr g !! i = Some e →
     next_ordered c s g e = POk (members tr g !! S i) ∧ previous_ordered c s g e = POk (before (members tr g) i)) ∧
  (∀ e, alive_in tr e → e ∉ members tr g → next_ordered c s g e = POk None ∧ previous_ordered c s g e = POk None).
Proof.
  intros Hr Hp. apply orders_match_exact; [by apply run_orders|by eapply live_ids|].
  intros e He. split_and!; [by eapply alive_id..|by eapply entity_by_id_alive].
Qed.
End orders.
