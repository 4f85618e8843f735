(** OrdersX.v — misuse of order groups: what is detected and what is not; deciding proper use of concrete histories. *)
From Verif.Proofs Require Export OrdersH ExecP.
Local Open Scope N_scope.

Lemma member_linked cap g l id : grp_repr cap g l → id ∈ l → (2 ≤ length l)%nat →
  nxt l id ≠ NULL_ID ∨ nxt (reverse l) id ≠ NULL_ID.
Proof.
  intros Hr (l1 & l2 & ->)%elem_of_list_split Hlen. pose proof (gr_nodup _ _ _ Hr) as Hnd.
  assert (reverse (l1 ++ id :: l2) = reverse l2 ++ id :: reverse l1) as Hrev by (rewrite reverse_app, reverse_cons, <- app_assoc; done).
  rewrite nxt_at by done.
  assert (NoDup (reverse (l1 ++ id :: l2))) as Hndr by by rewrite reverse_Permutation.
  rewrite Hrev in Hndr |- *. rewrite nxt_at by done.
  destruct l2 as [|y l2].
  - right. destruct l1 as [|y l1 _] using rev_ind; [simpl in Hlen; lia|]. rewrite reverse_snoc. simpl.
    apply (gr_lt _ _ _ Hr). set_solver.
  - left. simpl. apply (gr_lt _ _ _ Hr). set_solver.
Qed.
Lemma assert_no_order_linked U f b g (Q : grp → unit → Prop) : f ≠ NULL_ID ∨ b ≠ NULL_ID →
  sat U (assert_no_order Debug f b g) Q (λ g', g' = g).
Proof.
  intros H. unfold assert_no_order. wp. destruct (N.eqb_spec f NULL_ID); simpl; [|done]. wp.
  destruct (N.eqb_spec b NULL_ID); simpl; [|done]. naive_solver.
Qed.

Section member.
Context (cap : N) (g : grp) (l : list N) (id : N).
Context (Hr : grp_repr cap g l) (Hin : id ∈ l) (Hlen : (2 ≤ length l)%nat).
Lemma grp_add_member : sat False (grp_add Debug id g) (λ _ _, False) (λ g', g' = g).
Proof.
  unfold grp_add. do 2 wp1. cbv beta. destruct (gr_lt _ _ _ Hr id Hin) as [Hid _].
  assert ((g_head g =? NULL_ID) = false) as ->.
  { apply N.eqb_neq. rewrite (gr_head _ _ _ Hr). destruct l as [|y l']; [by apply elem_of_nil in Hin|]. simpl. apply (gr_lt _ _ _ Hr). by left. }
  wp1. eapply (fwd_get_wp _ cap); [apply Hr|done|]. wp1. eapply (bwd_get_wp _ cap); [apply Hr|done|].
  wp1. apply assert_no_order_linked. rewrite (gr_nxt _ _ _ Hr), (gr_prv _ _ _ Hr). by eapply member_linked.
Qed.
Lemma grp_add_next_member to : sat False (grp_add_next Debug id to g) (λ _ _, False) (λ g', g' = g).
Proof.
  unfold grp_add_next. destruct (gr_lt _ _ _ Hr id Hin) as [Hid _].
  wp1. eapply (fwd_get_wp _ cap); [apply Hr|done|]. wp1. eapply (bwd_get_wp _ cap); [apply Hr|done|].
  wp1. apply assert_no_order_linked. rewrite (gr_nxt _ _ _ Hr), (gr_prv _ _ _ Hr). by eapply member_linked.
Qed.
Lemma grp_add_prev_member to : sat False (grp_add_prev Debug id to g) (λ _ _, False) (λ g', g' = g).
Proof.
  unfold grp_add_prev. destruct (gr_lt _ _ _ Hr id Hin) as [Hid _].
  wp1. eapply (fwd_get_wp _ cap); [apply Hr|done|]. wp1. eapply (bwd_get_wp _ cap); [apply Hr|done|].
  wp1. apply assert_no_order_linked. rewrite (gr_nxt _ _ _ Hr), (gr_prv _ _ _ Hr). by eapply member_linked.
Qed.
End member.

Section orders.
Context (c : cfg) (cap : N) (Hbs : search_ok (c_bs c)) (Hmd : c_mode c = Debug).

Lemma grp_put_same s cap' G gs i g : orders_inv s cap' G gs → gs !! i = Some g → grp_put i g s = s.
Proof.
  intros Hi Hg. destruct s. destruct Hi as [H1 H2 H3 H4 H5 H6 H7 H8 H9]. simpl in *. unfold grp_put. simpl.
  rewrite H3, H4, H5, H6. f_equal; apply list_insert_id, list_lookup_fmap_Some_2, Hg.
Qed.
Lemma reserve_panic s cap' G t (m : M grp unit) : orders_hold s cap' G → G t ≠ [] →
  (∀ g, grp_repr cap' g (G t) → sat False (m g) (λ _ _, False) (λ g', g' = g)) →
  (i ← reserve_group c t; with_grp i m) s = RPanic s.
Proof.
  intros (gs & Hi) Hne Hm. unfold reserve_group.
  destruct (search_cases _ _ t Hbs (ord_sorted _ _ _ _ Hi)) as [(i & Hs & Hl)|(i & Hs & Hle & Hn & Hst)].
  2:{ destruct Hne. by apply (ord_other _ _ _ _ Hi). }
  destruct (lookup_lt_is_Some_2 gs i) as [g Hg]. { rewrite (ord_len _ _ _ _ Hi). by eapply lookup_lt_Some. }
  assert (grp_repr cap' g (G t)) as Hr by (apply (ord_repr _ _ _ _ Hi); by exists i).
  unfold mbind, M_bind, getS. rewrite Hs. unfold mret, M_ret, with_grp.
  rewrite (grp_at_inv _ _ _ _ _ Hi), Hg. unfold zoom. specialize (Hm g Hr).
  destruct (m g) as [| g'|]; simpl in Hm; [done| |done]. subst g'. by rewrite (grp_put_same _ _ _ _ _ _ Hi Hg).
Qed.

Lemma readd_panics tr s g e : run c cap tr s → orders_proper tr → e ∈ members tr g → (2 ≤ length (members tr g))%nat →
  step c (OOrdAdd g e) s = RPanic s ∧
  ∀ to, step c (OOrdNext g e to) s = RPanic s ∧ step c (OOrdPrev g e to) s = RPanic s.
Proof.
  intros Hr Hp He Hlen. destruct (run_orders c cap Hbs Hmd _ _ Hr Hp) as [_ Hh].
  assert (e_id e ∈ e_id <$> members tr g) as Hid by by apply elem_of_list_fmap_1.
  assert (e_id <$> members tr g ≠ []) as Hne by (destruct (members tr g); [simpl in Hlen; lia|done]).
  assert (∀ m, (i ← reserve_group c g; with_grp i m) (st_orders s) = RPanic (st_orders s) →
    no_out (on_orders (i ← reserve_group c g; with_grp i m)) s = RPanic s) as Hz.
  { intros m Hm. unfold no_out, on_orders. unfold mbind at 1, M_bind at 1. unfold zoom. rewrite Hm. by destruct s. }
  simpl. unfold add_order, add_order_next, add_order_prev, orders_add, orders_add_next, orders_add_prev. rewrite Hmd.
  split; [|intros to; split]; apply Hz; eapply reserve_panic; try done; intros gr Hgr; simpl in *.
  - eapply grp_add_member; [done..|]. by rewrite fmap_length.
  - eapply grp_add_next_member; [done..|]. by rewrite fmap_length.
  - eapply grp_add_prev_member; [done..|]. by rewrite fmap_length.
Qed.

(** Proper calls succeed. *)
Lemma proper_order_ok tr s o : run c cap tr s → orders_proper tr → order_use_ok tr o →
  match o with OOrdAdd _ _ | OOrdNext _ _ _ | OOrdPrev _ _ _ | OOrdDel _ _ => True | _ => False end →
  ∃ s', step c o s = ROk s' None.
Proof.
  intros Hr Hp Hu Ho. destruct (run_orders c cap Hbs Hmd _ _ Hr Hp) as [Hg Hh].
  assert (∀ e1 e2, alive_in tr e1 → alive_in tr e2 → e_id e1 = e_id e2 → e1 = e2) as Huniq by by eapply live_ids.
  assert (∀ g e, alive_in tr e → ∀ x, x ∈ members tr g → e_id x = e_id e → x = e) as Hinj.
  { intros g e He x Hx Heq. apply Huniq; [by apply (Hg g)|done|done]. }
  assert (∀ m Q, sat False (m (st_orders s)) Q (λ _, False) → ∃ s', no_out (on_orders m) s = ROk s' None) as Hz.
  { intros m Q Hm. unfold no_out, on_orders, mbind, M_bind, zoom. destruct (m (st_orders s)); simpl in Hm; [eauto|done..]. }
  destruct o as [| | | | | | | | |g e|g e to|g e to|g e]; try done; simpl in *.
  - destruct Hu as [Ha Hni]. destruct (alive_id _ _ Hbs Hmd _ _ _ Hr Ha) as [H1 H2].
    eapply Hz, (orders_add_wp c Hbs False _ _ _ _ _ _ Hh H1 H2). apply id_notin; [|done]. by apply Hinj.
  - destruct Hu as (Ha & Hni & Hto). destruct (alive_id _ _ Hbs Hmd _ _ _ Hr Ha) as [H1 H2].
    apply elem_of_list_split in Hto as (l1 & l2 & Hl).
    eapply Hz, (orders_add_next_wp c Hbs False _ _ _ _ _ _ (e_id <$> l1) (e_id <$> l2) _ Hh H1 H2); [apply id_notin; [by apply Hinj|done]|].
    by rewrite Hl, fmap_app.
  - destruct Hu as (Ha & Hni & Hto). destruct (alive_id _ _ Hbs Hmd _ _ _ Hr Ha) as [H1 H2].
    apply elem_of_list_split in Hto as (l1 & l2 & Hl).
    eapply Hz, (orders_add_prev_wp c Hbs False _ _ _ _ _ _ (e_id <$> l1) (e_id <$> l2) _ Hh H1 H2); [apply id_notin; [by apply Hinj|done]|].
    by rewrite Hl, fmap_app.
  - destruct (alive_id _ _ Hbs Hmd _ _ _ Hr Hu) as [H1 H2]. eapply Hz, (orders_remove_wp c Hbs False _ _ _ _ _ _ Hh H1 H2).
Qed.

(** Destruction, read through the API. *)
Lemma destroy_order tr s e s' r g : run c cap tr s → orders_proper tr → step c (ODestroy e) s = ROk s' r →
  let l := filter (λ x, x ≠ e) (members tr g) in
  first_ordered c s' g = POk (head l) ∧ last_ordered c s' g = POk (last l) ∧
  (∀ i x, l !! i = Some x → next_ordered c s' g x = POk (l !! S i) ∧ previous_ordered c s' g x = POk (before l i)) ∧
  next_ordered c s' g e = POk None ∧ previous_ordered c s' g e = POk None.
Proof.
  intros Hr Hp H l. pose proof (run_step _ _ _ _ _ _ _ Hr H) as Hr'.
  assert (orders_proper (tr ++ [(ODestroy e, r)])) as Hp'.
  { intros tr1 o1 r1 tr2 Heq. destruct tr2 as [|x tr2 _] using rev_ind.
    + apply app_inj_tail in Heq as [-> [= <- <-]]. done.
    + rewrite app_comm_cons, app_assoc in Heq. apply app_inj_tail in Heq as [-> _]. by eapply Hp. }
  destruct (order_exact c cap Hbs Hmd _ _ g Hr' Hp') as (_ & _ & Hf & Hl & Hn & _).
  destruct (run_orders c cap Hbs Hmd _ _ Hr Hp) as [Hg _]. destruct (Hg g) as [_ Ha].
  destruct (run_orders c cap Hbs Hmd _ _ Hr' Hp') as [_ Hh].
  rewrite order_snoc in Hf, Hl, Hn. simpl in Hf, Hl, Hn. split_and!; [done|done|done| |].
  all: pose proof (destroy_alive c cap Hmd _ _ _ _ _ Hr H) as He.
  all: destruct (get_link_spec c Hbs _ _ _ g (e_id e) Hh) as [H1 H2];
    [pose proof (alive_id c cap Hbs Hmd _ _ _ Hr He) as [? _]; pose proof (capacity_mono _ _ Hmd _ _ _ _ _ Hr H);
     unfold entities_capacity in *; lia|].
  all: assert (e_id e ∉ e_id <$> members (tr ++ [(ODestroy e, r)]) g) as Hni
    by (rewrite order_snoc; simpl; intros (x & Heq & [Hne Hx]%elem_of_list_filter)%elem_of_list_fmap; apply Hne;
        eapply (proj1 (live_ids _ _ Hmd _ _ Hr)); [by apply Ha|done|done]).
  - unfold next_ordered. by rewrite H1, nxt_notin.
  - unfold previous_ordered. by rewrite H2, nxt_notin by by rewrite elem_of_reverse.
Qed.
(** New entities are in no group. *)
Lemma new_in_no_group tr s o e s' g : run c cap tr s → orders_proper tr → step c o s = ROk s' (Some e) →
  e ∉ members tr g ∧
  next_ordered c s' g e = POk None ∧ previous_ordered c s' g e = POk None ∧
  first_ordered c s' g ≠ POk (Some e) ∧ last_ordered c s' g ≠ POk (Some e).
Proof.
  intros Hr Hp H.
  assert (o = OCreate ∨ ∃ a, o = OCreateWith a) as Ho by (eapply creation_returns; [exact Hr|exact H|eauto]).
  pose proof (run_step _ _ _ _ _ _ _ Hr H) as Hr'.
  assert (∀ g, members (tr ++ [(o, Some e)]) g = members tr g) as Hm.
  { intros g'. rewrite order_snoc. simpl. by destruct Ho as [->|[a ->]]. }
  assert (orders_proper (tr ++ [(o, Some e)])) as Hp'.
  { intros tr1 o1 r1 tr2 Heq. destruct tr2 as [|x tr2 _] using rev_ind.
    + apply app_inj_tail in Heq as [-> [= <- <-]]. by destruct Ho as [->|[a ->]].
    + rewrite app_comm_cons, app_assoc in Heq. apply app_inj_tail in Heq as [-> _]. by eapply Hp. }
  destruct (run_orders c cap Hbs Hmd _ _ Hr Hp) as [Hg _]. destruct (Hg g) as [_ Ha].
  assert (e ∉ members tr g) as Hni.
  { intros He%Ha. pose proof (handles_nodup _ _ Hmd _ _ Hr') as [Hnd _]. rewrite issued_snoc in Hnd.
    apply NoDup_app in Hnd as (_ & Hd & _). apply (Hd e); [|set_solver].
    destruct He as (tr1 & [o1 r1] & tr2 & -> & Hx & _). simpl in Hx. subst r1.
    unfold issued. rewrite omap_app. simpl. set_solver. }
  destruct (order_exact c cap Hbs Hmd _ _ g Hr' Hp') as (_ & _ & Hf & Hl & _ & Hn). rewrite Hm in *.
  destruct (Hn e) as [H1 H2]; [apply alive_snoc; by left|done|].
  split_and!; [done|done|done| |].
  - rewrite Hf. intros [= Heq]. apply Hni. destruct (members tr g); [done|]. injection Heq as ->. by left.
  - rewrite Hl. intros [= Heq]. by apply Hni, last_Some_elem_of.
Qed.
End orders.

(** Deciding proper use. *)
Definition use_check (L : gset entity) (G : tid → list entity) (o : op) : bool :=
  match o with
  | OOrdAdd g e => bool_decide (e ∈ L) && bool_decide (e ∉ G g)
  | OOrdNext g e to | OOrdPrev g e to => bool_decide (e ∈ L) && bool_decide (e ∉ G g) && bool_decide (to ∈ G g)
  | OOrdDel g e => bool_decide (e ∈ L)
  | _ => true
  end.
Fixpoint proper_check (tr0 tr : trace) : bool :=
  match tr with
  | [] => true
  | x :: r => use_check (live tr0) (members tr0) x.1 && proper_check (tr0 ++ [x]) r
  end.
Lemma proper_check_ok tr0 tr : proper_check tr0 tr = true →
  ∀ tr1 o r tr2, tr = tr1 ++ (o, r) :: tr2 → order_use_ok (tr0 ++ tr1) o.
Proof.
  revert tr0. induction tr as [|x tr IH]; intros tr0 H tr1 o r tr2 Heq; [by destruct tr1|].
  simpl in H. apply andb_prop in H as [Hx H]. destruct tr1 as [|y tr1]; simpl in Heq.
  - injection Heq as -> ->. rewrite app_nil_r. simpl in Hx.
    destruct o; simpl in *; try done; rewrite <- ?live_alive;
      repeat match goal with H : _ && _ = true |- _ => apply andb_prop in H as [? ?] end;
      repeat match goal with H : bool_decide _ = true |- _ => apply bool_decide_eq_true in H end; done.
  - injection Heq as <- ->. rewrite cons_middle, app_assoc. by eapply (IH (tr0 ++ [x])).
Qed.
Lemma orders_proper_check tr : proper_check [] tr = true → orders_proper tr.
Proof. intros H tr1 o r tr2 Heq. by eapply (proper_check_ok [] tr). Qed.

(** The only member of a group can be added again: it becomes its own successor. *)
Definition self_loop : list (list entity → op) :=
  [λ _, OCreate; λ hs, OOrdAdd 9 (h 0 hs); λ hs, OOrdAdd 9 (h 0 hs)].
Lemma readd_refuted : ¬ ∀ c cap tr s g e s' r,
  cfg_ok c → c_mode c = Debug → run c cap tr s → orders_proper tr → e ∈ members tr g → step c (OOrdAdd g e) s ≠ ROk s' r.
Proof.
  intros H.
  assert (∃ s', step (ex_cfg Debug) (OOrdAdd 9 (Entity 0 1)) (end_store (ex_cfg Debug) 1 (take 2 self_loop)) = ROk s' None) as (s' & Hs).
  { eexists. vm_compute. reflexivity. }
  eapply (H (ex_cfg Debug) 1 (end_trace (ex_cfg Debug) 1 (take 2 self_loop))); [apply ex_cfg_ok|done| | | |exact Hs].
  - apply end_run. vm_compute. reflexivity.
  - apply orders_proper_check. vm_compute. reflexivity.
  - vm_compute. by left.
Qed.

(** An entity inserted next to a non-member cannot be reached from either end. *)
Definition lost_insert : list (list entity → op) :=
  [λ _, OCreate; λ _, OCreate; λ _, OCreate; λ hs, OOrdAdd 9 (h 0 hs); λ hs, OOrdNext 9 (h 1 hs) (h 2 hs)].
(** Members of a group as seen through the API: from the first one along the next ones, at most [n]. *)
Fixpoint walk (c : cfg) (s : store) (g : tid) (n : nat) (o : pres (option entity)) : list entity :=
  match n, o with
  | S n, POk (Some e) => e :: walk c s g n (next_ordered c s g e)
  | _, _ => []
  end.
Lemma walk_stop c s g n o : walk c s g n o = walk c s g n (match o with POk (Some e) => o | _ => POk None end).
Proof. destruct n, o as [[]| |]; done. Qed.
Lemma lost_refuted : ¬ ∀ c cap tr s g e to s' r,
  cfg_ok c → c_mode c = Debug → run c cap tr s → orders_proper tr → alive_in tr e → alive_in tr to → to ∉ members tr g →
  step c (OOrdNext g e to) s = ROk s' r → ∃ n, e ∈ walk c s' g n (first_ordered c s' g).
Proof.
  intros H.
  assert (∃ s', step (ex_cfg Debug) (OOrdNext 9 (Entity 1 1) (Entity 2 1)) (end_store (ex_cfg Debug) 1 (take 4 lost_insert)) = ROk s' None ∧
    first_ordered (ex_cfg Debug) s' 9 = POk (Some (Entity 0 1)) ∧ next_ordered (ex_cfg Debug) s' 9 (Entity 0 1) = POk None)
    as (s' & Hs & Hf & Hn).
  { eexists. split; [vm_compute; reflexivity|]. split; vm_compute; reflexivity. }
  destruct (H (ex_cfg Debug) 1 (end_trace (ex_cfg Debug) 1 (take 4 lost_insert)) (end_store (ex_cfg Debug) 1 (take 4 lost_insert)) 9 (Entity 1 1) (Entity 2 1) s' None) as (n & Hin);
    [apply ex_cfg_ok|done| | | | | |exact Hs|].
  - apply end_run. vm_compute. reflexivity.
  - apply orders_proper_check. vm_compute. reflexivity.
  - apply live_alive. vm_compute. reflexivity.
  - apply live_alive. vm_compute. reflexivity.
  - vm_compute. intros Hx. inversion Hx as [|? ? ? Hx']; subst. inversion Hx'.
  - rewrite Hf in Hin. destruct n as [|n]; simpl in Hin; [by apply elem_of_nil in Hin|].
    rewrite Hn in Hin. destruct n as [|n]; simpl in Hin; by apply elem_of_list_singleton in Hin.
Qed.
