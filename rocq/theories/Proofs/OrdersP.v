(** OrdersP.v — order groups: container invariant and whole histories. *)
From Verif.Spec Require Export Orders.
From Verif.Proofs Require Export GroupP SortedP HandlesP.
Local Open Scope N_scope.

(** The container holds, for each group [t], the list [G t] of ids. *)
Record orders_inv (s : orders) (cap : N) (G : tid → list N) (gs : list grp) : Prop := OrdersInv {
  ord_sorted : incr (og_ids s);
  ord_len : length gs = length (og_ids s);
  ord_head : og_head s = g_head <$> gs;
  ord_tail : og_tail s = g_tail <$> gs;
  ord_fwd : og_fwd s = g_fwd <$> gs;
  ord_bwd : og_bwd s = g_bwd <$> gs;
  ord_cap : og_cap s = cap;
  ord_repr : ∀ t g, assocl (og_ids s) gs t g → grp_repr cap g (G t);
  ord_other : ∀ t, t ∉ og_ids s → G t = [];
}.
Definition orders_hold (s : orders) (cap : N) (G : tid → list N) : Prop := ∃ gs, orders_inv s cap G gs.

Lemma orders_hold_ext s cap G G' : (∀ t, G t = G' t) → orders_hold s cap G → orders_hold s cap G'.
Proof.
  intros Heq (gs & [H1 H2 H3 H4 H5 H6 H7 H8 H9]). exists gs. split; try done.
  - intros t g Ha. rewrite <- Heq. eauto.
  - intros t Ht. rewrite <- Heq. eauto.
Qed.
Lemma list_lookup_fmap_Some_2 {A B} (f : A → B) (l : list A) i x : l !! i = Some x → (f <$> l) !! i = Some (f x).
Proof. intros H. by rewrite list_lookup_fmap, H. Qed.
Definition upd (G : tid → list N) (t : tid) (l : list N) : tid → list N := λ t', if decide (t' = t) then l else G t'.

Lemma grp_at_inv s cap G gs i : orders_inv s cap G gs → grp_at s i = gs !! i.
Proof.
  intros Hi. unfold grp_at. rewrite (ord_head _ _ _ _ Hi), (ord_tail _ _ _ _ Hi), (ord_fwd _ _ _ _ Hi), (ord_bwd _ _ _ _ Hi).
  rewrite !list_lookup_fmap. destruct (gs !! i) as [[]|]; done.
Qed.

Lemma orders_new_hold cap : orders_hold (orders_new cap) cap (λ _, []).
Proof.
  exists []. split; simpl; try done; [constructor|]. intros t g (i & Hi & _). done.
Qed.

Section orders.
Context (c : cfg) (Hbs : search_ok (c_bs c)) (U : Prop).

Lemma insert_fmap {A B} (f : A → B) i x l : f <$> (take i l ++ x :: drop i l) = take i (f <$> l) ++ f x :: drop i (f <$> l).
Proof. by rewrite fmap_app, fmap_cons, fmap_take, fmap_drop. Qed.
Lemma vinsert_le {A} (l : list A) i x : (i ≤ length l)%nat → vinsert l i x = POk (take i l ++ x :: drop i l).
Proof. intros. by apply vinsert_ok. Qed.

Lemma reserve_group_wp s cap G t P : orders_hold s cap G →
  sat U (reserve_group c t s) (λ s' i, orders_hold s' cap G ∧ og_ids s' !! i = Some t) P.
Proof.
  intros (gs & Hi). unfold reserve_group. do 2 wp1. cbv beta.
  destruct (search_cases _ _ t Hbs (ord_sorted _ _ _ _ Hi)) as [(i & -> & Hl)|(i & -> & Hle & Hn & Hst)].
  - wp. split; [by exists gs|done].
  - pose proof (ord_len _ _ _ _ Hi) as Hlen.
    do 2 wp1. rewrite vinsert_le by done. wp1. do 4 wp1.
    rewrite (ord_fwd _ _ _ _ Hi), (ord_bwd _ _ _ _ Hi), (ord_head _ _ _ _ Hi), (ord_tail _ _ _ _ Hi).
    rewrite !vinsert_le by (rewrite fmap_length; lia). wp. split.
    + exists (take i gs ++ Grp NULL_ID NULL_ID (alloc_links (og_cap s)) (alloc_links (og_cap s)) :: drop i gs).
      split; simpl; try (by rewrite insert_fmap); [done| |apply Hi| |].
      * rewrite !app_length. simpl. rewrite !take_length, !drop_length, Hlen. done.
      * intros t' g Ha. apply (assoc_insert _ _ _ _ _ _ _ Hlen Hle) in Ha as [[-> ->]|Ha]; [|by apply (ord_repr _ _ _ _ Hi)].
        rewrite (ord_other _ _ _ _ Hi) by done. rewrite (ord_cap _ _ _ _ Hi). apply grp_repr_new.
      * intros t' Ht'. apply (ord_other _ _ _ _ Hi). intros Hin. apply Ht'. 
        rewrite <- (take_drop i (og_ids s)) in Hin. set_solver.
    + simpl. rewrite lookup_app_r by (rewrite take_length; lia). rewrite take_length_le by lia. by rewrite Nat.sub_diag.
Qed.

Lemma with_grp_wp {A} (m : M grp A) s cap G i t l' (Q : orders → A → Prop) P :
  orders_hold s cap G → og_ids s !! i = Some t →
  (∀ g, grp_repr cap g (G t) → sat U (m g) (λ g' _, grp_repr cap g' l') (λ _, False)) →
  (∀ s' a, orders_hold s' cap (upd G t l') → og_ids s' = og_ids s → Q s' a) →
  sat U (with_grp i m s) Q P.
Proof.
  intros (gs & Hi) Ht Hm HQ. unfold with_grp. rewrite (grp_at_inv _ _ _ _ _ Hi).
  destruct (lookup_lt_is_Some_2 gs i) as [g Hg]. { rewrite (ord_len _ _ _ _ Hi). by eapply lookup_lt_Some. }
  rewrite Hg. wp1.
  assert (grp_repr cap g (G t)) as Hr by (apply (ord_repr _ _ _ _ Hi); by exists i).
  eapply sat_mono; [by apply Hm| |done]. intros g' a Hg'. apply HQ; [|done].
  exists (<[i := g']> gs). destruct Hi as [H1 H2 H3 H4 H5 H6 H7 H8 H9]. split; simpl; try done.
  - by rewrite insert_length.
  - by rewrite H3, list_fmap_insert.
  - by rewrite H4, list_fmap_insert.
  - by rewrite H5, list_fmap_insert.
  - by rewrite H6, list_fmap_insert.
  - intros t' g0 Ha. apply (assoc_update _ _ _ _ _ _ _ H1 H2 Ht) in Ha as [[-> ->]|[Hne Ha]]; unfold upd.
    + by rewrite decide_True.
    + rewrite decide_False by done. eauto.
  - intros t' Ht'. unfold upd. rewrite decide_False; [auto|]. intros ->. apply Ht'. by eapply elem_of_list_lookup_2.
Qed.

Lemma orders_add_wp s cap G t id P : orders_hold s cap G → id < cap → id ≠ NULL_ID → id ∉ G t →
  sat U (orders_add c t id s) (λ s' _, orders_hold s' cap (upd G t (G t ++ [id]))) P.
Proof.
  intros Hh Hid Hn Hni. unfold orders_add. wp1. eapply sat_mono; [by apply reserve_group_wp| |intros ? H; exact H].
  intros s1 i [Hh1 Hi]. eapply with_grp_wp; [done|done|intros; by apply grp_add_wp|auto].
Qed.
Lemma orders_add_next_wp s cap G t id to l1 l2 P : orders_hold s cap G → id < cap → id ≠ NULL_ID → id ∉ G t →
  G t = l1 ++ to :: l2 →
  sat U (orders_add_next c t id to s) (λ s' _, orders_hold s' cap (upd G t (l1 ++ to :: id :: l2))) P.
Proof.
  intros Hh Hid Hn Hni Heq. unfold orders_add_next. wp1. eapply sat_mono; [by apply reserve_group_wp| |intros ? H; exact H].
  intros s1 i [Hh1 Hi]. eapply (with_grp_wp _ _ _ _ _ _ (l1 ++ to :: id :: l2)); [done|done| |auto].
  intros g Hg. rewrite Heq in Hg, Hni. by apply grp_add_next_wp.
Qed.
Lemma orders_add_prev_wp s cap G t id to l1 l2 P : orders_hold s cap G → id < cap → id ≠ NULL_ID → id ∉ G t →
  G t = l1 ++ to :: l2 →
  sat U (orders_add_prev c t id to s) (λ s' _, orders_hold s' cap (upd G t (l1 ++ id :: to :: l2))) P.
Proof.
  intros Hh Hid Hn Hni Heq. unfold orders_add_prev. wp1. eapply sat_mono; [by apply reserve_group_wp| |intros ? H; exact H].
  intros s1 i [Hh1 Hi]. eapply (with_grp_wp _ _ _ _ _ _ (l1 ++ id :: to :: l2)); [done|done| |auto].
  intros g Hg. rewrite Heq in Hg, Hni. by apply grp_add_prev_wp.
Qed.
Lemma orders_remove_wp s cap G t id P : orders_hold s cap G → id < cap → id ≠ NULL_ID →
  sat U (orders_remove c t id s) (λ s' _, orders_hold s' cap (upd G t (idrop id (G t)))) P.
Proof.
  intros Hh Hid Hn. unfold orders_remove, get_group_index. do 2 wp1. cbv beta. pose proof Hh as (gs & Hi).
  destruct (search_cases _ _ t Hbs (ord_sorted _ _ _ _ Hi)) as [(i & -> & Hl)|(i & -> & Hle & Hni & Hst)].
  - eapply with_grp_wp; [done|done|intros; by apply grp_remove_wp|auto].
  - wp. eapply orders_hold_ext; [|exact Hh]. intros t'. unfold upd. case_decide as He; [|done]. subst.
    by rewrite (ord_other _ _ _ _ Hi).
Qed.
Lemma idrop_idem id l : idrop id (idrop id l) = idrop id l.
Proof. apply idrop_notin. unfold idrop. rewrite elem_of_list_filter. tauto. Qed.
Lemma orders_remove_loop_wp is id s cap G P : orders_hold s cap G → id < cap → id ≠ NULL_ID →
  Forall (λ i, (i < length (og_ids s))%nat) is →
  sat U (orders_remove_loop is id s) (λ s' _, og_ids s' = og_ids s ∧ ∃ G', orders_hold s' cap G' ∧
    ∀ t, ((∀ i, i ∈ is → og_ids s !! i ≠ Some t) → G' t = G t) ∧
         (∀ i, i ∈ is → og_ids s !! i = Some t → G' t = idrop id (G t))) P.
Proof.
  intros Hh Hid Hn. revert s G Hh. induction is as [|i is IH]; intros s G Hh Hlt; simpl.
  - wp. split; [done|]. exists G. split; [done|]. intros t. split; [done|]. intros i Hi. by apply elem_of_nil in Hi.
  - apply Forall_cons in Hlt as [Hi Hlt]. wp1. destruct (lookup_lt_is_Some_2 _ _ Hi) as [t Ht].
    eapply (with_grp_wp _ _ _ _ _ _ (idrop id (G t))); [done|done|intros; by apply grp_remove_wp|].
    intros s1 _ Hh1 Hids. rewrite <- Hids in Hlt. eapply sat_mono; [by apply (IH s1 _ Hh1)| |intros ? H; exact H].
    rewrite Hids in *. intros s2 _ (Hids2 & G' & Hh2 & HG'). split; [done|]. exists G'. split; [done|].
    destruct Hh as (gs & Hinv). intros t'. destruct (HG' t') as [HG1 HG2]. unfold upd in *.
    assert (∀ j, og_ids s !! j = Some t → j = i) as Hj.
    { intros j Hj. eapply NoDup_lookup; [apply incr_nodup, (ord_sorted _ _ _ _ Hinv)|done|done]. }
    destruct (decide (t' = t)) as [->|Hne].
    + rewrite idrop_idem in HG2. split; [intros Hx; exfalso; apply (Hx i); [by left|done]|].
      intros j Hji Hjt. destruct (decide (i ∈ is)) as [Hin|Hin]; [by apply (HG2 i)|].
      apply HG1. intros k Hk Hkt%Hj. congruence.
    + split.
      * intros Hx. apply HG1. intros k Hk. apply Hx. by right.
      * intros j [->|Hji]%elem_of_cons Hjt; [congruence|]. eauto.
Qed.
Lemma orders_remove_all_wp s cap G id P : orders_hold s cap G → id < cap → id ≠ NULL_ID →
  sat U (orders_remove_all id s) (λ s' _, orders_hold s' cap (λ t, idrop id (G t))) P.
Proof.
  intros Hh Hid Hn. unfold orders_remove_all. do 2 wp1. cbv beta. 
  eapply sat_mono; [apply (orders_remove_loop_wp _ _ _ _ _ (λ _, False) Hh Hid Hn)| |done].
  - apply Forall_forall. intros i Hi%elem_of_seq. lia.
  - intros s' _ (_ & G' & Hh' & HG'). eapply orders_hold_ext; [|exact Hh']. intros t. destruct (HG' t) as [HG1 HG2].
    destruct Hh as (gs & Hi). destruct (decide (t ∈ og_ids s)) as [(i & Ht)%elem_of_list_lookup|Hnin].
    + apply (HG2 i); [|done]. apply elem_of_seq. apply lookup_lt_Some in Ht. lia.
    + rewrite HG1; [by rewrite (ord_other _ _ _ _ Hi)|]. intros i _ Hx. apply Hnin. by eapply elem_of_list_lookup_2.
Qed.

Lemma links_grow_all_ok cap new (as_ : list (arr N)) : cap ≤ new → Forall (lgood cap) as_ →
  ∃ as', links_grow_all as_ cap new = POk as' ∧ Forall2 (λ a a', lgood new a' ∧ ∀ x, alk a' x = alk a x) as_ as'.
Proof.
  intros Hle. induction 1 as [|a as_ Ha _ IH]; simpl.
  - exists []. split; [done|constructor].
  - destruct (links_grow_ok cap a new Ha Hle) as (a' & -> & ?). destruct IH as (as' & -> & ?). simpl.
    eexists. split; [done|]. by constructor.
Qed.
Lemma orders_grow_wp s cap G new P : orders_hold s cap G → cap ≤ new →
  sat U (orders_grow (c_mode c) new s) (λ s' _, orders_hold s' new G) P.
Proof.
  intros (gs & Hi) Hle. unfold orders_grow. do 2 wp1. cbv beta. rewrite (ord_cap _ _ _ _ Hi).
  assert (∀ g, g ∈ gs → ∃ t, grp_repr cap g (G t)) as Hrep.
  { intros g (i & Hg)%elem_of_list_lookup. destruct (lookup_lt_is_Some_2 (og_ids s) i) as [t Ht].
    { rewrite <- (ord_len _ _ _ _ Hi). by eapply lookup_lt_Some. }
    exists t. apply (ord_repr _ _ _ _ Hi). by exists i. }
  destruct (links_grow_all_ok cap new (og_bwd s)) as (bs & Hbs' & HB); [done| |].
  { rewrite (ord_bwd _ _ _ _ Hi). apply Forall_fmap, Forall_forall. intros g Hg. destruct (Hrep g Hg) as [t Hr]. apply Hr. }
  destruct (links_grow_all_ok cap new (og_fwd s)) as (fs & Hfs' & HF); [done| |].
  { rewrite (ord_fwd _ _ _ _ Hi). apply Forall_fmap, Forall_forall. intros g Hg. destruct (Hrep g Hg) as [t Hr]. apply Hr. }
  assert (usize_sub (c_mode c) new cap = POk (new - cap)) as Hsub.
  { unfold usize_sub. apply N.leb_le in Hle. by rewrite Hle. }
  do 2 wp1. rewrite Hsub. wp1. do 2 wp1. rewrite Hbs'. wp1. do 2 wp1. rewrite Hfs'. wp.
  rewrite (ord_bwd _ _ _ _ Hi) in HB. rewrite (ord_fwd _ _ _ _ Hi) in HF.
  apply Forall2_fmap_l in HB, HF.
  pose proof (Forall2_length _ _ _ HB) as HBl. pose proof (Forall2_length _ _ _ HF) as HFl.
  exists (zip_with (λ g fb, Grp (g_head g) (g_tail g) fb.1 fb.2) gs (zip fs bs)).
  assert (∀ i g', zip_with (λ g fb, Grp (g_head g) (g_tail g) fb.1 fb.2) gs (zip fs bs) !! i = Some g' →
    ∃ g f b, gs !! i = Some g ∧ fs !! i = Some f ∧ bs !! i = Some b ∧ g' = Grp (g_head g) (g_tail g) f b) as Hlk.
  { intros i g' H. rewrite !lookup_zip_with in H. destruct (gs !! i) as [g|]; [|done]. simpl in H.
    destruct (fs !! i) as [f|]; [|done]. destruct (bs !! i) as [b|]; [|done]. injection H as <-. eauto 10. }
  assert (length (zip_with (λ g fb, Grp (g_head g) (g_tail g) fb.1 fb.2) gs (zip fs bs)) = length gs) as Hzl.
  { rewrite !zip_with_length. lia. }
  set (gs' := zip_with _ gs (zip fs bs)) in *.
  assert (∀ {A} (f : grp → A) (l : list A), length l = length gs →
    (∀ i g', gs' !! i = Some g' → l !! i = Some (f g')) → l = f <$> gs') as Hext.
  { intros A f l Hl H. apply list_eq. intros i. rewrite list_lookup_fmap.
    destruct (gs' !! i) as [g'|] eqn:E; simpl; [eauto|]. apply lookup_ge_None in E. apply lookup_ge_None. lia. }
  pose proof (ord_len _ _ _ _ Hi) as Hlen.
  split; simpl; try done.
  - apply Hi.
  - lia.
  - apply Hext; [by rewrite (ord_head _ _ _ _ Hi), fmap_length|]. intros i g' (g & f & b & Hg & _ & _ & ->)%Hlk.
    rewrite (ord_head _ _ _ _ Hi), list_lookup_fmap, Hg. done.
  - apply Hext; [by rewrite (ord_tail _ _ _ _ Hi), fmap_length|]. intros i g' (g & f & b & Hg & _ & _ & ->)%Hlk.
    rewrite (ord_tail _ _ _ _ Hi), list_lookup_fmap, Hg. done.
  - apply Hext; [done|]. by intros i g' (g & f & b & Hg & ? & _ & ->)%Hlk.
  - apply Hext; [done|]. by intros i g' (g & f & b & Hg & _ & ? & ->)%Hlk.
  - intros t g' (i & Ht & (g & f & b & Hg & Hf & Hb & ->)%Hlk).
    destruct (Forall2_lookup_lr _ _ _ _ _ _ HF Hg Hf) as [Hfg Hfx].
    destruct (Forall2_lookup_lr _ _ _ _ _ _ HB Hg Hb) as [Hbg Hbx].
    assert (grp_repr cap g (G t)) as Hr by (apply (ord_repr _ _ _ _ Hi); by exists i).
    split; simpl; try apply Hr; try done.
    + intros x Hx. destruct (gr_lt _ _ _ Hr x Hx). split; [lia|done].
    + intros x. rewrite Hfx. apply Hr.
    + intros x. rewrite Hbx. apply Hr.
  - apply Hi.
Qed.

(** ** Reading *)
Definition onull (n : N) : option N := if n =? NULL_ID then None else Some n.
Lemma get_link_spec s cap G t id : orders_hold s cap G → id < cap →
  get_next_id c s t id = POk (onull (nxt (G t) id)) ∧ get_previous_id c s t id = POk (onull (nxt (reverse (G t)) id)).
Proof.
  intros (gs & Hi) Hid. unfold get_next_id, get_previous_id, get_link.
  destruct (search_cases _ _ t Hbs (ord_sorted _ _ _ _ Hi)) as [(i & -> & Hl)|(i & -> & Hle & Hn & Hst)].
  - destruct (lookup_lt_is_Some_2 gs i) as [g Hg]. { rewrite (ord_len _ _ _ _ Hi). by eapply lookup_lt_Some. }
    assert (grp_repr cap g (G t)) as Hr by (apply (ord_repr _ _ _ _ Hi); by exists i).
    rewrite (ord_fwd _ _ _ _ Hi), (ord_bwd _ _ _ _ Hi).
    rewrite !(proj2 (vget_ok _ _ _) (list_lookup_fmap_Some_2 _ _ _ _ Hg)). simpl.
    rewrite (aget_lgood cap), (aget_lgood cap) by (done || apply Hr). simpl.
    by rewrite (gr_nxt _ _ _ Hr), (gr_prv _ _ _ Hr).
  - by rewrite (ord_other _ _ _ _ Hi).
Qed.
Lemma get_end_spec s cap G t : orders_hold s cap G →
  get_head_id c s t = POk (onull (hdn (G t))) ∧ get_tail_id c s t = POk (onull (hdn (reverse (G t)))).
Proof.
  intros (gs & Hi). unfold get_head_id, get_tail_id, get_end_id, get_group_index.
  destruct (search_cases _ _ t Hbs (ord_sorted _ _ _ _ Hi)) as [(i & -> & Hl)|(i & -> & Hle & Hn & Hst)].
  - destruct (lookup_lt_is_Some_2 gs i) as [g Hg]. { rewrite (ord_len _ _ _ _ Hi). by eapply lookup_lt_Some. }
    assert (grp_repr cap g (G t)) as Hr by (apply (ord_repr _ _ _ _ Hi); by exists i).
    rewrite (ord_head _ _ _ _ Hi), (ord_tail _ _ _ _ Hi).
    rewrite !(proj2 (vget_ok _ _ _) (list_lookup_fmap_Some_2 _ _ _ _ Hg)). simpl.
    by rewrite (gr_head _ _ _ Hr), (gr_tail _ _ _ Hr).
  - by rewrite (ord_other _ _ _ _ Hi).
Qed.
End orders.
