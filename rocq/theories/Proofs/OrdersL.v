(** OrdersL.v — improper calls on order groups: inserting beside a non-member, adding the only member again. *)
From Verif.Spec Require Export Shown.
From Verif.Proofs Require Export OrdersX.
Local Open Scope N_scope.

Section group.
Context (cap : N) (g : grp) (l : list N) (id to : N) (Hr : grp_repr cap g l) (Hid : id < cap) (Hto : to < cap).

(** What the calls below leave: the ends and the links of the members. *)
Record grp_loose (g' : grp) : Prop := GrpLoose {
  gl_fwd : lgood cap (g_fwd g');
  gl_bwd : lgood cap (g_bwd g');
  gl_head : g_head g' = hdn l;
  gl_tail : g_tail g' = hdn (reverse l);
  gl_nxt : ∀ x, x ∈ l → alk (g_fwd g') x = nxt l x;
  gl_prv : ∀ x, x ∈ l → alk (g_bwd g') x = nxt (reverse l) x;
}.

Lemma end_ne (l' : list N) x : x ≠ NULL_ID → x ∉ l' → hdn l' ≠ x.
Proof. destruct l' as [|y l']; simpl; [congruence|]. set_solver. Qed.

Lemma lost_next md : id ∉ l → to ∉ l → to ≠ NULL_ID →
  sat False (grp_add_next md id to g) (λ g' _, grp_loose g' ∧ alk (g_fwd g') to = id ∧ alk (g_bwd g') id = to) (λ _, False).
Proof.
  intros Hni Hnt Hnn. unfold grp_add_next.
  wp1. eapply (fwd_get_wp _ cap); [apply Hr|done|]. wp1. eapply (bwd_get_wp _ cap); [apply Hr|done|].
  rewrite (gr_nxt _ _ _ Hr), (gr_prv _ _ _ Hr), (nxt_notin l), (nxt_notin (reverse l)) by (rewrite ?elem_of_reverse; done).
  wp1. apply assert_no_order_null. wp1. eapply (fwd_get_wp _ cap); [apply Hr|done|]. rewrite (gr_nxt _ _ _ Hr), (nxt_notin l) by done.
  rewrite N.eqb_refl. do 2 wp1. wp1. eapply (fwd_set_wp _ cap); [apply Hr|done|]. intros f Hf Hfx.
  wp1. eapply (bwd_set_wp _ cap); [apply Hr|done|]. intros b Hb Hbx. do 2 wp1. simpl in *.
  rewrite (gr_tail _ _ _ Hr). rewrite (proj2 (N.eqb_neq _ _) (end_ne _ _ Hnn (proj2 (not_iff_compat (elem_of_reverse _ _)) Hnt))).
  wp. split; [split; simpl; try done; try apply Hr|split]; simpl.
  - intros x Hx. rewrite Hfx, decide_False by (intros ->; done). apply Hr.
  - intros x Hx. rewrite Hbx, decide_False by (intros ->; done). apply Hr.
  - by rewrite Hfx, decide_True.
  - by rewrite Hbx, decide_True.
Qed.
Lemma lost_prev md : id ∉ l → to ∉ l → to ≠ NULL_ID →
  sat False (grp_add_prev md id to g) (λ g' _, grp_loose g' ∧ alk (g_bwd g') to = id ∧ alk (g_fwd g') id = to) (λ _, False).
Proof.
  intros Hni Hnt Hnn. unfold grp_add_prev.
  wp1. eapply (fwd_get_wp _ cap); [apply Hr|done|]. wp1. eapply (bwd_get_wp _ cap); [apply Hr|done|].
  rewrite (gr_nxt _ _ _ Hr), (gr_prv _ _ _ Hr), (nxt_notin l), (nxt_notin (reverse l)) by (rewrite ?elem_of_reverse; done).
  wp1. apply assert_no_order_null. wp1. eapply (bwd_get_wp _ cap); [apply Hr|done|].
  rewrite (gr_prv _ _ _ Hr), (nxt_notin (reverse l)) by (rewrite ?elem_of_reverse; done).
  rewrite N.eqb_refl. do 2 wp1. wp1. eapply (bwd_set_wp _ cap); [apply Hr|done|]. intros b Hb Hbx.
  wp1. eapply (fwd_set_wp _ cap); [apply Hr|done|]. intros f Hf Hfx. do 2 wp1. simpl in *.
  rewrite (gr_head _ _ _ Hr). rewrite (proj2 (N.eqb_neq _ _) (end_ne _ _ Hnn Hnt)).
  wp. split; [split; simpl; try done; try apply Hr|split]; simpl.
  - intros x Hx. rewrite Hfx, decide_False by (intros ->; done). apply Hr.
  - intros x Hx. rewrite Hbx, decide_False by (intros ->; done). apply Hr.
  - by rewrite Hbx, decide_True.
  - by rewrite Hfx, decide_True.
Qed.
End group.

(** The only member. *)
Section single.
Context (cap : N) (g : grp) (id : N) (Hr : grp_repr cap g [id]).

Lemma single_links : ∀ x, alk (g_fwd g) x = NULL_ID ∧ alk (g_bwd g) x = NULL_ID.
Proof. intros x. rewrite (gr_nxt _ _ _ Hr), (gr_prv _ _ _ Hr). simpl. by case_bool_decide. Qed.
Lemma single_add md : sat False (grp_add md id g) (λ g' _,
  (lgood cap (g_fwd g') ∧ lgood cap (g_bwd g')) ∧ g_head g' = id ∧ g_tail g' = id ∧
  alk (g_fwd g') id = id ∧ alk (g_bwd g') id = id) (λ _, False).
Proof.
  destruct (gr_lt _ _ _ Hr id) as [Hid Hn]; [by left|]. unfold grp_add. do 2 wp1. cbv beta.
  rewrite (gr_head _ _ _ Hr). simpl. rewrite (proj2 (N.eqb_neq _ _) Hn).
  wp1. eapply (fwd_get_wp _ cap); [apply Hr|done|]. wp1. eapply (bwd_get_wp _ cap); [apply Hr|done|].
  destruct (single_links id) as [-> ->]. wp1. apply assert_no_order_null. rewrite (gr_tail _ _ _ Hr). simpl.
  wp1. eapply (fwd_set_wp _ cap); [apply Hr|done|]. intros f Hf Hfx.
  wp1. eapply (bwd_set_wp _ cap); [apply Hr|done|]. intros b Hb Hbx. wp. simpl.
  split_and!; try done; [apply Hr|by rewrite Hfx, decide_True|by rewrite Hbx, decide_True].
Qed.
Lemma single_next md to : to < cap → sat False (grp_add_next md id to g) (λ g' _, lgood cap (g_fwd g') ∧ lgood cap (g_bwd g')) (λ _, False).
Proof.
  intros Hto. destruct (gr_lt _ _ _ Hr id) as [Hid Hn]; [by left|]. unfold grp_add_next.
  wp1. eapply (fwd_get_wp _ cap); [apply Hr|done|]. wp1. eapply (bwd_get_wp _ cap); [apply Hr|done|].
  destruct (single_links id) as [-> ->]. wp1. apply assert_no_order_null. wp1. eapply (fwd_get_wp _ cap); [apply Hr|done|].
  destruct (single_links to) as [-> _]. rewrite N.eqb_refl. do 2 wp1.
  wp1. eapply (fwd_set_wp _ cap); [apply Hr|done|]. intros f Hf Hfx.
  wp1. eapply (bwd_set_wp _ cap); [apply Hr|done|]. intros b Hb Hbx. do 2 wp1. simpl. by destruct (_ =? _).
Qed.
Lemma single_prev md to : to < cap → sat False (grp_add_prev md id to g) (λ g' _, lgood cap (g_fwd g') ∧ lgood cap (g_bwd g')) (λ _, False).
Proof.
  intros Hto. destruct (gr_lt _ _ _ Hr id) as [Hid Hn]; [by left|]. unfold grp_add_prev.
  wp1. eapply (fwd_get_wp _ cap); [apply Hr|done|]. wp1. eapply (bwd_get_wp _ cap); [apply Hr|done|].
  destruct (single_links id) as [-> ->]. wp1. apply assert_no_order_null. wp1. eapply (bwd_get_wp _ cap); [apply Hr|done|].
  destruct (single_links to) as [_ ->]. rewrite N.eqb_refl. do 2 wp1.
  wp1. eapply (bwd_set_wp _ cap); [apply Hr|done|]. intros b Hb Hbx.
  wp1. eapply (fwd_set_wp _ cap); [apply Hr|done|]. intros f Hf Hfx. do 2 wp1. simpl. by destruct (_ =? _).
Qed.
End single.

Section orders.
Context (c : cfg) (cap : N) (Hbs : search_ok (c_bs c)) (Hmd : c_mode c = Debug).

(** After writing back group [i], whatever its new contents, the others answer as before. *)
Lemma put_obs s cap' G gs i t g' : orders_inv s cap' G gs → og_ids s !! i = Some t →
  lgood cap' (g_fwd g') → lgood cap' (g_bwd g') →
  let s' := grp_put i g' s in
  (∀ x, x < cap' → get_next_id c s' t x = POk (onull (alk (g_fwd g') x)) ∧ get_previous_id c s' t x = POk (onull (alk (g_bwd g') x))) ∧
  get_head_id c s' t = POk (onull (g_head g')) ∧ get_tail_id c s' t = POk (onull (g_tail g')) ∧
  ∀ t', t' ≠ t → (∀ x, get_next_id c s' t' x = get_next_id c s t' x ∧ get_previous_id c s' t' x = get_previous_id c s t' x) ∧
    get_head_id c s' t' = get_head_id c s t' ∧ get_tail_id c s' t' = get_tail_id c s t'.
Proof.
  intros Hi Ht Hf Hb s'. pose proof (lookup_lt_Some _ _ _ Ht) as Hlt.
  assert (length (og_fwd s) = length (og_ids s) ∧ length (og_bwd s) = length (og_ids s) ∧
          length (og_head s) = length (og_ids s) ∧ length (og_tail s) = length (og_ids s)) as (L1 & L2 & L3 & L4).
  { rewrite (ord_fwd _ _ _ _ Hi), (ord_bwd _ _ _ _ Hi), (ord_head _ _ _ _ Hi), (ord_tail _ _ _ _ Hi), !fmap_length.
    by rewrite (ord_len _ _ _ _ Hi). }
  assert (∀ t' j, og_ids s !! j = Some t' → t' = t → j = i) as Hinj.
  { intros t' j Hj ->. eapply NoDup_lookup; [apply incr_nodup, (ord_sorted _ _ _ _ Hi)|done|done]. }
  unfold get_next_id, get_previous_id, get_link, get_head_id, get_tail_id, get_end_id, get_group_index, s', grp_put. simpl.
  split_and!.
  - intros x Hx. destruct (search_cases _ _ t Hbs (ord_sorted _ _ _ _ Hi)) as [(j & -> & Hl)|(j & -> & Hle & Hn & Hst)].
    2:{ destruct Hn. by eapply elem_of_list_lookup_2. }
    rewrite (Hinj _ _ Hl eq_refl). unfold vget_unchecked. rewrite !list_lookup_insert by lia. simpl.
    rewrite !(aget_lgood cap') by done. done.
  - destruct (search_cases _ _ t Hbs (ord_sorted _ _ _ _ Hi)) as [(j & -> & Hl)|(j & -> & Hle & Hn & Hst)].
    2:{ destruct Hn. by eapply elem_of_list_lookup_2. }
    rewrite (Hinj _ _ Hl eq_refl). unfold vget_unchecked. rewrite !list_lookup_insert by lia. done.
  - destruct (search_cases _ _ t Hbs (ord_sorted _ _ _ _ Hi)) as [(j & -> & Hl)|(j & -> & Hle & Hn & Hst)].
    2:{ destruct Hn. by eapply elem_of_list_lookup_2. }
    rewrite (Hinj _ _ Hl eq_refl). unfold vget_unchecked. rewrite !list_lookup_insert by lia. done.
  - intros t' Hne. destruct (search_cases _ _ t' Hbs (ord_sorted _ _ _ _ Hi)) as [(j & -> & Hl)|(j & -> & Hle & Hn & Hst)]; [|done].
    assert (i ≠ j) as Hij by congruence. unfold vget_unchecked. rewrite !list_lookup_insert_ne by done. done.
Qed.

(** A call on one group of the container, described by its effect on the group. *)
Lemma group_call s cap' G t (m : M grp unit) (Q : grp → Prop) : orders_hold s cap' G →
  (∀ g, grp_repr cap' g (G t) → sat False (m g) (λ g' _, Q g') (λ _, False)) →
  ∃ s1 gs i g', orders_inv s1 cap' G gs ∧ og_ids s1 !! i = Some t ∧ Q g' ∧
    (i ← reserve_group c t; with_grp i m) s = ROk (grp_put i g' s1) tt.
Proof.
  intros Hh Hm. pose proof (reserve_group_wp c Hbs False _ _ _ t (λ _, False) Hh) as Hres.
  unfold mbind, M_bind. destruct (reserve_group c t s) as [s1 i| |]; simpl in Hres; [|done..].
  destruct Hres as [(gs & Hi) Ht].
  destruct (lookup_lt_is_Some_2 gs i) as [g Hg]. { rewrite (ord_len _ _ _ _ Hi). by eapply lookup_lt_Some. }
  assert (grp_repr cap' g (G t)) as Hr by (apply (ord_repr _ _ _ _ Hi); by exists i).
  specialize (Hm g Hr). unfold with_grp. rewrite (grp_at_inv _ _ _ _ _ Hi), Hg. unfold zoom.
  destruct (m g) as [g' []| |]; simpl in Hm; [|done..]. by exists s1, gs, i, g'.
Qed.

Lemma shows_walk s g l : shows c s g l → ∀ n, walk c s g n (first_ordered c s g) = take n l.
Proof.
  intros (Hf & _ & Hn) n. rewrite Hf.
  enough (∀ k, walk c s g n (POk (l !! k)) = take n (drop k l)) as He.
  { change (take n l) with (take n (drop 0 l)). rewrite <- He. by destruct l. }
  induction n as [|n IH]; intros k; [done|]. simpl. destruct (l !! k) as [e|] eqn:E.
  - destruct (Hn _ _ E) as [-> _]. rewrite IH. by rewrite (drop_S _ _ _ E).
  - rewrite drop_ge; [done|]. by apply lookup_ge_None.
Qed.

Lemma lost_step tr s g o e to (m : mode → M grp unit) (first second : grp → arr N) :
  run c cap tr s → orders_proper tr → alive_in tr e → alive_in tr to → e ∉ members tr g → to ∉ members tr g →
  step c o s = no_out (on_orders (i ← reserve_group c g; with_grp i (m (c_mode c)))) s →
  (∀ cap' gr l, grp_repr cap' gr l → e_id e < cap' → e_id to < cap' → e_id e ∉ l → e_id to ∉ l → e_id to ≠ NULL_ID →
     sat False (m (c_mode c) gr) (λ g' _, grp_loose cap' l g' ∧ alk (first g') (e_id to) = e_id e ∧ alk (second g') (e_id e) = e_id to) (λ _, False)) →
  ∃ s1 s', step c o s = ROk s' None ∧ (∀ g', shows c s' g' (members tr g')) ∧
    ∃ i g', s' = st_set_orders (grp_put i g' s1) s ∧
      (∀ x, x < ec_cap (st_ec s) → get_next_id c (st_orders s') g x = POk (onull (alk (g_fwd g') x)) ∧
                                   get_previous_id c (st_orders s') g x = POk (onull (alk (g_bwd g') x))) ∧
      alk (first g') (e_id to) = e_id e ∧ alk (second g') (e_id e) = e_id to.
Proof.
  intros Hr Hp He Hto Hne Hnto Hstep Hm.
  destruct (run_orders c cap Hbs Hmd _ _ Hr Hp) as [Hg Hh].
  assert (∀ e1 e2, alive_in tr e1 → alive_in tr e2 → e_id e1 = e_id e2 → e1 = e2) as Huniq by by eapply live_ids.
  assert (∀ g e, alive_in tr e → ∀ x, x ∈ members tr g → e_id x = e_id e → x = e) as Hinj.
  { intros g0 e0 He0 x Hx Heq. apply Huniq; [by apply (Hg g0)|done|done]. }
  destruct (alive_id _ _ Hbs Hmd _ _ _ Hr He) as [He1 He2]. destruct (alive_id _ _ Hbs Hmd _ _ _ Hr Hto) as [Ht1 Ht2].
  destruct (group_call _ _ _ g (m (c_mode c)) (λ g', grp_loose (ec_cap (st_ec s)) (e_id <$> members tr g) g' ∧
    alk (first g') (e_id to) = e_id e ∧ alk (second g') (e_id e) = e_id to) Hh) as (s1 & gs & i & g' & Hi & Ht & (Hl & Hx1 & Hx2) & Hc).
  { intros gr Hgr. apply Hm; try done; apply id_notin; try done; by apply Hinj. }
  destruct (put_obs _ _ _ _ _ _ g' Hi Ht (gl_fwd _ _ _ Hl) (gl_bwd _ _ _ Hl)) as (O1 & O2 & O3 & O4).
  exists s1, (st_set_orders (grp_put i g' s1) s). split_and!.
  - rewrite Hstep. unfold no_out, on_orders. unfold mbind at 1, M_bind at 1. unfold zoom. by rewrite Hc.
  - intros t. destruct (Hg t) as [Hnd Ha].
    assert (NoDup (e_id <$> members tr t)) as Hndi.
    { apply NoDup_fmap_2_strong; [|done]. intros x y Hx Hy. auto. }
    assert (∀ o, entity_by_id_opt (st_set_orders (grp_put i g' s1) s) o = entity_by_id_opt s o) as Hby by done.
    unfold shows, first_ordered, last_ordered, next_ordered, previous_ordered. rewrite !Hby.
    assert (orders_hold s1 (ec_cap (st_ec s)) (λ g, e_id <$> members tr g)) as Hh1 by by exists gs.
    destruct (get_end_spec c Hbs _ _ _ t Hh1) as [E1 E2].
    assert (get_head_id c (grp_put i g' s1) t = POk (onull (hdn (e_id <$> members tr t))) ∧
            get_tail_id c (grp_put i g' s1) t = POk (onull (hdn (reverse (e_id <$> members tr t))))) as [F1 F2].
    { destruct (decide (t = g)) as [->|Htg].
      - rewrite O2, O3, (gl_head _ _ _ Hl), (gl_tail _ _ _ Hl). done.
      - destruct (O4 t Htg) as (_ & -> & ->). done. }
    simpl. rewrite F1, F2. split_and!.
    + rewrite hdn_fmap. eapply by_id_opt; [done..|]. intros x Hx. apply Ha.
      destruct (members tr t); [done|]. injection Hx as ->. by left.
    + rewrite <- fmap_reverse, hdn_fmap, head_reverse. eapply by_id_opt; [done..|]. intros x Hx. apply Ha. by apply last_Some_elem_of.
    + intros k x Hk. assert (x ∈ members tr t) as Hx by by eapply elem_of_list_lookup_2.
      destruct (nxt_pos _ _ _ Hndi Hk) as [Hn1 Hn2]. rewrite !Hby.
      destruct (alive_id _ _ Hbs Hmd _ _ _ Hr (Ha x Hx)) as [Hx3 _].
      assert (get_next_id c (grp_put i g' s1) t (e_id x) = POk (onull (nxt (e_id <$> members tr t) (e_id x))) ∧
              get_previous_id c (grp_put i g' s1) t (e_id x) = POk (onull (nxt (reverse (e_id <$> members tr t)) (e_id x)))) as [-> ->].
      { destruct (decide (t = g)) as [->|Htg].
        - destruct (O1 _ Hx3) as [-> ->]. rewrite (gl_nxt _ _ _ Hl), (gl_prv _ _ _ Hl) by by apply elem_of_list_fmap_1. done.
        - destruct (O4 t Htg) as (Hq & _ & _). destruct (Hq (e_id x)) as [-> ->]. destruct (get_link_spec c Hbs _ _ _ t (e_id x) Hh1 Hx3) as [-> ->]. done. }
      rewrite Hn1, Hn2. split.
      * eapply by_id_opt; [done..|]. intros y Hy. apply Ha. by eapply elem_of_list_lookup_2.
      * eapply by_id_opt; [done..|]. intros y Hy. apply Ha. destruct k as [|k]; [done|]. by eapply elem_of_list_lookup_2.
  - exists i, g'. split_and!; done.
Qed.

Lemma lost_insert_next tr s g e to : run c cap tr s → orders_proper tr →
  alive_in tr e → alive_in tr to → e ∉ members tr g → to ∉ members tr g →
  ∃ s', step c (OOrdNext g e to) s = ROk s' None ∧ (∀ g', shows c s' g' (members tr g')) ∧
    next_ordered c s' g to = POk (Some e) ∧ previous_ordered c s' g e = POk (Some to).
Proof.
  intros Hr Hp He Hto Hne Hnto.
  destruct (lost_step tr s g (OOrdNext g e to) e to (λ md, grp_add_next md (e_id e) (e_id to)) g_fwd g_bwd)
    as (s1 & s' & Hs & Hsh & i & g' & Heq & Hx & H1 & H2); try done.
  { intros. by apply lost_next. }
  exists s'. destruct (alive_id _ _ Hbs Hmd _ _ _ Hr He) as [He1 He2]. destruct (alive_id _ _ Hbs Hmd _ _ _ Hr Hto) as [Ht1 Ht2].
  destruct (Hx _ Ht1) as [Hx1 _]. destruct (Hx _ He1) as [_ Hx2]. split_and!; [done|done| |].
  - unfold next_ordered. rewrite Hx1, H1, Heq. apply (by_id_opt c cap Hbs Hmd tr s (Some e)); [done|by intros ? [= <-]].
  - unfold previous_ordered. rewrite Hx2, H2, Heq. apply (by_id_opt c cap Hbs Hmd tr s (Some to)); [done|by intros ? [= <-]].
Qed.
Lemma lost_insert_prev tr s g e to : run c cap tr s → orders_proper tr →
  alive_in tr e → alive_in tr to → e ∉ members tr g → to ∉ members tr g →
  ∃ s', step c (OOrdPrev g e to) s = ROk s' None ∧ (∀ g', shows c s' g' (members tr g')) ∧
    previous_ordered c s' g to = POk (Some e) ∧ next_ordered c s' g e = POk (Some to).
Proof.
  intros Hr Hp He Hto Hne Hnto.
  destruct (lost_step tr s g (OOrdPrev g e to) e to (λ md, grp_add_prev md (e_id e) (e_id to)) g_bwd g_fwd)
    as (s1 & s' & Hs & Hsh & i & g' & Heq & Hx & H1 & H2); try done.
  { intros. by apply lost_prev. }
  exists s'. destruct (alive_id _ _ Hbs Hmd _ _ _ Hr He) as [He1 He2]. destruct (alive_id _ _ Hbs Hmd _ _ _ Hr Hto) as [Ht1 Ht2].
  destruct (Hx _ Ht1) as [_ Hx1]. destruct (Hx _ He1) as [Hx2 _]. split_and!; [done|done| |].
  - unfold previous_ordered. rewrite Hx1, H1, Heq. apply (by_id_opt c cap Hbs Hmd tr s (Some e)); [done|by intros ? [= <-]].
  - unfold next_ordered. rewrite Hx2, H2, Heq. apply (by_id_opt c cap Hbs Hmd tr s (Some to)); [done|by intros ? [= <-]].
Qed.
(** The entity is not in the group afterwards: no walk meets it. *)
Lemma lost_not_walked tr s g e l : shows c s g l → l = members tr g → e ∉ members tr g →
  ∀ n, e ∉ walk c s g n (first_ordered c s g).
Proof. intros Hs -> He n. rewrite (shows_walk _ _ _ Hs). intros (i & Hi & _)%elem_of_take. apply He. by eapply elem_of_list_lookup_2. Qed.

(** Adding a member again. *)
Lemma readd_single tr s g e : run c cap tr s → orders_proper tr → members tr g = [e] →
  (∃ s', step c (OOrdAdd g e) s = ROk s' None ∧ next_ordered c s' g e = POk (Some e) ∧ previous_ordered c s' g e = POk (Some e) ∧
    first_ordered c s' g = POk (Some e) ∧ last_ordered c s' g = POk (Some e)) ∧
  ∀ to, alive_in tr to → (∃ s', step c (OOrdNext g e to) s = ROk s' None) ∧ ∃ s', step c (OOrdPrev g e to) s = ROk s' None.
Proof.
  intros Hr Hp Hm. destruct (run_orders c cap Hbs Hmd _ _ Hr Hp) as [Hg Hh].
  assert (alive_in tr e) as He. { apply (Hg g). rewrite Hm. by left. }
  destruct (alive_id _ _ Hbs Hmd _ _ _ Hr He) as [He1 He2].
  assert (∀ m : M grp unit, ∀ Q : grp → Prop,
    (∀ gr, grp_repr (ec_cap (st_ec s)) gr [e_id e] → sat False (m gr) (λ g' _, Q g') (λ _, False)) →
    ∃ s1 gs i g', orders_inv s1 (ec_cap (st_ec s)) (λ g, e_id <$> members tr g) gs ∧ og_ids s1 !! i = Some g ∧ Q g' ∧
      no_out (on_orders (i ← reserve_group c g; with_grp i m)) s = ROk (st_set_orders (grp_put i g' s1) s) None) as Hcall.
  { intros m Q HQ. destruct (group_call _ _ _ g m Q Hh) as (s1 & gs & i & g' & Hi & Ht & HQ' & Hc).
    { intros gr. rewrite Hm. apply HQ. }
    exists s1, gs, i, g'. split_and!; try done. unfold no_out, on_orders. unfold mbind at 1, M_bind at 1. unfold zoom. by rewrite Hc. }
  split.
  - destruct (Hcall _ _ (λ gr Hgr, single_add _ gr _ Hgr (c_mode c))) as (s1 & gs & i & g' & Hi & Ht & ([Q1 Q2] & Q3 & Q4 & Q5 & Q6) & Hc).
    destruct (put_obs _ _ _ _ _ _ g' Hi Ht Q1 Q2) as (O1 & O2 & O3 & _). eexists. split; [exact Hc|].
    destruct (O1 _ He1) as [O4 O5].
    unfold next_ordered, previous_ordered, first_ordered, last_ordered. simpl. rewrite O2, O3, O4, O5, Q3, Q4, Q5, Q6.
    assert (entity_by_id_opt (st_set_orders (grp_put i g' s1) s) (POk (onull (e_id e))) = POk (Some e)) as Hby.
    { apply (by_id_opt c cap Hbs Hmd tr s (Some e)); [done|by intros ? [= <-]]. }
    done.
  - intros to Hto. destruct (alive_id _ _ Hbs Hmd _ _ _ Hr Hto) as [Ht1 _]. split.
    + destruct (Hcall _ _ (λ gr Hgr, single_next _ gr _ Hgr (c_mode c) (e_id to) Ht1)) as (s1 & gs & i & g' & _ & _ & _ & Hc). eauto.
    + destruct (Hcall _ _ (λ gr Hgr, single_prev _ gr _ Hgr (c_mode c) (e_id to) Ht1)) as (s1 & gs & i & g' & _ & _ & _ & Hc). eauto.
Qed.
Lemma readd_exact tr s g e o : run c cap tr s → orders_proper tr → e ∈ members tr g →
  o = OOrdAdd g e ∨ (∃ to, alive_in tr to ∧ (o = OOrdNext g e to ∨ o = OOrdPrev g e to)) →
  (step c o s = RPanic s ↔ (2 ≤ length (members tr g))%nat).
Proof.
  intros Hr Hp He Ho. split.
  - intros Hs. destruct (members tr g) as [|x [|y l]] eqn:Hm; [by apply elem_of_nil in He| |simpl; lia].
    apply elem_of_list_singleton in He as <-. destruct (readd_single _ _ _ _ Hr Hp Hm) as [(s' & H1 & _) H2].
    destruct Ho as [->|(to & Hto & Ho)]; [congruence|]. destruct (H2 to Hto) as [[s1 H3] [s2 H4]].
    destruct Ho as [->| ->]; congruence.
  - intros Hlen. destruct (readd_panics c cap Hbs Hmd _ _ _ _ Hr Hp He Hlen) as [H1 H2].
    destruct Ho as [->|(to & _ & [->| ->])]; [done|apply H2..].
Qed.
End orders.
