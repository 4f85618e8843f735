(** UnwindH.v — handles of a debug build when calls panic and the panics are caught. *)
From Verif.Spec Require Export Env Handles Unwind.
From Verif.Proofs Require Import UnwindP HandlesP ExecP.
Local Open Scope N_scope.

(** ** Creations that panic *)

(** The alive bit of [id] was set before the version could be increased. *)
Lemma ec_revive_tail s I I' L gaps next id v :
  ec_inv s I L →
  ver_at s id = Some v → 1 ≤ v →
  id < next → next ≤ ec_cap s → next < u32_size → ec_next s ≤ next →
  id ∉ gaps → NoDup gaps → (∀ g, g ∈ gaps → g < next) →
  bit (ec_alive s) id = false → id < NULL_ID →
  (∀ x, (x < next ∧ x ∉ gaps) ↔ ((x < ec_next s ∧ x ∉ ec_gaps s) ∨ x = id)) →
  (∀ x, x < next → x ≠ id → ∃ w, ver_at s x = Some w ∧ 1 ≤ w) →
  NoDup I' → (∀ e, e ∈ I' ↔ e ∈ I ∨ e = Entity id v) →
  ∀ al, bv_toggle (ec_alive s) id = POk al →
  ec_inv (EC gaps (ec_cap s) (ec_ver s) al next) I' (L ∪ {[ Entity id v ]}).
Proof.
  intros Hi Hv Hv1 Hidn Hncap Hn32 Hnn Hidg Hnd Hglt Hbit Hnull Hx Hused Hnd' HI' al Hal.
  apply bv_toggle_ok in Hal as [Hall Halb].
  pose proof (ver_at_lt _ _ _ _ _ Hi Hv) as Hidcap.
  set (s' := EC gaps (ec_cap s) _ al next).
  assert (∀ x, ver_at s' x = ver_at s x) as Hver by done.
  split; simpl; try done; try apply Hi.
  - unfold bv_sized. rewrite Hall. apply Hi.
  - intros x. rewrite Halb, Hx. rewrite <- (inv_alive _ _ _ Hi x).
    case_bool_decide; subst; simpl; [rewrite Hbit; naive_solver|]. destruct (bit _ x); naive_solver.
  - intros e. rewrite elem_of_union, elem_of_singleton, Halb, Hver. case_bool_decide as He.
    + subst id. rewrite Hbit. simpl. split.
      * intros [Hin|Heq]; [|split; [done|]; rewrite Hv; by rewrite Heq]. apply (inv_live _ _ _ Hi) in Hin as [Hb _]. congruence.
      * intros [_ Hw]. rewrite Hv in Hw. injection Hw as ->. right. by destruct e.
    + rewrite xorb_false_l. rewrite (inv_live _ _ _ Hi). split; [|by left].
      intros [?| ->]; [done|]. simpl in He. congruence.
  - intros e [Hin| ->]%HI'; [by apply (inv_issued _ _ _ Hi)|]. exists v. simpl. split; [done|]. lia.
  - intros x w Hw H1. destruct (inv_ver_used _ _ _ Hi _ _ Hw H1) as (e & ? & ?). exists e. split; [apply HI'; by left|done].
  - intros i Hin. destruct (decide (i = id)) as [->|]; [by eauto|]. by apply Hused.
  - intros e [Hin| ->]%HI'; [by apply (inv_issued_null _ _ _ Hi)|done].
  - intros e [Hin|Hin%elem_of_singleton]%elem_of_union; apply HI'; [left; by apply Hi|by right].
Qed.

(** A creation that panics changes nothing, or brings the newest handle of an id whose versions are used up to life. *)
Definition ec_revived (s : ec) (I : list entity) (L : gset entity) (s' : ec) : Prop :=
  s' = s ∨ ∃ e, ver_at s (e_id e) = Some (e_ver e) ∧ u32_size ≤ e_ver e + 1 ∧
    ∀ I', NoDup I' → (∀ e', e' ∈ I' ↔ e' ∈ I ∨ e' = e) → ec_inv s' I' (L ∪ {[e]}).
Lemma ec_create_panics U s I L : ec_inv s I L → sat U (ec_create Debug s) (λ _ _, True) (ec_revived s I L).
Proof.
  intros Hi. unfold ec_create. wp.
  destruct (last (ec_gaps s)) as [id|] eqn:Elast.
  - wp. simpl. pose proof (last_snoc_inv _ _ Elast) as Hgaps.
    assert (id ∈ ec_gaps s) as Hin. { rewrite Hgaps. apply elem_of_app. right. by apply elem_of_list_singleton. }
    pose proof (inv_gaps_lt _ _ _ Hi _ Hin) as Hlt.
    pose proof (inv_next_cap _ _ _ Hi) as Hnc. pose proof (inv_next_u32 _ _ _ Hi) as Hn32.
    pose proof (inv_gaps_nodup _ _ _ Hi) as Hnd. rewrite Hgaps in Hnd.
    apply NoDup_app in Hnd as (Hnd & Hdisj & _).
    assert (id ∉ vpop (ec_gaps s)) as Hnin. { intros H. eapply Hdisj; [exact H|]. by apply elem_of_list_singleton. }
    assert (id < ec_cap s) as Hcap by lia.
    assert (bit (ec_alive s) id = false) as Hbit.
    { apply not_true_is_false. intros [_ Hn]%(inv_alive _ _ _ Hi). done. }
    destruct (bv_upd_lt (λ w, N.lxor w (bv_mask id)) (ec_alive s) id) as [al Hal];
      [eapply bv_sized_lt; [apply Hi|done]|].
    unfold bv_toggle. rewrite Hal. wp.
    destruct (inv_ver_some _ _ _ Hi _ Hcap) as [v Hv].
    rewrite (proj2 (aget_ver s id v)) by done. wp.
    unfold u32_add. destruct (v + 1 <? u32_size) eqn:E32.
    { wp. rewrite aset_lt by (rewrite (inv_ver_len _ _ _ Hi); lia). by wp. }
    apply N.ltb_ge in E32. right. exists (Entity id v). split_and!; [done|done|]. intros I' Hnd' HI'.
    apply (ec_revive_tail s I I' L (vpop (ec_gaps s)) (ec_next s) id v); try done; try (unfold u32_size, NULL_ID in *; lia).
    + intros g Hg. apply (inv_gaps_lt _ _ _ Hi). rewrite Hgaps. apply elem_of_app. by left.
    + intros x. assert (x ∈ ec_gaps s ↔ x ∈ vpop (ec_gaps s) ∨ x = id) as ->.
      { rewrite Hgaps at 1. by rewrite elem_of_app, elem_of_list_singleton. }
      split; [|intros [[? ?]| ->]; naive_solver].
      intros [? ?]. destruct (decide (x = id)); naive_solver.
    + intros x Hx _. by apply (inv_next_used _ _ _ Hi).
  - apply last_None in Elast as Hgaps.
    pose proof (inv_next_cap _ _ _ Hi) as Hnc. pose proof (inv_next_u32 _ _ _ Hi) as Hn32.
    set (id := ec_next s).
    assert (bit (ec_alive s) id = false) as Hbit.
    { apply not_true_is_false. intros [Hn _]%(inv_alive _ _ _ Hi). unfold id in Hn. lia. }
    wp. unfold u32_add at 1. destruct (id + 1 <? u32_size) eqn:E1; [|by left]. wp.
    apply N.ltb_lt in E1.
    assert (id < NULL_ID) as Hnull by (unfold NULL_ID, u32_size in *; lia).
    assert (∀ s1, ec_inv s1 I L → ec_gaps s1 = ec_gaps s → ec_next s1 = ec_next s → id < ec_cap s1 →
      (∀ x, bit (ec_alive s1) x = bit (ec_alive s) x) →
      (∀ v, ver_at s1 id = Some v → 1 ≤ v → ver_at s id = Some v) →
      sat U ((s1 ← getS;
        al ← lift (bv_toggle (ec_alive s1) id);
        _ ← modS (ec_set_alive al);
        v ← lift (aget (ec_ver s1) id);
        version ← lift (u32_add Debug v 1);
        vers ← lift (aset (ec_ver s1) id version);
        _ ← modS (ec_set_ver vers);
        s2 ← getS;
        mret (Creation (Entity id version) (ec_cap s) (ec_cap s2))) (ec_set_next (id + 1) s1))
        (λ _ _, True) (ec_revived s I L)) as Htail.
    { intros s1 Hi1 Hg1 Hn1 Hcap1 Hb1 Hgr. wp.
      destruct (bv_upd_lt (λ w, N.lxor w (bv_mask id)) (ec_alive s1) id) as [al Hal];
        [eapply bv_sized_lt; [apply Hi1|done]|].
      unfold bv_toggle. cbn [ec_set_next ec_set_alive ec_set_ver ec_alive ec_ver ec_cap ec_gaps ec_next]. rewrite Hal. wp.
      destruct (inv_ver_some _ _ _ Hi1 _ Hcap1) as [v Hv].
      rewrite (proj2 (aget_ver s1 id v)) by done. wp.
      unfold u32_add. destruct (v + 1 <? u32_size) eqn:E32.
      { wp. rewrite aset_lt by (rewrite (inv_ver_len _ _ _ Hi1); lia). by wp. }
      apply N.ltb_ge in E32. right. exists (Entity id v). split_and!; [|done|].
      { simpl. apply Hgr; [done|]. unfold u32_size in *. lia. }
      intros I' Hnd' HI'.
      apply (ec_revive_tail s1 I I' L (ec_gaps s1) (id + 1) id v); try done; try (unfold u32_size, NULL_ID in *; lia).
      + rewrite Hg1, Hgaps. apply not_elem_of_nil.
      + apply Hi1.
      + intros g Hg. rewrite Hg1, Hgaps in Hg. by apply not_elem_of_nil in Hg.
      + by rewrite Hb1.
      + intros x. rewrite Hg1, Hgaps, Hn1. fold id. pose proof (not_elem_of_nil x). split.
        * intros [? _]. destruct (decide (x = id)); [by right|]. left. split; [lia|done].
        * intros [[? ?]| ->]; (split; [lia|done]).
      + intros x Hx Hne. apply (inv_next_used _ _ _ Hi1). rewrite Hn1. fold id. lia. }
    destruct (will_grow_with_id s id) eqn:Ew.
    + apply N.leb_le in Ew. rewrite ec_grow_next.
      pose proof (ec_grow_spec U (N.max (ec_cap s) 1 * 2) s (λ _, False) I L Hi) as Hg.
      destruct (ec_grow _ s) as [s1 u|s1|w]; [|done|done].
      destruct Hg as (Hi1 & Hc1 & Hg1 & Hn1 & Hb1 & Hv1 & Hv0).
      unfold sat at 1. wp1. cbv beta. apply (Htail s1); try done; [unfold id; rewrite Hc1; lia|].
      intros v Hv Hpos. destruct (N.lt_ge_cases id (ec_cap s)) as [Hlt|Hge].
      * destruct (inv_ver_some _ _ _ Hi _ Hlt) as [w Hw]. rewrite (Hv1 _ _ Hw) in Hv. by injection Hv as <-.
      * rewrite Hv0 in Hv by (unfold id in *; lia). injection Hv as <-. lia.
    + do 2 wp1. cbv beta. apply (Htail s); try done.
      unfold will_grow_with_id in Ew. apply N.leb_gt in Ew. unfold as_u32 in Ew.
      pose proof (N.mod_le (ec_cap s) u32_size). unfold u32_size in *. lia.
Qed.

(** ** How large versions get *)
Definition vers_le (n : N) (s : ec) : Prop := ∀ id v, aget (ec_ver s) id = POk v → v ≤ n.
Lemma vers_tail md n id cr s : vers_le n s →
  sat True ((s1 ← getS; al ← lift (bv_toggle (ec_alive s1) id); _ ← modS (ec_set_alive al); v ← lift (aget (ec_ver s1) id);
     version ← lift (u32_add md v 1); vers ← lift (aset (ec_ver s1) id version); _ ← modS (ec_set_ver vers); s2 ← getS;
     mret (cr version s2 : creation)) s) (λ s' _, vers_le (n + 1) s') (vers_le n).
Proof.
  intros Hs. wp. destruct (bv_toggle _ _) as [al| |] eqn:Eal; [|by apply bv_upd_no_panic in Eal|done]. wp.
  destruct (aget (ec_ver s) id) as [v| |] eqn:Ev; [|done|done]. wp.
  destruct (u32_add md v 1) as [w| |] eqn:Ew; [|done|done]. wp.
  destruct (aset (ec_ver s) id w) as [vs| |] eqn:Es; [|done|done]. wp.
  assert (w ≤ n + 1) as Hw.
  { specialize (Hs _ _ Ev). unfold u32_add in Ew. destruct (N.ltb_spec (v + 1) u32_size); [injection Ew as <-; lia|]. destruct md; [done|].
    injection Ew as <-. unfold as_u32. pose proof (N.mod_le (v + 1) u32_size). unfold u32_size in *. lia. }
  intros j x Hx. simpl in Hx. unfold aset in Es. destruct (_ <? _) eqn:El; [|done]. injection Es as <-.
  apply aget_ok in Hx. destruct (decide (j = id)) as [->|Hne].
  - apply N.ltb_lt in El. rewrite list_lookup_insert in Hx by lia. by injection Hx as <-.
  - rewrite list_lookup_insert_ne in Hx by (intros ?%N2Nat.inj; congruence). assert (aget (ec_ver s) j = POk x) as Hx' by (by apply aget_ok).
    specialize (Hs _ _ Hx'). lia.
Qed.
Lemma vers_grow n new s s' u : vers_le n s → ec_grow new s = ROk s' u → vers_le n s'.
Proof.
  intros Hs H. unfold ec_grow in H. apply bind_ok in H as (s0 & x & [-> ->]%get_ok & H).
  destruct (N.leb_spec new (ec_cap s)); [by inv1 H|].
  apply bind_ok in H as (s1 & ver & [Hver ->]%lift_ok & H). apply bind_ok in H as (s1 & [] & ->%mod_ok & H).
  apply bind_ok in H as (s1 & al & [_ ->]%lift_ok & H). apply bind_ok in H as (s1 & [] & ->%mod_ok & H). apply mod_ok in H as ->.
  intros id v Hv. simpl in Hv. unfold arealloc_filled, copy_prefix in Hver. destruct (_ && _) eqn:Hb; [|done]. injection Hver as <-.
  apply andb_true_iff in Hb as [Hb _]. apply N.leb_le in Hb. apply aget_ok in Hv.
  apply lookup_app_Some in Hv as [Hv|[_ Hv]].
  - apply lookup_take_Some in Hv as [Hv _]. apply (Hs id). by apply aget_ok.
  - rewrite lookup_drop in Hv. unfold alloc_filled in Hv. apply lookup_replicate in Hv as [Heq _]. injection Heq as Heq. lia.
Qed.
Lemma ec_create_vers md n s : vers_le n s → sat True (ec_create md s) (λ s' _, vers_le (n + 1) s') (vers_le n).
Proof.
  intros Hs. unfold ec_create. wp. destruct (last (ec_gaps s)) as [id|].
  { do 2 wp1. cbv beta. by apply (vers_tail md n id (λ w s2, Creation (Entity id w) (ec_cap s) (ec_cap s2))). }
  wp. destruct (u32_add md (ec_next s) 1) as [nf| |]; [|done|done]. wp.
  destruct (will_grow_with_id s (ec_next s)).
  - rewrite ec_grow_next. destruct (ec_grow _ s) as [s1 []|s1|w] eqn:Eg; [|by apply ec_grow_panicked in Eg|done].
    unfold sat at 1. wp1. cbv beta. apply (vers_tail md n (ec_next s) (λ w s2, Creation (Entity (ec_next s) w) (ec_cap s) (ec_cap s2))).
    exact (vers_grow _ _ _ _ _ Hs Eg).
  - do 2 wp1. cbv beta. by apply (vers_tail md n (ec_next s) (λ w s2, Creation (Entity (ec_next s) w) (ec_cap s) (ec_cap s2))).
Qed.
Lemma ec_destroy_vers md e s s' u : ec_destroy md e s = ROk s' u → ec_ver s' = ec_ver s.
Proof. apply keeps_ok. unfold ec_destroy. keeps. Qed.

(** ** Panicking calls, seen from the entities container *)
Lemma tags_remove_all_panicked id s s' : tags_remove_all id s ≠ RPanic s'.
Proof.
  unfold tags_remove_all. intros [?|(s0 & x & [-> ->]%get_ok & H)]%bind_panicked; [done|].
  apply bind_panicked in H as [[H _]%lift_panicked|(s1 & w & _ & ?)]; [|done].
  revert H. generalize (tg_bvs s). intros l. induction l as [|a l IH]; simpl; [done|].
  intros [H|(a' & _ & [?|(r & _ & ?)]%pbind_panicked)]%pbind_panicked; [|done..]. by apply bv_upd_no_panic in H.
Qed.
Definition calm {S A} (m : M S A) : Prop := ∀ s s', m s ≠ RPanic s'.
Lemma calm_bind {S A B} (m : M S A) (f : A → M S B) : calm m → (∀ a, calm (f a)) → calm (m ≫= f).
Proof. intros Hm Hf s s' [?|(s1 & a & _ & ?)]%bind_panicked; [by eapply Hm|by eapply Hf]. Qed.
Lemma calm_aget {A} (a : arr A) i : @calm grp _ (lift (aget a i)).
Proof. intros s s' [H _]%lift_panicked. unfold aget in H. by destruct (nlookup _ _) as [[]|]. Qed.
Lemma calm_aset {A} (a : arr A) i x : @calm grp _ (lift (aset a i x)).
Proof. intros s s' [H _]%lift_panicked. unfold aset in H. by destruct (_ <? _). Qed.
Lemma grp_remove_calm id : calm (grp_remove id).
Proof.
  unfold grp_remove, fwd_get, bwd_get, fwd_set, bwd_set.
  repeat first [apply calm_bind; [|intros ?] | apply calm_aget | apply calm_aset | progress (case_match) | done].
Qed.
Lemma orders_remove_all_panicked id s s' : orders_remove_all id s ≠ RPanic s'.
Proof.
  unfold orders_remove_all. intros [?|(s0 & x & [-> ->]%get_ok & H)]%bind_panicked; [done|].
  revert H. generalize (seq 0 (length (og_ids s))). intros l. revert s. induction l as [|i l IH]; intros s1 H; simpl in H; [done|].
  apply bind_panicked in H as [H|(s2 & u & _ & H)]; [|by eapply IH]. unfold with_grp in H. destruct (grp_at s1 i); [|done].
  apply zoom_panicked in H as (t & H & _). by apply grp_remove_calm in H.
Qed.
Lemma destroy_panicked c e s s' I L : c_mode c = Debug → ec_inv (st_ec s) I L → destroy_entity c e s = RPanic s' → ids_part s' = ids_part s.
Proof.
  intros Hmd Hi H. unfold destroy_entity, on_ec, on_tags, on_orders in H.
  apply bind_panicked in H as [?|(s1 & x & [-> ->]%get_ok & H)]; [done|].
  apply bind_panicked in H as [[_ ->]%lift_panicked|(s1 & has & [Hhas ->]%lift_ok & H)]; [done|].
  assert (keeps ids_part (if (has : bool) then l ← lift (get_eia s (e_id e)); swap_remove_internal l else mret tt)) as Hk.
  { unfold_ops. keeps. }
  apply bind_panicked in H as [H|(s1 & u & H1 & H)].
  { by apply (keeps_panicked _ _ _ _ Hk) in H. }
  apply (keeps_ok _ _ _ _ _ Hk) in H1. assert (st_ec s1 = st_ec s) as He by exact (f_equal (λ x, x.1.1) H1).
  apply bind_panicked in H as [(t & H & ->)%zoom_panicked|(s2 & u2 & (t & H2 & ->)%zoom_ok & H)].
  - simpl. rewrite Hmd, He in H. destruct (decide (e ∈ L)) as [HL|HL].
    + destruct (ec_destroy_live Debug _ _ _ _ Hi HL) as (s2 & Hd & _). by rewrite Hd in H.
    + rewrite (ec_destroy_dead _ _ _ _ Hi HL) in H. injection H as <-. rewrite <- He, <- H1. by destruct s1.
  - exfalso. apply bind_panicked in H as [(t' & H & _)%zoom_panicked|(s3 & u3 & _ & (t' & H & _)%zoom_panicked)].
    + by apply tags_remove_all_panicked in H.
    + by apply orders_remove_all_panicked in H.
Qed.
Lemma step_ec_panicked c o s s' I L : c_mode c = Debug → ec_inv (st_ec s) I L → step c o s = RPanic s' →
  st_ec s' = st_ec s ∨
  creating o = true ∧ (ec_create Debug (st_ec s) = RPanic (st_ec s') ∨ ∃ cr, ec_create Debug (st_ec s) = ROk (st_ec s') cr).
Proof.
  intros Hmd Hi H.
  assert (∀ s1, over (register_new_entity c) s s1 → ec_create Debug (st_ec s) = RPanic (st_ec s1) ∨ ∃ cr, ec_create Debug (st_ec s) = ROk (st_ec s1) cr) as Hreg.
  { intros s1 Hr. unfold register_new_entity in Hr. rewrite Hmd in Hr. apply over_bind in Hr as [(t & Ht & ->)%zoom_panicked|(s2 & cr & (t & Ht & ->)%zoom_ok & Hr)]; [by left|].
    right. exists cr. rewrite Ht. f_equal. symmetry. change t with (st_ec (st_set_ec t s)).
    revert Hr. apply keeps_over. apply keeps_bind; [|intros ?; apply keeps_ret]. destruct (container_was_grow cr); [apply grow_entities_ec|apply keeps_ret]. }
  assert (ids_part s' = ids_part s → st_ec s' = st_ec s) as Hids. { intros Heq. exact (f_equal (λ x, x.1.1) Heq). }
  assert (over (step c o) s s') as Hov by by right.
  destruct o as [|a|e|e vals|e T|e vals|q f|t e|t e|g e|g e to|g e to|g e]; cbn [step] in H, Hov; try apply no_out_over in Hov.
  - right. split; [done|]. apply bind_panicked in H as [H|(? & ? & _ & ?)]; [|done]. unfold create_entity in H.
    apply bind_panicked in H as [H|(s1 & e & H1 & H)]; [apply Hreg; by right|].
    assert (st_ec s' = st_ec s1) as ->; [|apply Hreg; left; by eauto]. revert H. apply keeps_panicked. unfold disable_archetype. keeps.
  - right. split; [done|]. apply bind_panicked in H as [H|(? & ? & _ & ?)]; [|done]. unfold create_entity_with_archetype in H.
    apply bind_panicked in H as [H|(s1 & e & H1 & H)]; [apply Hreg; by right|].
    assert (st_ec s' = st_ec s1) as ->; [|apply Hreg; left; by eauto].
    apply bind_panicked in H as [(t & _ & ->)%zoom_panicked|(s2 & l & (t & _ & ->)%zoom_ok & H)]; [done|].
    change (st_ec s1) with (st_ec (st_set_ac t s1)). revert H. apply keeps_panicked. unfold set_location, set_page_index, set_index_in_page, enable_archetype. keeps.
  - left. destruct Hov as [[u Hok]|Hp]; [|by eapply Hids, destroy_panicked]. unfold no_out in H. unfold mbind, M_bind in H. by rewrite Hok in H.
  - left. apply Hids. revert Hov. apply keeps_over, add_components_keeps.
  - left. apply Hids. revert Hov. apply keeps_over, remove_components_keeps.
  - left. apply Hids. revert Hov. apply keeps_over, set_components_keeps.
  - left. apply Hids. revert Hov. apply keeps_over, query_write_keeps.
  - left. by apply over_zoom in Hov as (t1 & _ & ->).
  - left. by apply over_zoom in Hov as (t1 & _ & ->).
  - left. by apply over_zoom in Hov as (t1 & _ & ->).
  - left. by apply over_zoom in Hov as (t1 & _ & ->).
  - left. by apply over_zoom in Hov as (t1 & _ & ->).
  - left. by apply over_zoom in Hov as (t1 & _ & ->).
Qed.

(** ** Histories *)
Lemma answered_snoc tr o x : answered (tr ++ [(o, x)]) = answered tr ++ match x with Returned r => [(o, r)] | Panicked => [] end.
Proof. unfold answered. rewrite omap_app. by destruct x. Qed.
Lemma creations_snoc tr o x : creations (tr ++ [(o, x)]) = (creations tr + if creating o then 1 else 0)%nat.
Proof. unfold creations. rewrite List.filter_app, app_length. simpl. by destruct (creating o). Qed.

(** [I] and [L]: the handles made and alive, including those of calls that panicked. *)
Record caught_inv (s : ec) (tr : list (op * outcome)) (I : list entity) (L : gset entity) : Prop := CaughtInv {
  ci_ec : ec_inv s I L;
  ci_nodup : NoDup (issued (answered tr));
  ci_issued : ∀ e, e ∈ issued (answered tr) → e ∈ I;
  ci_live : live (answered tr) ⊆ L;
  ci_alive : ∀ e, e ∈ L → e ∈ issued (answered tr) → e ∈ live (answered tr) ∨ u32_size ≤ e_ver e + 1;
}.

Section debug.
Context (c : cfg) (cap : N) (Hmd : c_mode c = Debug).

Lemma prun_caught tr s : prun c cap tr s → ∃ I L, caught_inv (st_ec s) tr I L.
Proof.
  induction 1 as [s H|tr s o x s' Hrun (I & L & Hc) H].
  - exists [], ∅. apply store_init_ec in H as [-> _]. split; [apply ec_new_inv|constructor|done|done|set_solver].
  - destruct Hc as [Hi Hnd HI HL Ha]. destruct x as [r|]; simpl in H.
    + apply step_ec in H. rewrite Hmd in H. revert H. generalize (st_ec s'). intros t H. destruct H as [o cr t Ho H|e t H|o H1 H2 H3].
      * pose proof (ec_create_spec True _ _ _ Hi) as Hs. rewrite H in Hs. destruct Hs as (Hnew & Hi' & _).
        exists (I ++ [cr_entity cr]), (L ∪ {[cr_entity cr]}).
        assert (live (answered (tr ++ [(o, Returned (Some (cr_entity cr)))])) = live (answered tr) ∪ {[cr_entity cr]}) as Hl.
        { rewrite answered_snoc, live_snoc. by destruct Ho as [->|[a ->]]. }
        split; [done|..]; rewrite ?Hl; rewrite ?answered_snoc, ?issued_snoc.
        -- apply NoDup_app. split; [done|]. split; [|apply NoDup_singleton]. intros e He ->%elem_of_list_singleton. by apply HI in He.
        -- intros e [He|He]%elem_of_app; apply elem_of_app; [left; by apply HI|by right].
        -- set_solver.
        -- intros e [He|He]%elem_of_union [He'|He']%elem_of_app; [|set_solver..]. destruct (Ha e He He'); [left; set_solver|by right].
      * apply (ec_destroy_debug _ _ _ _ _ _ Hi) in H as (HeL & Hi' & _). exists I, (L ∖ {[e]}).
        assert (live (answered (tr ++ [(ODestroy e, Returned None)])) = live (answered tr) ∖ {[e]}) as Hl.
        { rewrite answered_snoc, live_snoc. unfold live_step. simpl. set_solver. }
        split; [done|..]; rewrite ?Hl; rewrite ?answered_snoc, ?issued_snoc, ?app_nil_r; [done|done|set_solver|].
        intros e' [He' Hne]%elem_of_difference Hin. destruct (Ha e' He' Hin); [left; set_solver|by right].
      * exists I, L. assert (live (answered (tr ++ [(o, Returned None)])) = live (answered tr)) as Hl.
        { rewrite answered_snoc, live_snoc. unfold live_step. simpl. destruct o; set_solver. }
        split; [done|..]; rewrite ?Hl; rewrite ?answered_snoc, ?issued_snoc, ?app_nil_r; done.
    + assert (answered (tr ++ [(o, Panicked)]) = answered tr) as Hans by (by rewrite answered_snoc, app_nil_r).
      destruct (step_ec_panicked _ _ _ _ _ _ Hmd Hi H) as [->|[Ho [Hp|[cr Hok]]]].
      * exists I, L. split; rewrite ?Hans; done.
      * pose proof (ec_create_panics True _ _ _ Hi) as Hs. rewrite Hp in Hs. destruct Hs as [->|(e & Hv & Hmax & Hi')].
        { exists I, L. split; rewrite ?Hans; done. }
        assert (∃ I', NoDup I' ∧ ∀ e', e' ∈ I' ↔ e' ∈ I ∨ e' = e) as (I' & Hnd' & HI').
        { destruct (decide (e ∈ I)) as [He|He].
          - exists I. split; [apply Hi|]. intros e'. split; [by left|]. by intros [?| ->].
          - exists (I ++ [e]). split; [|intros e'; by rewrite elem_of_app, elem_of_list_singleton].
            apply NoDup_app. split; [apply Hi|]. split; [|apply NoDup_singleton]. by intros e' He' ->%elem_of_list_singleton. }
        exists I', (L ∪ {[e]}). split; rewrite ?Hans; [by apply Hi'|done| |set_solver|].
        -- intros e' He'. apply HI'. left. by apply HI.
        -- intros e' [He'|He'%elem_of_singleton]%elem_of_union Hin; [by apply Ha|]. subst e'. by right.
      * pose proof (ec_create_spec True _ _ _ Hi) as Hs. rewrite Hok in Hs. destruct Hs as (Hnew & Hi' & _).
        exists (I ++ [cr_entity cr]), (L ∪ {[cr_entity cr]}). split; rewrite ?Hans; [done|done| |set_solver|].
        -- intros e' He'. apply elem_of_app. left. by apply HI.
        -- intros e' [He'|He'%elem_of_singleton]%elem_of_union Hin; [by apply Ha|]. subst e'. by apply HI in Hin.
Qed.

Lemma caught_handles tr s : prun c cap tr s → NoDup (issued (answered tr)) ∧ Forall (λ e, e_id e ≠ NULL_ID) (issued (answered tr)).
Proof.
  intros (I & L & Hc)%prun_caught. split; [apply Hc|]. apply Forall_forall. intros e He%(ci_issued _ _ _ _ Hc).
  pose proof (inv_issued_null _ _ _ (ci_ec _ _ _ _ Hc) _ He). lia.
Qed.
Lemma caught_is_alive tr s e : prun c cap tr s → e ∈ issued (answered tr) →
  ∃ b : bool, is_alive c s e = POk b ∧ (alive_in (answered tr) e → b = true) ∧
    (b = true → alive_in (answered tr) e ∨ 2 ^ 32 - 1 ≤ e_ver e).
Proof.
  intros (I & L & Hc)%prun_caught He. destruct Hc as [Hi Hnd HI HL Ha].
  destruct (inv_issued _ _ _ Hi _ (HI _ He)) as (v & Hv & _). pose proof (ver_at_lt _ _ _ _ _ Hi Hv) as Hlt.
  eexists. split; [by apply (ec_is_alive_spec _ _ _ _ _ Hi)|]. rewrite bool_decide_eq_true, <- live_alive. split; [set_solver|].
  intros HeL. destruct (Ha e HeL He); [by left|right]. unfold u32_size in *. lia.
Qed.

(** Versions are bounded by the number of creations. *)
Lemma prun_vers tr s : prun c cap tr s → vers_le (N.of_nat (creations tr)) (st_ec s).
Proof.
  induction 1 as [s H|tr s o x s' Hrun IH H].
  - apply store_init_ec in H as [-> _]. intros id v Hv. apply aget_ok in Hv. simpl in Hv. unfold alloc_filled in Hv.
    apply lookup_replicate in Hv as [Heq _]. injection Heq as Heq. lia.
  - assert (∀ n m, n ≤ m → vers_le n (st_ec s') → vers_le m (st_ec s')) as Hmono. { intros n m Hle Hn id v Hv. specialize (Hn _ _ Hv). lia. }
    pose proof (ec_create_vers Debug _ _ IH) as Hs. destruct x as [r|]; simpl in H.
    + apply step_ec in H. rewrite Hmd in H. revert H Hmono. generalize (st_ec s'). intros t H Hmono. destruct H as [o cr t Ho H|e t H|o H1 H2 H3].
      * rewrite H in Hs. eapply Hmono; [|exact Hs]. rewrite creations_snoc. destruct Ho as [->|[a ->]]; simpl; lia.
      * apply ec_destroy_vers in H. rewrite creations_snoc. simpl. rewrite Nat.add_0_r. unfold vers_le. by rewrite H.
      * eapply Hmono; [|exact IH]. rewrite creations_snoc. lia.
    + destruct (prun_caught _ _ Hrun) as (I & L & Hc). destruct (step_ec_panicked _ _ _ _ _ _ Hmd (ci_ec _ _ _ _ Hc) H) as [Heq|[Ho [Hp|[cr Hok]]]].
      * rewrite Heq. intros id v Hv. specialize (IH _ _ Hv). rewrite creations_snoc. lia.
      * rewrite Hp in Hs. eapply Hmono; [|exact Hs]. rewrite creations_snoc. lia.
      * rewrite Hok in Hs. eapply Hmono; [|exact Hs]. rewrite creations_snoc, Ho. lia.
Qed.
Lemma caught_few tr s e : prun c cap tr s → N.of_nat (creations tr) < 2 ^ 32 - 1 → e ∈ issued (answered tr) →
  ∃ b : bool, is_alive c s e = POk b ∧ (b = true ↔ alive_in (answered tr) e).
Proof.
  intros Hrun Hlt He. destruct (caught_is_alive _ _ _ Hrun He) as (b & Hb & H1 & H2). exists b. split; [done|]. split; [|done].
  intros Hbt. destruct (H2 Hbt) as [?|Hmax]; [done|]. exfalso. destruct (prun_caught _ _ Hrun) as (I & L & Hc).
  destruct (inv_issued _ _ _ (ci_ec _ _ _ _ Hc) _ (ci_issued _ _ _ _ Hc _ He)) as (v & Hv%aget_ver & Hle).
  apply (prun_vers _ _ Hrun) in Hv. lia.
Qed.
End debug.

(** ** An id whose versions are used up *)

(** A store of capacity 1 in which [k] entities were created so far; the last one is alive or not. *)
Definition worn (k : N) (al : bool) : store :=
  Store (EC [] 1 [Some k] [if al then 1 else 0] (if al then 1 else 0)) ac_new (tags_new 1) (orders_new 1) [Some 0%nat] [Some 0%nat] [0].
Lemma u32_add_01 : u32_add Debug 0 1 = POk 1.
Proof. done. Qed.
Lemma worn_create k x : u32_add Debug k 1 = POk x → step (ex_cfg Debug) OCreate (worn k false) = ROk (worn x true) (Some (Entity 0 x)).
Proof.
  intros H. cbv -[u32_add N.add]. rewrite u32_add_01. rewrite H. reflexivity.
Qed.
Lemma worn_create_panics k : u32_add Debug k 1 = PPanic → step (ex_cfg Debug) OCreate (worn k false) = RPanic (worn k true).
Proof.
  intros H. cbv -[u32_add N.add]. rewrite u32_add_01. rewrite H. reflexivity.
Qed.
Lemma worn_destroy k : step (ex_cfg Debug) (ODestroy (Entity 0 k)) (worn k true) = ROk (worn k false) None.
Proof.
  destruct k as [|p]; [reflexivity|]. pose proof (Pos.eqb_refl p) as Hp. unfold Pos.eqb in Hp.
  cbv. rewrite Hp. reflexivity. 
Qed.
Lemma worn_run k : k < u32_size → ∃ tr, prun (ex_cfg Debug) 1 tr (worn k false) ∧ (1 ≤ k → Entity 0 k ∈ issued (answered tr)) ∧ live (answered tr) = ∅.
Proof.
  induction k as [|k IH] using N.peano_ind; intros Hk.
  - exists []. split_and!; [by apply prun_init|lia|done].
  - destruct IH as (tr & Hrun & _ & Hl); [lia|].
    assert (u32_add Debug k 1 = POk (N.succ k)) as Hadd. { unfold u32_add. rewrite N.add_1_r. apply N.ltb_lt in Hk. by rewrite Hk. }
    exists ((tr ++ [(OCreate, Returned (Some (Entity 0 (N.succ k))))]) ++ [(ODestroy (Entity 0 (N.succ k)), Returned None)]). split_and!.
    + apply prun_step with (s := worn (N.succ k) true); [|exact (worn_destroy _)]. apply prun_step with (s := worn k false); [done|]. exact (worn_create _ _ Hadd).
    + intros _. rewrite !answered_snoc, !issued_snoc. set_solver.
    + rewrite !answered_snoc, !live_snoc, Hl. unfold live_step. simpl. set_solver.
Qed.
Lemma caught_is_alive_refuted : ¬ ∀ c cap tr s e, cfg_ok c → c_mode c = Debug → prun c cap tr s → e ∈ issued (answered tr) →
  ∃ b : bool, is_alive c s e = POk b ∧ (b = true ↔ alive_in (answered tr) e).
Proof.
  intros H. destruct (worn_run (u32_size - 1)) as (tr & Hrun & Hin & Hl); [done|].
  assert (prun (ex_cfg Debug) 1 (tr ++ [(OCreate, Panicked)]) (worn (u32_size - 1) true)) as Hrun'.
  { apply prun_step with (s := worn (u32_size - 1) false); [done|]. exact (worn_create_panics (u32_size - 1) eq_refl). }
  assert (answered (tr ++ [(OCreate, Panicked)]) = answered tr) as Hans by (by rewrite answered_snoc, app_nil_r).
  destruct (H _ _ _ _ (Entity 0 (u32_size - 1)) (ex_cfg_ok _) eq_refl Hrun') as (b & Hb & Hiff). { rewrite Hans. by apply Hin. }
  assert (is_alive (ex_cfg Debug) (worn (u32_size - 1) true) (Entity 0 (u32_size - 1)) = POk true) as Ht by (vm_compute; reflexivity).
  rewrite Ht in Hb. injection Hb as <-. rewrite Hans, <- live_alive, Hl in Hiff. set_solver.
Qed.
