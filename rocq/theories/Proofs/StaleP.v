(** StaleP.v — what destroying a dead handle can do before it panics. *)
From Verif.Proofs Require Export RobustP.
Local Open Scope N_scope.

Section stale.
Context (c : cfg) (Hc : cfg_ok c).

(** Taking away the row of an entity. *)
Lemma drop_row s I L D p k id m : comp_state c s I L D → loc (st_ac s) p k = Some (id, m) →
  ∃ s1, swap_remove_internal (Eia p k) s = ROk s1 tt ∧ ids_part s1 = ids_part s ∧ comp_inv c s1 None (delete id D).
Proof using Hc.
  intros Hs Hl. pose proof (cs_inv _ _ _ _ _ Hs) as Hi.
  assert (comp_inv c s (Some (p, k)) (delete id D)) as Hi'.
  { destruct (ci_rows _ _ _ _ Hi _ _ _ _ Hl) as [HDi Hlk]; [done|].
    destruct Hi as [Ha Hp Hx Hh' Hlt' Hrows Hdata]. split; try done.
    - intros id' m' [_ HD']%lookup_delete_Some. by eapply Hlt'.
    - intros p' k' id' m' Hloc Hn. destruct (Hrows _ _ _ _ Hloc) as [HD' Hlk']; [done|]. split; [|done].
      apply lookup_delete_Some. split; [|done]. intros <-. destruct (linked_fun _ _ _ _ _ _ Hlk Hlk'). congruence.
    - intros id' m' [Hn HD']%lookup_delete_Some. destruct (Hdata _ _ HD') as [(p' & k' & _ & Hl' & Hloc)|?]; [left|by right].
      exists p', k'. split; [|done]. intros [= <- <-]. congruence. }
  pose proof (swap_remove_wp c s p k (delete id D) id m False (λ _, False) Hi' Hl) as H.
  destruct (swap_remove_internal (Eia p k) s) as [s1 []|?|?]; simpl in H; [|done..]. destruct H as (H1 & H2 & _). by exists s1.
Qed.

(** What is read of an entity depends on whether it is alive and on where its row is. *)
Lemma observed_ext s1 s2 e x : is_alive c s1 e = is_alive c s2 e → has_archetype s1 (e_id e) = has_archetype s2 (e_id e) →
  st_page s1 = st_page s2 → st_idx s1 = st_idx s2 → st_ac s1 = st_ac s2 → observed c s1 e x → observed c s2 e x.
Proof using.
  intros H1 H2 H3 H4 H5. unfold observed, read_components, get_components_refs, get_entity_archetype, is_valid_with_archetype,
    get_page_index, get_index_in_page. by rewrite H1, H2, H3, H4, H5.
Qed.

(** The entities other than the one whose row was taken away. *)
Lemma dropped_observed s I L D s1 id0 m0 e : comp_state c s I L D → ids_part s1 = ids_part s → comp_inv c s1 None (delete id0 D) →
  D !! id0 = Some m0 → e ∈ L → e_id e ≠ id0 → observed c s1 e (cview L D e).
Proof using Hc.
  intros Hs Hids Hi Hm0 HL Hne. assert (st_ec s1 = st_ec s) as Hec by (unfold ids_part in Hids; congruence).
  pose proof (ci_lt _ _ _ _ (cs_inv _ _ _ _ _ Hs) _ _ Hm0) as Hlt.
  assert (∃ v', bv_off (st_has s1) id0 = POk v') as [v' Hv].
  { apply bv_upd_lt. eapply bv_sized_lt; [apply (ci_has _ _ _ _ Hi)|]. by rewrite Hec. }
  destruct (bv_off_ok _ _ _ Hv) as [Hlen Hb].
  set (s2 := st_set_has v' s1). destruct (cs_row _ _ _ _ _ _ Hs HL) as (m & HD & Hlte & _).
  assert (comp_state c s2 I L (<[id0 := ∅]> D)) as Hs2.
  { split.
    - simpl. rewrite Hec. apply Hs.
    - destruct Hi as [Ha Hp Hx Hh Hlt' Hrows Hdata]. split; simpl; try done.
      + unfold bv_sized in *. by rewrite Hlen.
      + intros id m' [[<- _]|[_ HD']]%lookup_insert_Some; [by rewrite Hec|]. rewrite Hec. by eapply (ci_lt _ _ _ _ (cs_inv _ _ _ _ _ Hs)).
      + intros p k id m' Hl _. destruct (Hrows _ _ _ _ Hl) as [[Hn HD']%lookup_delete_Some (H1 & H2 & H3)]; [done|].
        split; [by rewrite lookup_insert_ne|]. split; [|done]. simpl. rewrite Hb, bool_decide_false by done. done.
      + intros id m' [[<- <-]|[Hn HD']]%lookup_insert_Some; [right; split; [by rewrite Hb, bool_decide_true by done|done]|].
        destruct (Hdata id m') as [(p & k & _ & (H1 & H2 & H3) & Hl)|[Hf ->]]; [by rewrite lookup_delete_ne|left|right].
        * exists p, k. split; [done|]. split; [|done]. split; [|done]. simpl. rewrite Hb, bool_decide_false by done. done.
        * split; [|done]. rewrite Hb, Hf. by destruct (negb _).
    - intros id. rewrite <- (cs_dom _ _ _ _ _ Hs). destruct (decide (id = id0)) as [->|Hn].
      + rewrite lookup_insert. split; intros _; by eexists.
      + by rewrite lookup_insert_ne. }
  assert (cview L D e = cview L (<[id0 := ∅]> D) e) as ->.
  { unfold cview. by rewrite lookup_insert_ne by done. }
  eapply (observed_ext s2 s1); try done.
  2:{ apply (state_observed c Hc s2 I L _ e Hs2). simpl. by rewrite Hec. }
  unfold has_archetype. simpl. rewrite !bv_get_lt.
  - rewrite Hb, bool_decide_false by done. done.
  - eapply bv_sized_lt; [apply (ci_has _ _ _ _ Hi)|]. by rewrite Hec.
  - rewrite Hlen. eapply bv_sized_lt; [apply (ci_has _ _ _ _ Hi)|]. by rewrite Hec.
Qed.

(** Removing at a place without a row panics before anything is changed. *)
Lemma no_row_panic s I L D p k s' : comp_state c s I L D → loc (st_ac s) p k = None →
  match swap_remove_internal (Eia p k) s with ROk _ _ => False | RPanic s1 => s' = s1 → s' = s | RUB _ => True end.
Proof using.
  intros Hs Hl. unfold swap_remove_internal, on_ac, zoom, mbind, M_bind.
  assert (match ac_swap_remove (Eia p k) (st_ac s) with ROk _ _ => False | RPanic a => a = st_ac s | RUB _ => True end) as H.
  { unfold ac_swap_remove, mbind, M_bind, getS, lift. simpl. unfold vidx.
    destruct (ac_p2a (st_ac s) !! p) as [i|] eqn:E1; [|done]. destruct (ac_pages (st_ac s) !! p) as [pg|] eqn:E2; [|done].
    destruct (ac_archs (st_ac s) !! i) as [a|] eqn:E3; [|done]. destruct (ac_layouts (st_ac s) !! i) as [ly|] eqn:E4; [|done].
    unfold loc, page_arch in Hl. rewrite E1, E2, E3, E4 in Hl. destruct (pg_ids pg !! k) as [id|] eqn:E5; [done|].
    unfold page_swap_remove, vswap_remove. rewrite E5. done. }
  destruct (ac_swap_remove (Eia p k) (st_ac s)) as [a r|a|u]; [done| |done]. subst a. intros ->. by destruct s.
Qed.

Lemma destroy_confined cap tr s e s' : c_mode c = Debug → hrun c cap tr s → ¬ alive_in tr e → step c (ODestroy e) s = RPanic s' →
  ids_part s' = ids_part s ∧
  ∃ e0, ∀ e2 x, e2 ≠ e0 → e_id e2 < entities_capacity s → observed c s e2 x → observed c s' e2 x.
Proof using Hc.
  intros Hmd Hr Hd H. destruct (hrun_state c Hc Hmd _ _ _ Hr) as (D & Hs & _).
  assert (e ∉ live tr) as HL by (by rewrite live_alive).
  pose proof (cs_ec _ _ _ _ _ Hs) as Hec.
  assert (∀ t, ids_part t = ids_part s → on_ec (ec_destroy (c_mode c) e) t = RPanic t) as Hpan.
  { intros t Ht. unfold on_ec, zoom. assert (st_ec t = st_ec s) as Et by (unfold ids_part in Ht; congruence).
    rewrite Et, Hmd, (ec_destroy_dead _ _ _ _ Hec HL). rewrite <- Et. by destruct t. }
  assert (s' = s → ids_part s' = ids_part s ∧
    ∃ e0, ∀ e2 x, e2 ≠ e0 → e_id e2 < entities_capacity s → observed c s e2 x → observed c s' e2 x) as Hsame.
  { intros ->. split; [done|]. exists e. done. }
  simpl in H. unfold no_out, destroy_entity, mbind, M_bind, getS, lift in H.
  destruct (has_archetype s (e_id e)) as [[]| |]; simpl in H; [| |by injection H; auto|done].
  2:{ unfold mret, M_ret in H. rewrite Hpan in H by done. injection H as <-. by apply Hsame. }
  destruct (get_eia s (e_id e)) as [[p k]| |]; simpl in H; [|by injection H; auto|done].
  destruct (loc (st_ac s) p k) as [[id0 m]|] eqn:El.
  - destruct (drop_row _ _ _ _ _ _ _ _ Hs El) as (s1 & E1 & Hids & Hi1). rewrite E1 in H. rewrite Hpan in H by done. injection H as <-.
    split; [done|]. destruct (ci_rows _ _ _ _ (cs_inv _ _ _ _ _ Hs) _ _ _ _ El) as [Hm0 _]; [done|].
    destruct (proj1 (cs_dom _ _ _ _ _ Hs id0)) as (e0 & He0 & <-); [by eexists|].
    exists e0. intros e2 x Hne Hlt Ho.
    assert (is_alive c s1 e2 = is_alive c s e2) as Hal.
    { unfold is_alive. assert (st_ec s1 = st_ec s) as -> by (unfold ids_part in Hids; congruence). done. }
    destruct (decide (e2 ∈ live tr)) as [HL2|HL2].
    + assert (x = cview (live tr) D e2) as ->.
      { exact (observed_inj _ _ _ _ _ Ho (state_observed c Hc s _ _ _ e2 Hs Hlt)). }
      eapply dropped_observed; try done. intros Hid. apply Hne.
      apply (inv_live _ _ _ Hec) in HL2 as [_ HL2]. apply (inv_live _ _ _ Hec) in He0 as [_ He0].
      rewrite Hid, He0 in HL2. injection HL2 as Hv. destruct e2, e0; simpl in *; congruence.
    + destruct Ho as [Ha _]. rewrite (cs_alive _ _ _ _ _ _ Hs Hlt), bool_decide_false in Ha by done.
      injection Ha as Ha. symmetry in Ha. apply bool_decide_eq_false in Ha. destruct x as [x|]; [by destruct Ha; eexists|].
      assert (is_alive c s1 e2 = POk false) as Hf by (rewrite Hal, (cs_alive _ _ _ _ _ _ Hs Hlt), bool_decide_false by done; done).
      unfold observed, read_components, get_components_refs, get_entity_archetype, is_valid_with_archetype. rewrite Hf. simpl.
      split_and!; [|done|done]. done.
  - pose proof (no_row_panic s _ _ _ p k s' Hs El) as Hn. destruct (swap_remove_internal (Eia p k) s) as [? ?|s1|?]; [done| |done].
    injection H as <-. by apply Hsame, Hn.
Qed.
End stale.
