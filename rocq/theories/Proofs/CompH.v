(** CompH.v — the components of the entities over whole histories. *)
From Verif.Proofs Require Export CompP.
Local Open Scope N_scope.

(** The components of an entity according to [D]. *)
Definition cview (L : gset entity) (D : gmap N (gmap tid (list cell))) (e : entity) : option (gmap tid (list cell)) :=
  if decide (e ∈ L) then D !! e_id e else None.

Section hist.
Context (c : cfg) (Hc : cfg_ok c) (Hmd : c_mode c = Debug).

Lemma alive_lt s I L e b : ec_inv (st_ec s) I L → is_alive c s e = POk b → e_id e < ec_cap (st_ec s).
Proof using Hmd. intros Hi H. unfold is_alive in H. rewrite Hmd in H. by apply (ec_is_alive_debug_ok _ _ _ _ _ Hi) in H as [? _]. Qed.
Lemma same_ids L (s : ec) I e1 e2 : ec_inv s I L → e1 ∈ L → e2 ∈ L → e_id e1 = e_id e2 → e1 = e2.
Proof using.
  intros Hec [_ H1]%(inv_live _ _ _ Hec) [_ H2]%(inv_live _ _ _ Hec) Heq. rewrite Heq, H2 in H1. destruct e1, e2; simpl in *. congruence.
Qed.
(** Changes of other parts. *)
Lemma comp_inv_ext s s' D : comp_inv c s None D → st_ac s' = st_ac s → st_page s' = st_page s → st_idx s' = st_idx s →
  st_has s' = st_has s → ec_cap (st_ec s') = ec_cap (st_ec s) → comp_inv c s' None D.
Proof using. intros [Ha Hp Hx Hh Hlt Hrows Hdata] E1 E2 E3 E4 E5. split; unfold linked in *; rewrite ?E1, ?E2, ?E3, ?E4, ?E5; done. Qed.

(** Creation: the id is free, and the arrays have grown with the capacity. *)
Lemma register_comp s s' e I L D : comp_state c s I L D → register_new_entity c s = ROk s' e →
  comp_inv c s' None D ∧ D !! e_id e = None ∧ e_id e < ec_cap (st_ec s') ∧ st_ac s' = st_ac s.
Proof using Hmd.
  intros Hs H. pose proof (cs_ec _ _ _ _ _ Hs) as Hec. pose proof (register_caps _ _ _ _ H) as Hcaps.
  apply register_ok in H as (cr & Hcr & -> & Hac & _). rewrite Hmd in Hcr.
  pose proof (ec_create_spec True _ _ _ Hec) as Hsp. rewrite Hcr in Hsp. destruct Hsp as (_ & _ & _ & _ & Hlt & _ & Hbit & Hcap & _).
  split_and!; [| |done|done].
  - apply (comp_grown c s); [apply Hs|done|destruct Hcap as [->|[-> _]]; lia|].
    destruct Hcaps as [(? & _ & _ & ? & ? & ?)|(? & ? & ? & _)]; [left|right]; done.
  - apply eq_None_not_Some. intros (e & He & Hid)%(cs_dom _ _ _ _ _ Hs). apply (inv_live _ _ _ Hec) in He as [Hb _]. congruence.
Qed.

Definition room_at (tr : trace) (D : gmap N (gmap tid (list cell))) (o : op) : Prop :=
  match o with
  | OCreateWith a => fits c a
  | OAdd e vals => ∀ m, e ∈ live tr → D !! e_id e = Some m → fits_types c (dom m ∪ list_to_set vals.*1)
  | ORemove e T => ∀ m, e ∈ live tr → D !! e_id e = Some m → fits_types c (dom m ∖ list_to_set T)
  | _ => True
  end.

(** The same for the health of the archetype asked for. *)
Definition health_at (s : store) tr (D : gmap N (gmap tid (list cell))) (o : op) : Prop :=
  match o with
  | OCreateWith a => healthy_for c (st_ac s) (list_to_set (arch_ids a))
  | OAdd e vals => ∀ m, e ∈ live tr → D !! e_id e = Some m → healthy_for c (st_ac s) (dom m ∪ list_to_set vals.*1)
  | ORemove e T => ∀ m, e ∈ live tr → D !! e_id e = Some m → healthy_for c (st_ac s) (dom m ∖ list_to_set T)
  | _ => True
  end.

Definition next_state tr o r s' D D' : Prop :=
  comp_state c s' (issued (tr ++ [(o, r)])) (live (tr ++ [(o, r)])) D' ∧
  ∀ e, comp_step e (cview (live tr) D e) o r (cview (live (tr ++ [(o, r)])) D' e).

Lemma step_comp tr s o s' r D : comp_state c s (issued tr) (live tr) D → health_at s tr D o → args_ok c o → room_at tr D o →
  step c o s = ROk s' r → ∃ D', next_state tr o r s' D D'.
Proof using Hc Hmd.
  intros Hs Hh Hargs Hroom H. pose proof (cs_ec _ _ _ _ _ Hs) as Hec. pose proof (cs_inv _ _ _ _ _ Hs) as Hi.
  pose proof (step_ec _ _ _ _ _ H) as Hst. rewrite Hmd in Hst. pose proof (ec_step_inv _ _ _ _ _ Hec Hst) as [Hec' _].
  (* calls that create and destroy nothing *)
  assert (∀ D', live (tr ++ [(o, r)]) = live tr → comp_inv c s' None D' → (∀ id, is_Some (D' !! id) ↔ is_Some (D !! id)) →
    (∀ e m, e ∈ live tr → D !! e_id e = Some m → ∃ m', D' !! e_id e = Some m' ∧ comp_step e (Some m) o r (Some m')) →
    (∀ e, e ∉ live tr → comp_step e None o r None) → next_state tr o r s' D D') as Hsame.
  { intros D' HL Hi' Hdom Hstep Hdead. split; [split; [done|done|]|].
    - intros id. by rewrite Hdom, HL, (cs_dom _ _ _ _ _ Hs).
    - intros e. rewrite HL. unfold cview. destruct (decide (e ∈ live tr)) as [He|He]; [|by apply Hdead].
      destruct (proj2 (cs_dom _ _ _ _ _ Hs (e_id e))) as [m Hm]; [by exists e|]. rewrite Hm.
      destruct (Hstep _ _ He Hm) as (m' & -> & ?). done. }
  (* those that change the components of one id *)
  assert (∀ e0 m0 m1, live (tr ++ [(o, r)]) = live tr → e0 ∈ live tr → D !! e_id e0 = Some m0 → comp_inv c s' None (<[e_id e0 := m1]> D) →
    comp_step e0 (Some m0) o r (Some m1) → (∀ e x, e ≠ e0 → comp_step e x o r x) → next_state tr o r s' D (<[e_id e0 := m1]> D)) as Hone.
  { intros e0 m0 m1 HL He0 HD0 Hi' Hst0 Hoth. apply Hsame; [done|done| | |].
    - intros id. rewrite lookup_insert_is_Some. destruct (decide (e_id e0 = id)) as [<-|]; [rewrite HD0|]; naive_solver.
    - intros e m He Hm. destruct (decide (e = e0)) as [->|Hne].
      + exists m1. rewrite lookup_insert. split; [done|]. congruence.
      + exists m. rewrite lookup_insert_ne; [split; [done|by apply Hoth]|]. intros Heq. apply Hne. symmetry. exact (same_ids _ _ _ _ _ Hec He0 He Heq).
    - intros e He. apply Hoth. congruence. }
  destruct o as [|a|e|e vals|e T|e vals|q f|t e|t e|g e|g e to|g e to|g e]; simpl in H.
  - apply bind_ok in H as (s1 & e & H & [-> ->]%ret_ok). apply create_ok in H as (s2 & H & Hids & Hac & Hp & Hx & Hoff).
    destruct (register_comp _ _ _ _ _ _ Hs H) as (Hi2 & Hnone & Hlt & Hac2). injection Hids as Hec2 _ _.
    apply bv_off_ok in Hoff as [Hl Hb]. exists (<[e_id e := ∅]> D). split; [split; [done| |]|].
    + destruct Hi2 as [Ha2 Hp2 Hx2 Hh2 Hlt2 Hrows Hdata]. split; unfold linked; rewrite ?Hec2, ?Hac, ?Hp, ?Hx; try done.
      * unfold bv_sized in *. congruence.
      * intros id m. destruct (decide (id = e_id e)) as [->|Hne]; [done|]. rewrite lookup_insert_ne by done. apply Hlt2.
      * intros p k id m Hloc Hn. destruct (Hrows _ _ _ _ Hloc Hn) as (HD & Hlk). assert (id ≠ e_id e) by congruence.
        rewrite lookup_insert_ne by done. split; [done|]. destruct Hlk as (? & ? & ?). rewrite Hb, bool_decide_false by done. done.
      * intros id m HD. destruct (decide (id = e_id e)) as [->|Hne].
        -- rewrite lookup_insert in HD. injection HD as <-. right. by rewrite Hb, bool_decide_true.
        -- rewrite lookup_insert_ne in HD by done. rewrite Hb, bool_decide_false by done. destruct (Hdata _ _ HD) as [(p & k & ? & ? & ?)|?]; [left|by right].
           exists p, k. done.
    + intros id. rewrite live_snoc. unfold live_step. simpl. rewrite lookup_insert_is_Some', (cs_dom _ _ _ _ _ Hs). set_solver.
    + intros e'. simpl. rewrite live_snoc. unfold live_step, cview. simpl. destruct (decide (Some e = Some e')) as [[= ->]|Hne].
      * rewrite decide_True by set_solver. by rewrite lookup_insert.
      * destruct (decide (e' ∈ live tr)) as [He'|He'].
        -- rewrite decide_True by set_solver. rewrite lookup_insert_ne; [done|]. intros Heq.
           assert (is_Some (D !! e_id e)) as [? ?]; [|congruence]. apply (cs_dom _ _ _ _ _ Hs). by exists e'.
        -- rewrite decide_False by set_solver. done.
  - apply bind_ok in H as (s1 & e & H & [-> ->]%ret_ok). unfold create_entity_with_archetype in H.
    apply bind_ok in H as (s2 & e' & H & Hrest). destruct (register_comp _ _ _ _ _ _ Hs H) as (Hi2 & Hnone & Hlt & Hac2).
    apply bind_ok in Hrest as (s3 & l & H3 & Hrest). apply bind_ok in Hrest as (s4 & [] & H4 & [Heq ->]%ret_ok). subst e'.
    assert ((l ← on_ac (ac_add_entity c (e_id e) a); _ ← set_location (e_id e) l; mret l) s2 = ROk s4 l) as Hpl.
    { apply bind_ok. exists s3, l. split; [done|]. apply bind_ok. exists s4, (). done. }
    eapply (sat_ok True) in Hpl; [|apply (place_wp c Hc s2 D (e_id e) a True (λ _, True)); [done|by rewrite Hac2|done|done|done|by left]].
    destruct Hpl as (m & Hi4 & Hdom & Hids & _). exists (<[e_id e := m]> D). split; [split; [done|done|]|].
    + intros id. rewrite live_snoc. unfold live_step. simpl. rewrite lookup_insert_is_Some', (cs_dom _ _ _ _ _ Hs). set_solver.
    + intros e'. simpl. rewrite live_snoc. unfold live_step, cview. simpl. destruct (decide (Some e = Some e')) as [[= ->]|Hne].
      * rewrite decide_True by set_solver. exists m. by rewrite lookup_insert.
      * destruct (decide (e' ∈ live tr)) as [He'|He'].
        -- rewrite decide_True by set_solver. rewrite lookup_insert_ne; [done|]. intros Heq.
           assert (is_Some (D !! e_id e)) as [? ?]; [|congruence]. apply (cs_dom _ _ _ _ _ Hs). by exists e'.
        -- rewrite decide_False by set_solver. done.
  - apply no_out_ok in H as [H ->]. pose proof (destroy_ok _ _ _ _ _ H) as (Hd & _). rewrite Hmd in Hd.
    apply (ec_destroy_debug _ _ _ _ _ _ Hec) in Hd as [He Hd]. destruct Hd as (_ & Hcap & _).
    unfold destroy_entity in H. apply bind_ok in H as (s1 & x & [-> ->]%get_ok & H).
    apply bind_ok in H as (s1 & has & H1 & H). apply bind_ok in H as (s2 & [] & H2 & H).
    assert ((has ← lift (has_archetype s (e_id e));
      if (has : bool) then l ← lift (get_eia s (e_id e)); swap_remove_internal l else mret tt) s = ROk s2 ()) as Hrow.
    { apply bind_ok. by exists s1, has. }
    eapply (sat_ok True) in Hrow; [|apply (destroy_row_wp c s _ _ D e True (λ _, True) Hs He)]. destruct Hrow as (Hi2 & Hids).
    exists (delete (e_id e) D). split; [split; [done| |]|].
    + eapply comp_inv_ext; [exact Hi2|..].
      1-4: by unfold on_ec, on_tags, on_orders in H; inv1 H.
      injection Hids as -> _ _. done.
    + intros id. rewrite live_snoc. unfold live_step. simpl. rewrite lookup_delete_is_Some, (cs_dom _ _ _ _ _ Hs). split.
      * intros [Hne (e' & He' & <-)]. exists e'. split; [|done]. set_solver.
      * intros (e' & He' & <-). assert (e' ∈ live tr ∧ e' ≠ e) as [Hl Hne] by set_solver. split; [|by exists e'].
        intros Heq. apply Hne. symmetry. exact (same_ids _ _ _ _ _ Hec He Hl Heq).
    + intros e'. simpl. rewrite live_snoc. unfold live_step, cview. simpl. destruct (decide (e = e')) as [<-|Hne].
      * by rewrite decide_False by set_solver.
      * destruct (decide (e' ∈ live tr)) as [He'|He'].
        -- rewrite decide_True by set_solver. rewrite lookup_delete_ne; [done|]. intros Heq. apply Hne. exact (same_ids _ _ _ _ _ Hec He He' Heq).
        -- by rewrite decide_False by set_solver.
  - apply no_out_ok in H as [H ->]. destruct Hargs as (Hne & Hnd & Hok).
    assert (e_id e < ec_cap (st_ec s)) as Hlt.
    { pose proof H as H'. apply bind_ok in H' as (s1 & x & [-> ->]%get_ok & H'). apply bind_ok in H' as (s1 & b & [Hb _]%lift_ok & _).
      by eapply alive_lt. }
    eapply (sat_ok True) in H; [|eapply (add_components_wp c Hc s _ _ D e vals True (λ _, True)); try done].
    destruct H as [Hids H]. destruct (decide (e ∈ live tr)) as [He|He].
    + destruct H as (m & HD & Hi'). eexists. eapply Hone; try done; [by rewrite live_snoc; unfold live_step; simpl; set_solver| |].
      * simpl. by rewrite decide_True by done.
      * intros e' x Hne'. simpl. by rewrite decide_False by done.
    + subst s'. exists D. apply Hsame; [by rewrite live_snoc; unfold live_step; simpl; set_solver|done|done| |].
      * intros e' m He' Hm. exists m. split; [done|]. simpl. by rewrite decide_False by congruence.
      * intros e' _. simpl. by destruct (decide _).
  - apply no_out_ok in H as [H ->]. destruct Hargs as (Hne & Hnd).
    assert (e_id e < ec_cap (st_ec s)) as Hlt.
    { pose proof H as H'. apply bind_ok in H' as (s1 & x & [-> ->]%get_ok & H'). apply bind_ok in H' as (s1 & b & [Hb _]%lift_ok & _).
      unfold is_valid_with_archetype in Hb. apply pbind_ok in Hb as (b' & Hb & _). by eapply alive_lt. }
    eapply (sat_ok True) in H; [|eapply (remove_components_wp c Hc s _ _ D e T True (λ _, True)); [done|done| |done]; intros; split; [by apply Hh|by apply Hroom]].
    destruct H as [Hids H]. destruct (decide (e ∈ live tr)) as [He|He].
    + destruct H as (m & HD & _ & Hi'). eexists. eapply Hone; try done; [by rewrite live_snoc; unfold live_step; simpl; set_solver| |].
      * simpl. by rewrite decide_True by done.
      * intros e' x Hne'. simpl. by rewrite decide_False by done.
    + subst s'. exists D. apply Hsame; [by rewrite live_snoc; unfold live_step; simpl; set_solver|done|done| |].
      * intros e' m He' Hm. exists m. split; [done|]. simpl. by rewrite decide_False by congruence.
      * intros e' _. simpl. by destruct (decide _).
  - apply no_out_ok in H as [H ->]. destruct Hargs as (Hne & Hnd & Hok).
    assert (e_id e < ec_cap (st_ec s)) as Hlt.
    { pose proof H as H'. apply bind_ok in H' as (s1 & x & [-> ->]%get_ok & H'). apply bind_ok in H' as (s1 & b & [Hb _]%lift_ok & _).
      unfold get_components_refs, is_valid_with_archetype in Hb. apply pbind_ok in Hb as (b' & Hb & _). apply pbind_ok in Hb as (b2 & Hb & _). by eapply alive_lt. }
    eapply (sat_ok True) in H; [|eapply (set_components_wp c Hc s _ _ D e vals True (λ _, True)); try done].
    destruct H as [Hids H]. destruct (decide (e ∈ live tr)) as [He|He].
    + destruct H as (m & HD & Hi' & _). eexists. eapply Hone; try done; [by rewrite live_snoc; unfold live_step; simpl; set_solver| |].
      * simpl. by rewrite decide_True by done.
      * intros e' x Hne'. simpl. by rewrite decide_False by done.
    + subst s'. exists D. apply Hsame; [by rewrite live_snoc; unfold live_step; simpl; set_solver|done|done| |].
      * intros e' m He' Hm. exists m. split; [done|]. simpl. by rewrite decide_False by congruence.
      * intros e' _. simpl. by destruct (decide _).
  - apply no_out_ok in H as [H ->]. destruct Hargs as (Hnd & Hok).
    eapply (sat_ok True) in H; [|eapply (query_write_wp c Hc s _ _ D q f True (λ _, True)); try done].
    destruct H as [Hids (D' & Hi' & Hval & Hdom)]. exists D'. apply Hsame; [by rewrite live_snoc; unfold live_step; simpl; set_solver|done|done| |done].
    intros e m He HD. eexists. split; [by apply Hval|]. simpl. by destruct (has_all m (q_types q)).
  - apply no_out_ok in H as [H ->]. apply (keeps_ok but_tags) in H; [|apply tag_keeps]. unfold but_tags in H. injection H as E1 E2 E3 E4 E5 E6.
    exists D. apply Hsame; [by rewrite live_snoc; unfold live_step; simpl; set_solver|eapply comp_inv_ext; try done; by rewrite E1|done| |done]. intros e' m He Hm. exists m. done.
  - apply no_out_ok in H as [H ->]. apply (keeps_ok but_tags) in H; [|apply tag_keeps]. unfold but_tags in H. injection H as E1 E2 E3 E4 E5 E6.
    exists D. apply Hsame; [by rewrite live_snoc; unfold live_step; simpl; set_solver|eapply comp_inv_ext; try done; by rewrite E1|done| |done]. intros e' m He Hm. exists m. done.
  - apply no_out_ok in H as [H ->]. apply (keeps_ok but_orders) in H; [|apply (order_keeps c g e e)]. unfold but_orders in H. injection H as E1 E2 E3 E4 E5 E6.
    exists D. apply Hsame; [by rewrite live_snoc; unfold live_step; simpl; set_solver|eapply comp_inv_ext; try done; by rewrite E1|done| |done]. intros e' m He Hm. exists m. done.
  - apply no_out_ok in H as [H ->]. apply (keeps_ok but_orders) in H; [|apply (order_keeps c g e to)]. unfold but_orders in H. injection H as E1 E2 E3 E4 E5 E6.
    exists D. apply Hsame; [by rewrite live_snoc; unfold live_step; simpl; set_solver|eapply comp_inv_ext; try done; by rewrite E1|done| |done]. intros e' m He Hm. exists m. done.
  - apply no_out_ok in H as [H ->]. apply (keeps_ok but_orders) in H; [|apply (order_keeps c g e to)]. unfold but_orders in H. injection H as E1 E2 E3 E4 E5 E6.
    exists D. apply Hsame; [by rewrite live_snoc; unfold live_step; simpl; set_solver|eapply comp_inv_ext; try done; by rewrite E1|done| |done]. intros e' m He Hm. exists m. done.
  - apply no_out_ok in H as [H ->]. apply (keeps_ok but_orders) in H; [|apply (order_keeps c g e e)]. unfold but_orders in H. injection H as E1 E2 E3 E4 E5 E6.
    exists D. apply Hsame; [by rewrite live_snoc; unfold live_step; simpl; set_solver|eapply comp_inv_ext; try done; by rewrite E1|done| |done]. intros e' m He Hm. exists m. done.
Qed.
End hist.
