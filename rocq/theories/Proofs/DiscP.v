(** DiscP.v — disciplined calls return, in both builds. *)
From Verif.Spec Require Export Discipline.
From Verif.Proofs Require Export SafeP ModeP HandlesR UsageP.
Local Open Scope N_scope.

Lemma sat_returns {A} (r : res store A) Q : sat False r Q (λ _, False) → ∃ s' a, r = ROk s' a.
Proof. destruct r; [by eauto|done..]. Qed.

(** ** Creations *)
Definition quiet {S A} (m : M S A) : Prop := ∀ s s', m s ≠ RPanic s'.
Lemma quiet_bind {S A B} (m : M S A) (k : A → M S B) : quiet m → (∀ a, quiet (k a)) → quiet (m ≫= k).
Proof. intros Hm Hk s s'. unfold mbind, M_bind. specialize (Hm s). destruct (m s); [apply Hk| |done]. intros _. by eapply Hm. Qed.
Lemma quiet_lift {S A} (p : pres A) : p ≠ PPanic → quiet (lift p : M S A).
Proof. intros H s s'. unfold lift. by destruct p. Qed.
Lemma quiet_create : quiet (ec_create Release).
Proof.
  assert (∀ new, quiet (ec_grow new)) as Hg.
  { intros new. unfold ec_grow. apply quiet_bind; [done|]. intros s. destruct (_ <=? _); [done|].
    apply quiet_bind; [apply quiet_lift; unfold arealloc_filled, copy_prefix; by case_match|]. intros ?. apply quiet_bind; [done|]. intros _.
    apply quiet_bind; [apply quiet_lift; unfold bv_realloc, copy_prefix; repeat case_match; done|]. intros ?. apply quiet_bind; done. }
  assert (∀ a, u32_add Release a 1 ≠ PPanic) as Hu. { intros a. unfold u32_add. by case_match. }
  unfold ec_create. apply quiet_bind; [done|]. intros s. apply quiet_bind.
  { destruct (last (ec_gaps s)); [done|]. apply quiet_bind; [by apply quiet_lift|]. intros ?. apply quiet_bind; [done|]. intros _.
    apply quiet_bind; [by destruct (will_grow_with_id _ _)|]. done. }
  intros id. apply quiet_bind; [done|]. intros s1.
  apply quiet_bind; [apply quiet_lift; unfold bv_toggle, bv_upd; by case_match|]. intros al. apply quiet_bind; [done|]. intros _.
  apply quiet_bind; [apply quiet_lift; unfold aget; by repeat case_match|]. intros v. apply quiet_bind; [by apply quiet_lift|]. intros w.
  apply quiet_bind; [apply quiet_lift; unfold aset; by case_match|]. intros u. apply quiet_bind; [done|]. intros _. by apply quiet_bind.
Qed.

Section disc.
Context (c : cfg) (Hc : cfg_ok c) (Hmd : c_mode c = Debug).

Lemma run_destroys_live cap tr s : run c cap tr s → destroys_live tr.
Proof using Hmd.
  induction 1 as [s H|tr s o s' r Hrun IH H]; [intros tr1 e r tr2 Heq; by destruct tr1|].
  apply destroys_live_snoc. split; [done|]. intros e ->. by eapply destroy_alive.
Qed.
Lemma create_returns cap tr s : run c cap tr s → N.of_nat (length (issued tr)) < 2 ^ 32 - 1 → ∃ s1 cr, ec_create Debug (st_ec s) = ROk s1 cr.
Proof using Hmd.
  intros Hrun Hl. change (2 ^ 32) with u32_size in Hl. destruct (careful_ec _ _ _ _ Hrun (run_destroys_live _ _ _ Hrun) Hl) as [Hi HB].
  pose proof (next_issued _ _ _ Hi) as Hn.
  destruct (ec_create_small _ _ _ _ Hi HB ltac:(unfold u32_size in *; lia) ltac:(unfold u32_size in *; lia)) as [Heq _].
  pose proof (ec_create_spec False _ _ _ Hi) as Hsp. pose proof (quiet_create (st_ec s)) as Hq. rewrite Heq in Hq.
  destruct (ec_create Debug (st_ec s)) as [s1 cr|s1|]; [by eauto|by destruct (Hq s1)|done].
Qed.
Lemma register_returns cap tr s D : run c cap tr s → comp_state c s (issued tr) (live tr) D → tags_inv (st_tags s) (ec_cap (st_ec s)) →
  (∃ G, orders_hold (st_orders s) (ec_cap (st_ec s)) G) → N.of_nat (length (issued tr)) < 2 ^ 32 - 1 →
  ∃ s1 e, register_new_entity c s = ROk s1 e.
Proof using Hmd Hc.
  intros Hrun Hs Ht [G Ho] Hl. apply (sat_returns _ (λ _ _, True)). pose proof (cs_inv _ _ _ _ _ Hs) as Hi. unfold register_new_entity, on_ec. do 2 wp1. rewrite Hmd.
  pose proof (ec_create_spec False _ _ _ (cs_ec _ _ _ _ _ Hs)) as Hsp. destruct (create_returns _ _ _ Hrun Hl) as (ec' & cr & Hcr). rewrite Hcr in Hsp |- *.
  destruct (ec_create_caps _ _ _ _ Hcr) as [Hbef Haft]. destruct Hsp as (_ & _ & _ & _ & _ & _ & _ & Hcap & _). simpl.
  assert (ec_cap (st_ec s) ≤ ec_cap ec') as Hle by (destruct Hcap as [->|[-> _]]; lia).
  destruct (container_was_grow cr); [|by wp]. wp1. unfold grow_entities, entities_capacity. do 4 wp1. simpl. rewrite Hbef.
  destruct (arealloc_le (st_page s) _ _ (ci_page _ _ _ _ Hi) Hle) as [a1 ->]. simpl. do 4 wp1. simpl.
  destruct (arealloc_le (st_idx s) _ _ (ci_idx _ _ _ _ Hi) Hle) as [a2 ->]. simpl. do 4 wp1. simpl.
  destruct (bv_realloc_le _ _ _ (ci_has _ _ _ _ Hi) Hle) as [v ->]. simpl. do 2 wp1. unfold on_tags. do 2 wp1. simpl.
  destruct (tags_grow_safe _ _ _ Ht Hle) as [t' ->]. simpl. unfold on_orders. wp1. simpl.
  rewrite <- Hmd.
  eapply sat_mono; [apply (orders_grow_wp c False _ _ _ _ (λ _, False) Ho Hle)| |done]. intros ? ? _. by wp.
Qed.
Lemma destroy_returns s I L D G e : comp_state c s I L D → tags_inv (st_tags s) (ec_cap (st_ec s)) →
  orders_hold (st_orders s) (ec_cap (st_ec s)) G → e ∈ L → e_id e ≠ NULL_ID →
  sat False (destroy_entity c e s) (λ _ _, True) (λ _, False).
Proof using.
  intros Hs Ht Ho HL Hnull. pose proof (cs_ec _ _ _ _ _ Hs) as Hec. pose proof (live_lt _ _ _ _ Hec HL) as Hlt.
  unfold destroy_entity. do 3 wp1.
  pose proof (destroy_row_wp c s _ _ D e False (λ _, False) Hs HL) as Hrow. apply sat_bind in Hrow.
  eapply sat_mono; [exact Hrow| |done]. intros s0 has Hrow'. cbv beta in *. wp1. eapply sat_mono; [exact Hrow'| |done].
  intros s1 [] [_ Hids]. injection Hids as E1 E2 E3. unfold on_ec. do 2 wp1. rewrite E1.
  destruct (ec_destroy_live (c_mode c) _ _ _ _ Hec HL) as (ec' & -> & _). simpl. unfold on_tags. do 2 wp1. simpl. rewrite E2.
  destruct (tags_remove_all_safe _ _ _ Ht Hlt) as [t' ->]. simpl. unfold on_orders. wp1. simpl. rewrite E3.
  eapply sat_mono; [apply (orders_remove_all_wp False _ _ _ _ (λ _, False) Ho Hlt Hnull)| |done]. intros. done.
Qed.
Lemma step_returns cap tr s o : hrun c cap tr s → healthy c (st_ac s) (asks tr o) → args_ok c o → room c tr o → orders_proper tr → order_use_ok tr o →
  own tr o → sensible tr o → ∃ s' r, step c o s = ROk s' r.
Proof using Hc Hmd.
  intros Hr Hh Ha Hroom Hp Huse Hown Hsens. apply (sat_returns _ (λ _ _, True)).
  pose proof (hrun_run _ _ _ _ Hr) as Hrun. pose proof Hc as [Hbs _ _].
  destruct (hrun_state c Hc Hmd _ _ _ Hr) as (D & Hs & Hcs). pose proof (room_room_at c _ _ _ Hroom Hcs) as Hra.
  apply (healthy_at c s tr D o) in Hh; [|done].
  pose proof (run_tags_inv c Hbs _ _ _ Hrun) as Ht. destruct (run_orders c cap Hbs Hmd _ _ Hrun Hp) as [Hmem Ho].
  pose proof (cs_inv _ _ _ _ _ Hs) as Hi.
  assert (∀ e, e ∈ handles o → e_id e < ec_cap (st_ec s)) as Hlts. { intros e He. apply (own_lt c Hmd _ _ _ _ Hrun). by apply Hown. }
  assert (∀ g e, alive_in tr e → ∀ x, x ∈ members tr g → e_id x = e_id e → x = e) as Hinj.
  { intros g e He x Hx Heq. pose proof (live_ids _ _ Hmd _ _ Hrun) as [Huniq _]. apply Huniq; [by apply (Hmem g)|done|done]. }
  assert (∀ m : M store unit, sat False (m s) (λ _ _, True) (λ _, False) → sat False (no_out m s) (λ _ _, True) (λ _, False)) as Hno.
  { intros m Hm. unfold no_out. wp1. eapply sat_mono; [exact Hm|by intros; wp|done]. }
  destruct o as [|a|e|e vals|e T|e vals|q f|t e|t e|g e|g e to|g e to|g e]; simpl in *; try apply Hno.
  - unfold create_entity. do 2 wp1. destruct (register_returns _ _ _ _ Hrun Hs Ht (ex_intro _ _ Ho) Hsens) as (s1 & e & Hre). rewrite Hre.
    destruct (register_comp c Hmd _ _ _ _ _ _ Hs Hre) as (Hi1 & _ & Hlt & _).
    simpl. wp1. unfold disable_archetype. do 4 wp1. unfold bv_off.
    destruct (bv_upd_lt (λ w, N.land w (u32_not (bv_mask (e_id e)))) (st_has s1) (e_id e)) as [v ->]; [|simpl; by wp].
    eapply bv_sized_lt; [apply Hi1|done].
  - unfold create_entity_with_archetype. do 2 wp1. destruct (register_returns _ _ _ _ Hrun Hs Ht (ex_intro _ _ Ho) Hsens) as (s1 & e & Hre). rewrite Hre.
    destruct (register_comp c Hmd _ _ _ _ _ _ Hs Hre) as (Hi1 & Hnone & Hlt & Hac).
    simpl. pose proof (place_wp c Hc s1 D (e_id e) a False (λ _, False) Hi1) as Hpl. rewrite Hac in Hpl.
    specialize (Hpl Hh Ha Hroom Hlt (or_introl Hnone)). apply sat_bind in Hpl. wp1. eapply sat_mono; [exact Hpl| |done].
    intros s2 l Hl. cbv beta in *. apply sat_bind in Hl. wp1. eapply sat_mono; [exact Hl| |done]. intros. by wp.
  - eapply destroy_returns; try done; [by apply live_alive|]. by apply (alive_id c cap Hbs Hmd _ _ _ Hrun).
  - destruct Ha as (H1 & H2 & H3). eapply sat_mono; [eapply (add_components_wp c Hc s _ _ D e vals False (λ _, False)); try done|done|done].
    apply Hlts. by left.
  - eapply sat_mono; [eapply (remove_components_wp c Hc s _ _ D e T False (λ _, False)); try done|done|done].
    + apply Hlts. by left.
    + intros m HL HD _. split; [by apply Hh|by apply Hra].
    + intros m HL HD Hm Hsub. destruct (Hsens m) as [->|(t & Ht1 & Ht2)]; [|done|].
      * pose proof (Hcs e) as Hx. unfold cview in Hx. rewrite decide_True in Hx by done. by rewrite HD in Hx.
      * apply Ht2. apply elem_of_dom in Ht1. set_solver.
  - destruct Ha as (H1 & H2 & H3). eapply sat_mono; [eapply (set_components_wp c Hc s _ _ D e vals False (λ _, False)); try done|done|done].
    apply Hlts. by left.
  - destruct Ha as (H1 & H2). eapply sat_mono; [eapply (query_write_wp c Hc s _ _ D q f False (λ _, False)); try done|done|done].
  - unfold add_tag, on_tags. wp1. destruct (tags_add_safe c Hc _ _ t (e_id e) Ht) as [t' ->]; [apply Hlts; by left|]. done.
  - unfold remove_tag, on_tags. wp1. destruct (tags_remove_safe c Hc _ _ t (e_id e) Ht) as [t' ->]; [apply Hlts; by left|]. done.
  - destruct Huse as [Hal Hni]. destruct (alive_id c cap Hbs Hmd _ _ _ Hrun Hal) as [Hlt Hn]. unfold add_order, on_orders. wp1.
    eapply sat_mono; [apply (orders_add_wp c Hbs False _ _ _ g _ (λ _, False) Ho Hlt Hn (id_notin _ _ (Hinj g e Hal) Hni))|done|done].
  - destruct Huse as (Hal & Hni & Hto). destruct (alive_id c cap Hbs Hmd _ _ _ Hrun Hal) as [Hlt Hn]. unfold add_order_next, on_orders. wp1.
    destruct (insert_after_split to e (members tr g) Hto) as (l1 & l2 & Hl & _).
    assert (e_id <$> members tr g = (e_id <$> l1) ++ e_id to :: (e_id <$> l2)) as Hl' by (by rewrite Hl, fmap_app).
    eapply sat_mono; [apply (orders_add_next_wp c Hbs False _ _ _ g _ _ _ _ (λ _, False) Ho Hlt Hn (id_notin _ _ (Hinj g e Hal) Hni) Hl')|done|done].
  - destruct Huse as (Hal & Hni & Hto). destruct (alive_id c cap Hbs Hmd _ _ _ Hrun Hal) as [Hlt Hn]. unfold add_order_prev, on_orders. wp1.
    destruct (insert_before_split to e (members tr g) Hto) as (l1 & l2 & Hl & _).
    assert (e_id <$> members tr g = (e_id <$> l1) ++ e_id to :: (e_id <$> l2)) as Hl' by (by rewrite Hl, fmap_app).
    eapply sat_mono; [apply (orders_add_prev_wp c Hbs False _ _ _ g _ _ _ _ (λ _, False) Ho Hlt Hn (id_notin _ _ (Hinj g e Hal) Hni) Hl')|done|done].
  - destruct (alive_id c cap Hbs Hmd _ _ _ Hrun Huse) as [Hlt Hn]. unfold remove_order, on_orders. wp1.
    eapply sat_mono; [apply (orders_remove_wp c Hbs False _ _ _ g _ (λ _, False) Ho Hlt Hn)|done|done].
Qed.
End disc.

(** ** Runs *)
Lemma in_mode_id c : c = in_mode (c_mode c) c.
Proof. by destruct c. Qed.
Lemma step_own_mode c o s s' r : step (in_mode Debug c) o s = ROk s' r → step c o s = ROk s' r.
Proof. intros H. rewrite (in_mode_id c). destruct (c_mode c); [done|]. by apply step_release. Qed.
Lemma cfg_ok_mode md c : cfg_ok c → cfg_ok (in_mode md c).
Proof. intros [H1 H2 H3]. by constructor. Qed.
Lemma args_ok_mode md c o : args_ok c o → args_ok (in_mode md c) o.
Proof. by destruct o. Qed.
Lemma proper_snoc' tr o r : orders_proper tr → order_use_ok tr o → orders_proper (tr ++ [(o, r)]).
Proof.
  intros Hp Ho tr1 o1 r1 tr2 Heq. destruct tr2 as [|x tr2 _] using rev_ind.
  - apply app_inj_tail in Heq as [-> [= -> ->]]. done.
  - rewrite app_comm_cons, app_assoc in Heq. apply app_inj_tail in Heq as [Heq _]. by eapply Hp.
Qed.

Lemma drun_debug c cap tr s : cfg_ok c → drun (healthy c) c cap tr s → hrun (in_mode Debug c) cap tr s ∧ orders_proper tr.
Proof.
  intros Hc. induction 1 as [s Hcap H|tr s o s' r Hd [IH Hp] Hh (Ha & Hro & Huse & Hown & Hsens) H].
  - split; [|intros tr1 o1 r1 tr2 Heq; by destruct tr1]. constructor. revert H. unfold store_with_capacity. simpl.
    assert (0 <? cap = true) as -> by by apply N.ltb_lt. by destruct (c_mode c).
  - split; [|by apply proper_snoc'].
    destruct (step_returns _ (cfg_ok_mode Debug c Hc) eq_refl _ _ _ _ IH Hh (args_ok_mode _ _ _ Ha) Hro Hp Huse Hown Hsens) as (s1 & r1 & H1).
    assert (s1 = s' ∧ r1 = r) as [-> ->]. { pose proof (step_own_mode _ _ _ _ _ H1) as H2. rewrite H in H2. by injection H2. }
    econstructor; done.
Qed.
Lemma disciplined_returns c cap tr s o : cfg_ok c → drun (healthy c) c cap tr s → healthy c (st_ac s) (asks tr o) → disciplined c tr o →
  ∃ s' r, step c o s = ROk s' r.
Proof.
  intros Hc Hd Hh (Ha & Hro & Huse & Hown & Hsens). destruct (drun_debug _ _ _ _ Hc Hd) as [Hr Hp].
  destruct (step_returns _ (cfg_ok_mode Debug c Hc) eq_refl _ _ _ _ Hr Hh (args_ok_mode _ _ _ Ha) Hro Hp Huse Hown Hsens) as (s1 & r1 & H1).
  exists s1, r1. by apply step_own_mode.
Qed.
Lemma frugal_prefix c tr x : frugal c (tr ++ [x]) → frugal c tr.
Proof.
  intros [H1 H2]. split; [by eapply one_abandoned_prefix|].
  destruct H2 as [(K & HK & Hsame)|Hbelow]; [left; exists K; split; [done|]; by eapply same_capacity_prefix|right; by eapply below_capacity_prefix].
Qed.
Lemma hrun_grun c cap tr s : hrun c cap tr s → grun (λ _ _, True) c cap tr s.
Proof. induction 1; econstructor; eauto. Qed.
Lemma frugal_drun c cap tr s : cfg_ok c → drun (λ _ _, True) c cap tr s → frugal c tr → drun (healthy c) c cap tr s ∧ ∀ w, healthy c (st_ac s) w.
Proof.
  intros Hc Hd Hf. cut (drun (healthy c) c cap tr s).
  { intros Hh. split; [done|]. destruct (drun_debug _ _ _ _ Hc Hh) as [Hr _]. destruct Hf as [H1 H2].
    by apply (usage_healthy _ (cfg_ok_mode Debug c Hc) eq_refl _ _ _ (hrun_grun _ _ _ _ Hr)). }
  induction Hd as [s Hcap H|tr s o s' r Hd IH _ Hdisc H]; [by constructor|].
  apply frugal_prefix in Hf. specialize (IH Hf). econstructor; try done.
  destruct (drun_debug _ _ _ _ Hc IH) as [Hr _]. destruct Hf as [H1 H2].
  by apply (usage_healthy _ (cfg_ok_mode Debug c Hc) eq_refl _ _ _ (hrun_grun _ _ _ _ Hr)).
Qed.
Lemma frugal_returns c cap tr s o : cfg_ok c → drun (λ _ _, True) c cap tr s → frugal c tr → disciplined c tr o →
  ∃ s' r, step c o s = ROk s' r.
Proof. intros Hc Hd Hf Ho. destruct (frugal_drun _ _ _ _ Hc Hd Hf). by eapply disciplined_returns. Qed.
Lemma considerate_drun c cap tr s : cfg_ok c → search_honest (c_bs c) → drun (λ _ _, True) c cap tr s → considerate c tr → drun (healthy c) c cap tr s.
Proof.
  intros Hc Hho Hd Hf. induction Hd as [s Hcap H|tr s o s' r Hd IH _ Hdisc H]; [by constructor|].
  pose proof (careful_prefix _ _ _ Hf) as Hf'. specialize (IH Hf'). econstructor; try done.
  destruct (drun_debug _ _ _ _ Hc IH) as [Hr _].
  apply (careful_health _ (cfg_ok_mode Debug c Hc) eq_refl _ _ _ _ Hr Hho). by apply (Hf tr o r []).
Qed.
Lemma considerate_returns c cap tr s o : cfg_ok c → search_honest (c_bs c) → drun (λ _ _, True) c cap tr s → considerate c tr →
  careful_call (in_mode Debug c) tr o → disciplined c tr o → ∃ s' r, step c o s = ROk s' r.
Proof.
  intros Hc Hho Hd Hf Hca Ho. pose proof (considerate_drun _ _ _ _ Hc Hho Hd Hf) as Hr. eapply disciplined_returns; try done.
  destruct (drun_debug _ _ _ _ Hc Hr) as [Hr' _]. apply (careful_health _ (cfg_ok_mode Debug c Hc) eq_refl _ _ _ _ Hr' Hho Hca).
Qed.
Lemma frugal_considerate c tr : frugal c tr → considerate c tr.
Proof. intros [H1 H2]. by apply usage_careful. Qed.
Lemma observed_own_mode c s e x : observed (in_mode Debug c) s e x → observed c s e x.
Proof.
  rewrite (in_mode_id c) at 2. destruct (c_mode c); [done|]. destruct (observers_release c s) as (H1 & _ & H3 & H4 & _).
  intros (A & B & C). split_and!; [by apply H1|intros; by apply H3, B|]. destruct x as [m|]; [|by apply H4]. destruct (decide _); [by apply H4|].
  destruct C as (a & Ca & ?). exists a. split; [by apply H4|done].
Qed.
Lemma drun_values c cap tr s e : cfg_ok c → drun (healthy c) c cap tr s → e ∈ issued tr →
  ∃ x, comps tr e x ∧ observed c s e x ∧ (is_Some x ↔ alive_in tr e).
Proof.
  intros Hc Hd He. destruct (drun_debug _ _ _ _ Hc Hd) as [Hr _].
  destruct (values_persist _ (cfg_ok_mode Debug c Hc) eq_refl _ _ _ e Hr) as (x & H1 & H2 & H3).
  { eapply (own_lt (in_mode Debug c) eq_refl); [by eapply hrun_run|done]. }
  exists x. split_and!; [done|by apply observed_own_mode|done..].
Qed.

(** ** Checking an example *)
Definition sensibleb (tr : trace) (o : op) : bool :=
  match o with
  | OCreate | OCreateWith _ => N.of_nat (length (issued tr)) <? 2 ^ 32 - 1
  | ODestroy e => bool_decide (e ∈ live tr)
  | ORemove e T => match types tr e with Some ts => bool_decide (ts = ∅) || bool_decide (ts ∖ list_to_set T ≠ ∅) | None => true end
  | _ => true
  end.
Lemma sensibleb_ok tr o : sensibleb tr o = true → sensible tr o.
Proof.
  destruct o as [|a|e|e vals|e T|e vals|q f|t e|t e|g e|g e to|g e to|g e]; simpl; try done; try apply N.ltb_lt.
  - intros H%bool_decide_eq_true. by apply live_alive.
  - intros H m Hm. pose proof (comps_types _ _ _ Hm) as Ht. simpl in Ht. rewrite <- Ht in H. apply orb_prop in H as [H|H]; apply bool_decide_eq_true in H.
    + left. by apply dom_empty_iff_L.
    + right. apply set_choose_L in H as [t Ht']. apply elem_of_difference in Ht' as [H1%elem_of_dom H2]. exists t. split; [done|]. by rewrite elem_of_list_to_set in H2.
Qed.
Definition ownb (tr : trace) (o : op) : bool := forallb (λ e, bool_decide (e ∈ issued tr)) (handles o).
Lemma ownb_ok tr o : ownb tr o = true → own tr o.
Proof. unfold ownb. rewrite forallb_forall. intros H e He%elem_of_list_In%H. by apply bool_decide_eq_true in He. Qed.
Definition discb (c : cfg) (tr : trace) (o : op) : bool :=
  argsb (in_mode Debug c) tr o && use_check (live tr) (members tr) o && ownb tr o && sensibleb tr o.
Lemma discb_ok c tr o : discb c tr o = true → disciplined c tr o.
Proof.
  unfold discb. intros [[[[H1 H2]%argsb_ok H3]%andb_prop H4%ownb_ok]%andb_prop H5%sensibleb_ok]%andb_prop. split_and!; try done.
  destruct o; simpl in *; try done; rewrite <- ?live_alive;
    repeat match goal with H : _ && _ = true |- _ => apply andb_prop in H as [? ?] end;
    repeat match goal with H : bool_decide _ = true |- _ => apply bool_decide_eq_true in H end; done.
Qed.
Fixpoint dexec (c : cfg) (ops : list (list entity → op)) (hs : list entity) (tr : trace) (s : store) : bool :=
  match ops with
  | [] => true
  | o :: ops => discb c tr (o hs) &&
      match step c (o hs) s with
      | ROk s' r => dexec c ops (match r with Some e => hs ++ [e] | None => hs end) (tr ++ [(o hs, r)]) s'
      | _ => false
      end
  end.
Definition dend_ok (c : cfg) (cap : N) (ops : list (list entity → op)) : bool :=
  (0 <? cap) && match store_with_capacity (c_mode c) cap with POk s => dexec c ops [] [] s | _ => false end.
Lemma dexec_run c cap ops hs tr s : drun (λ _ _, True) c cap tr s → dexec c ops hs tr s = true →
  ∃ s' tr' hs', exec c ops hs tr s = ROk s' (tr', hs') ∧ drun (λ _ _, True) c cap tr' s'.
Proof.
  revert hs tr s. induction ops as [|o ops IH]; intros hs tr s Hr; simpl.
  - intros _. eauto 10.
  - intros [H1%discb_ok H2]%andb_prop. destruct (step c (o hs) s) as [s1 r| |] eqn:E; [|done..].
    apply IH; [|done]. by econstructor.
Qed.
Lemma dend_run c cap ops : dend_ok c cap ops = true → drun (λ _ _, True) c cap (end_trace c cap ops) (end_store c cap ops).
Proof.
  unfold dend_ok, end_trace, end_store, exec0. intros [Hcap%N.ltb_lt H1]%andb_prop. revert H1.
  destruct (store_with_capacity (c_mode c) cap) as [s| |] eqn:E; [|done..].
  intros H1. destruct (dexec_run c cap ops [] [] s) as (s' & tr' & hs' & -> & ?); [by constructor|done|done].
Qed.
(** Creations, components added and removed, an archetype abandoned and used again, orders, tags, destruction. *)
Definition ex_disc : list (list entity → op) :=
  [ λ _, OCreate; λ hs, OAdd (h 0 hs) [(1, [1; 2; 3; 4])]; λ _, OCreateWith (ex_arch [8]); λ hs, OOrdAdd 9 (h 1 hs);
    λ hs, OOrdPrev 9 (h 0 hs) (h 1 hs); λ hs, OAdd (h 0 hs) [(8, [7; 7; 7; 7])]; λ _, OCreateWith (ex_arch [1; 8]); λ hs, ORemove (h 0 hs) [8]; λ hs, OTagAdd 5 (h 1 hs);
    λ hs, ODestroy (h 1 hs); λ _, OCreateWith (ex_arch [8]); λ hs, OTagDel 5 (h 1 hs); λ hs, ORemove (h 1 hs) [8] ].
Lemma ex_disc_run : ∀ md, let c := ex_cfg md in let tr := end_trace c 8 ex_disc in let s := end_store c 8 ex_disc in
  drun (λ _ _, True) c 8 tr s ∧ frugal c tr.
Proof.
  intros md c tr s. split; [apply dend_run; subst c; destruct md; vm_compute; reflexivity|]. split.
  - apply one_abandonedb_ok. subst tr c. destruct md; vm_compute; reflexivity.
  - right. apply below_capacityb_ok. subst tr c. destruct md; vm_compute; reflexivity.
Qed.
Definition panicked {S A} (r : res S A) : bool := match r with RPanic _ => true | _ => false end.
Lemma ex_considerate :
  let c := in_mode Release big_cfg in let tr := end_trace c 8 ex_careful in let s := end_store c 8 ex_careful in
  drun (λ _ _, True) c 8 tr s ∧ considerate c tr ∧ ¬ frugal c tr ∧ careful_call (in_mode Debug c) tr (OCreateWith (big_arch [1; 2])) ∧
  disciplined c tr (OCreateWith (big_arch [1; 2])) ∧ read_components c s (Entity 0 1) [1] = POk (Some [[Some 1]]).
Proof.
  intros c tr s. split; [apply dend_run; vm_compute; reflexivity|].
  split; [apply (carefulb_ok _ [0; 4]); vm_compute; reflexivity|]. split.
  - intros [Ho _]. specialize (Ho tr [] {[2]} {[2; 3]} (eq_sym (app_nil_r tr))). cut (({[2]} : gset N) = {[2; 3]}).
    + apply (bool_decide_unpack _). vm_compute. exact I.
    + apply Ho; apply abandonedb_in, (bool_decide_unpack _); vm_compute; exact I.
  - split. { apply (careful_callb_ok _ [0; 4]); [|vm_compute; reflexivity]. intros v. apply closedb_ok. vm_compute. reflexivity. }
    split; [apply discb_ok; vm_compute; reflexivity|vm_compute; reflexivity].
Qed.
