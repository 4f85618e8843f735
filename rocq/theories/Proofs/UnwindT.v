(** UnwindT.v — tags and order groups of a debug build when calls panic and the panics are caught. *)
From Verif.Spec Require Export Tags Orders Unwind.
From Verif.Model Require Export Unwind.
From Verif.Proofs Require RobustP UnwindP LayoutP.
From Verif.Proofs Require Import UnwindH TagsP TagsX OrdersH ExecP.
Import UnwindP (over, over_zoom, bind_panicked, zoom_panicked, no_out_over, keeps_over, whole, register_panicked, prun_whole, prun_cap).
Local Open Scope N_scope.

Definition order_call (o : op) : bool := match o with OOrdAdd _ _ | OOrdNext _ _ _ | OOrdPrev _ _ _ | OOrdDel _ _ => true | _ => false end.

(** What a call that panicked has done to handles, tags and order groups. *)
Inductive panic_parts (c : cfg) (o : op) (s s' : store) : Prop :=
| pp_same : st_ec s' = st_ec s → st_tags s' = st_tags s → (order_call o = false → st_orders s' = st_orders s) → panic_parts c o s s'
| pp_create : creating o = true → st_tags s' = st_tags s → st_orders s' = st_orders s → ec_cap (st_ec s') = ec_cap (st_ec s) → panic_parts c o s s'
| pp_lost s1 e : creating o = true → register_new_entity c s = ROk s1 e → ids_part s' = ids_part s1 → panic_parts c o s s'.

Lemma step_parts c o s s' I L : search_ok (c_bs c) → c_mode c = Debug → ec_inv (st_ec s) I L → whole s → ec_cap (st_ec s) < u32_size →
  tags_inv (st_tags s) (ec_cap (st_ec s)) → step c o s = RPanic s' → panic_parts c o s s'.
Proof.
  intros Hbs Hmd Hi Hw Hcap Hti H.
  assert (ids_part s' = ids_part s → panic_parts c o s s') as Hids.
  { intros Heq. apply pp_same; [exact (f_equal (λ x, x.1.1) Heq)|exact (f_equal (λ x, x.1.2) Heq)|intros _; exact (f_equal snd Heq)]. }
  assert (creating o = true → register_new_entity c s = RPanic s' → panic_parts c o s s') as Hreg.
  { intros Ho Hr. destruct (register_panicked _ _ _ Hr Hw Hcap) as [Hsh _]. 
    unfold register_new_entity in Hr. apply bind_panicked in Hr as [(t & Ht & ->)%zoom_panicked|(s2 & cr & (t & Ht & ->)%zoom_ok & Hr)].
    - apply pp_create; [done|done|done|]. exact (f_equal (λ x, x.1.1.1) Hsh).
    - exfalso. apply bind_panicked in Hr as [Hr|(s1 & [] & _ & Hr)]; [|done]. destruct (container_was_grow cr); [|done].
      eapply UnwindP.grow_entities_panicked; [|exact Hr]. simpl. rewrite (UnwindP.tb_ocap _ _ _ Hw). unfold entities_capacity. simpl.
      apply (UnwindP.ec_create_mono (c_mode c)). left. by eauto. }
  assert (over (step c o) s s') as Hov by by right.
  destruct o as [|a|e|e vals|e T|e vals|q f|t e|t e|g e|g e to|g e to|g e]; cbn [step] in H, Hov; try apply no_out_over in Hov.
  - apply bind_panicked in H as [H|(? & ? & _ & ?)]; [|done]. unfold create_entity in H.
    apply bind_panicked in H as [H|(s1 & e & H1 & H)]; [by apply Hreg|].
    eapply pp_lost; [done|exact H1|]. revert H. apply keeps_panicked. unfold disable_archetype. keeps.
  - apply bind_panicked in H as [H|(? & ? & _ & ?)]; [|done]. unfold create_entity_with_archetype in H.
    apply bind_panicked in H as [H|(s1 & e & H1 & H)]; [by apply Hreg|].
    eapply pp_lost; [done|exact H1|].
    apply bind_panicked in H as [(t & _ & ->)%zoom_panicked|(s2 & l & (t & _ & ->)%zoom_ok & H)]; [done|].
    change (ids_part s1) with (ids_part (st_set_ac t s1)). revert H. apply keeps_panicked. unfold set_location, set_page_index, set_index_in_page, enable_archetype. keeps.
  - destruct Hov as [[u Hok]|Hp]; [|by eapply Hids, destroy_panicked]. unfold no_out in H. unfold mbind, M_bind in H. by rewrite Hok in H.
  - apply Hids. revert Hov. apply keeps_over, add_components_keeps.
  - apply Hids. revert Hov. apply keeps_over, remove_components_keeps.
  - apply Hids. revert Hov. apply keeps_over, set_components_keeps.
  - apply Hids. revert Hov. apply keeps_over, query_write_keeps.
  - by apply (RobustP.tag_panic_never c Hbs _ _ (OTagAdd t e) s' Hti Logic.I) in H.
  - by apply (RobustP.tag_panic_never c Hbs _ _ (OTagDel t e) s' Hti Logic.I) in H.
  - by apply over_zoom in Hov as (t1 & _ & ->); apply pp_same.
  - by apply over_zoom in Hov as (t1 & _ & ->); apply pp_same.
  - by apply over_zoom in Hov as (t1 & _ & ->); apply pp_same.
  - by apply over_zoom in Hov as (t1 & _ & ->); apply pp_same.
Qed.

Section debug.
Context (c : cfg) (cap : N) (Hbs : search_ok (c_bs c)) (Hmd : c_mode c = Debug).

Lemma answered_returned tr o r : answered (tr ++ [(o, Returned r)]) = answered tr ++ [(o, r)].
Proof. by rewrite answered_snoc. Qed.
Lemma answered_panicked tr o : answered (tr ++ [(o, Panicked)]) = answered tr.
Proof. by rewrite answered_snoc, app_nil_r. Qed.

Lemma caught_tags_inv tr s : prun c cap tr s → ec_cap (st_ec s) < u32_size → tags_inv (st_tags s) (ec_cap (st_ec s)).
Proof.
  induction 1 as [s H|tr s o x s' Hr IH H]; intros Hc.
  - unfold store_with_capacity in H. apply pbind_ok in H as ([] & _ & [= <-]). simpl.
    split; simpl; [constructor|done|done|constructor].
  - pose proof (prun_cap _ _ _ _ _ _ _ Hr H Hc) as Hc0. specialize (IH Hc0). destruct x as [r|]; simpl in H.
    { by apply (step_tag_bits c Hbs _ _ _ _ IH) in H as [? _]. }
    destruct (prun_caught c cap Hmd _ _ Hr) as (I & L & Hi). pose proof (prun_whole c cap tr s Hbs Hr Hc0) as Hw.
    destruct (step_parts _ _ _ _ _ _ Hbs Hmd (ci_ec _ _ _ _ Hi) Hw Hc0 IH H) as [-> -> _|_ -> _ ->|s1 e _ H1 Hids]; [done|done|].
    replace (st_ec s') with (st_ec s1) by (symmetry; exact (f_equal (λ x, x.1.1) Hids)).
    replace (st_tags s') with (st_tags s1) by (symmetry; exact (f_equal (λ x, x.1.2) Hids)).
    apply register_caps in H1 as [(-> & -> & _)|(_ & _ & _ & Hg & _)]; [done|]. by apply (tags_grow_ok _ _ _ _ _ IH) in Hg as [? _].
Qed.
Lemma caught_tags_match tr s : prun c cap tr s → ec_cap (st_ec s) < u32_size → tags_on_live (answered tr) → tags_match (answered tr) s.
Proof.
  induction 1 as [s H|tr s o x s' Hr IH H]; intros Hc Hl; [by eapply tags_match_init|].
  pose proof (prun_cap _ _ _ _ _ _ _ Hr H Hc) as Hc0. specialize (IH Hc0). destruct (prun_caught c cap Hmd _ _ Hr) as (I & L & Hi).
  pose proof (caught_tags_inv _ _ Hr Hc0) as Hti. destruct x as [r|]; simpl in H.
  - rewrite answered_returned in Hl |- *. destruct Hi as [Hec _ HI HL _].
    eapply (tags_match_step c Hbs Hmd); [by eapply IH, tags_on_live_snoc|done|exact Hec|done|done|done|done].
  - rewrite answered_panicked in Hl |- *. specialize (IH Hl). pose proof (prun_whole c cap tr s Hbs Hr Hc0) as Hw.
    destruct (step_parts _ _ _ _ _ _ Hbs Hmd (ci_ec _ _ _ _ Hi) Hw Hc0 Hti H) as [_ Heq _|_ Heq _ _|s1 e _ H1 Hids]; unfold tags_match; [by rewrite Heq|by rewrite Heq|].
    replace (st_tags s') with (st_tags s1) by (symmetry; exact (f_equal (λ x, x.1.2) Hids)).
    apply register_caps in H1 as [(_ & -> & _)|(_ & _ & _ & Hg & _)]; [done|]. apply (tags_grow_ok _ _ _ _ _ Hti) in Hg as [_ Hb].
    intros t id. rewrite Hb. apply IH.
Qed.
Lemma caught_alive tr s : prun c cap tr s →
  (∀ e1 e2, alive_in (answered tr) e1 → alive_in (answered tr) e2 → e_id e1 = e_id e2 → e1 = e2) ∧
  (∀ e, alive_in (answered tr) e → e_id e < ec_cap (st_ec s) ∧ e_id e ≠ NULL_ID ∧ entity_by_id s (e_id e) = POk e).
Proof.
  intros Hr. destruct (prun_caught c cap Hmd _ _ Hr) as (I & L & Hi). destruct Hi as [Hi _ HI HL _]. split.
  - intros e1 e2 H1%live_alive%HL H2%live_alive%HL Heq.
    apply (inv_live _ _ _ Hi) in H1 as [_ H1], H2 as [_ H2]. rewrite Heq, H2 in H1.
    destruct e1, e2; simpl in *. congruence.
  - intros e H%live_alive%HL. split_and!; [by eapply live_lt| |by eapply ec_by_id].
    pose proof (inv_issued_null _ _ _ Hi e (inv_live_issued _ _ _ Hi _ H)). lia.
Qed.
Lemma caught_has_tag tr s t e : prun c cap tr s → ec_cap (st_ec s) < 2 ^ 32 → tags_on_live (answered tr) → alive_in (answered tr) e →
  ∃ b : bool, has_tag c s t e = POk b ∧ (b = true ↔ tagged (answered tr) t e).
Proof.
  intros Hr Hc Hl Ha. destruct (caught_alive _ _ Hr) as [Huniq Hlt].
  destruct (tags_has_spec c Hbs _ _ t (e_id e) (caught_tags_inv _ _ Hr Hc)) as (b & Hb & Hiff); [by apply Hlt|].
  exists b. split; [done|]. rewrite Hiff, (caught_tags_match _ _ Hr Hc Hl t (e_id e)). split; [|by exists e].
  intros (e' & Hid & Ha' & Ht). by rewrite <- (Huniq e' e).
Qed.

Lemma caught_orders_match tr s : prun c cap tr s → ec_cap (st_ec s) < u32_size → orders_proper (answered tr) → orders_match (answered tr) s.
Proof.
  induction 1 as [s H|tr s o x s' Hr IH H]; intros Hc Hp; [by eapply orders_match_init|].
  pose proof (prun_cap _ _ _ _ _ _ _ Hr H Hc) as Hc0. specialize (IH Hc0). destruct (prun_caught c cap Hmd _ _ Hr) as (I & L & Hi).
  pose proof (UnwindP.step_mono c o s s' (UnwindP.ends_over _ _ _ _ _ H)) as Hmono. destruct x as [r|]; simpl in H.
  - rewrite answered_returned in Hp |- *. apply proper_snoc in Hp as [Hp Huse]. destruct Hi as [Hec _ HI HL _].
    eapply (orders_match_step c Hbs Hmd (λ e, e ∈ L)); [by apply IH| | | |done| |done|exact H].
    + intros e He%live_alive. by apply HL.
    + intros e1 e2 [_ H1]%(inv_live _ _ _ Hec) [_ H2]%(inv_live _ _ _ Hec) Heq. rewrite Heq, H2 in H1. destruct e1, e2; simpl in *. congruence.
    + intros e He. split; [by eapply live_lt|]. pose proof (inv_issued_null _ _ _ Hec e (inv_live_issued _ _ _ Hec _ He)). lia.
    + intros e ->. apply no_out_ok in H as [H _]. apply destroy_ok in H as (H & _). rewrite Hmd in H. by apply (ec_destroy_debug _ _ _ _ _ _ Hec) in H as [? _].
  - rewrite answered_panicked in Hp |- *. specialize (IH Hp). pose proof (prun_whole c cap tr s Hbs Hr Hc0) as Hw. destruct IH as [Hg Hh].
    split; [done|]. pose proof (caught_tags_inv _ _ Hr Hc0) as Hti.
    destruct (step_parts _ _ _ _ _ _ Hbs Hmd (ci_ec _ _ _ _ Hi) Hw Hc0 Hti H) as [Heq _ Ho|_ _ -> ->|s1 e _ H1 Hids]; [|done|].
    + destruct (order_call o) eqn:Eo; [|by rewrite Heq, Ho].
      assert (s' = s) as ->; [|done]. refine (RobustP.order_panic_same c Hbs _ _ _ _ _ Hh _ H). by destruct o.
    + replace (st_ec s') with (st_ec s1) in Hmono |- * by (symmetry; exact (f_equal (λ x, x.1.1) Hids)).
      replace (st_orders s') with (st_orders s1) by (symmetry; exact (f_equal snd Hids)).
      apply register_caps in H1 as [(-> & _ & -> & _)|(_ & _ & _ & _ & Hgr)]; [done|].
      by apply (sat_ok True _ _ _ _ _ (orders_grow_wp c True _ _ _ _ (λ _, True) Hh Hmono) Hgr).
Qed.
Lemma caught_order tr s g : prun c cap tr s → ec_cap (st_ec s) < 2 ^ 32 → orders_proper (answered tr) →
  let l := members (answered tr) g in
  NoDup l ∧ (∀ e, e ∈ l → alive_in (answered tr) e) ∧
  first_ordered c s g = POk (head l) ∧
  last_ordered c s g = POk (last l) ∧
  (∀ i e, l !! i = Some e → next_ordered c s g e = POk (l !! S i) ∧ previous_ordered c s g e = POk (before l i)) ∧
  (∀ e, alive_in (answered tr) e → e ∉ l → next_ordered c s g e = POk None ∧ previous_ordered c s g e = POk None).
Proof.
  intros Hr Hc Hp l. destruct (caught_alive _ _ Hr) as [Huniq Hid]. apply orders_match_exact; [exact Hbs|by apply caught_orders_match|done|done].
Qed.
End debug.

(** ** A concrete history *)
(** A creation whose layout is refused; an entity added to its group twice; an entity destroyed twice. *)
Definition ex_panics : list (list entity → op) :=
  [λ _, OCreate; λ _, OCreateWith LayoutP.refused; λ _, OCreate; λ hs, OTagAdd 9 (h 0 hs); λ hs, OTagAdd 8 (h 1 hs);
   λ hs, OOrdAdd 5 (h 0 hs); λ hs, OOrdAdd 5 (h 1 hs); λ hs, OOrdAdd 5 (h 0 hs); λ hs, ODestroy (h 0 hs); λ hs, ODestroy (h 0 hs);
   λ _, OCreate; λ hs, OOrdPrev 5 (h 2 hs) (h 1 hs)].
Definition p_end (c : cfg) (cap : N) (ops : list (list entity → op)) : option (list (op * outcome) * store) :=
  match p_exec0 c cap ops with ROk _ (tr, s, _) => Some (tr, s) | _ => None end.
Lemma p_end_run c cap ops tr s : p_end c cap ops = Some (tr, s) → prun c cap tr s.
Proof.
  unfold p_end. destruct (p_exec0 c cap ops) as [h [[tr' s'] k]| |] eqn:E; [|done|done]. intros [= <- <-].
  by eapply UnwindP.pmrun_prun, UnwindP.p_exec0_run.
Qed.
