(** TagsP.v — tags: container invariant and whole histories. *)
From Verif.Spec Require Export Tags.
From Verif.Proofs Require Export SortedP HandlesP.
Local Open Scope N_scope.

(** [t] is on for [id]. *)
Definition tag_bit (s : tags) (t : tid) (id : N) : Prop := ∃ v, assocl (tg_ids s) (tg_bvs s) t v ∧ bit v id = true.

Record tags_inv (s : tags) (cap : N) : Prop := TagsInv {
  ti_sorted : incr (tg_ids s);
  ti_len : length (tg_bvs s) = length (tg_ids s);
  ti_cap : tg_cap s = cap;
  ti_sized : Forall (bv_sized cap) (tg_bvs s);
}.

Section tags.
Context (c : cfg) (Hbs : search_ok (c_bs c)).

Lemma assoc_sized s cap t v : tags_inv s cap → assocl (tg_ids s) (tg_bvs s) t v → bv_sized cap v.
Proof. intros Hi (i & _ & Hv). pose proof (ti_sized _ _ Hi) as Hf. rewrite Forall_lookup in Hf. eauto. Qed.

Lemma tags_has_spec s cap t id : tags_inv s cap → id < cap →
  ∃ b : bool, tags_has c s t id = POk b ∧ (b = true ↔ tag_bit s t id).
Proof.
  intros Hi Hid. unfold tags_has. destruct (search_cases _ _ t Hbs (ti_sorted _ _ Hi)) as [(i & -> & Hl)|(i & -> & _ & Hn & _)].
  - destruct (lookup_lt_is_Some_2 (tg_bvs s) i) as [v Hv].
    { rewrite (ti_len _ _ Hi). by eapply lookup_lt_Some. }
    unfold vget_unchecked. rewrite Hv. simpl.
    assert (assocl (tg_ids s) (tg_bvs s) t v) as Ha by by exists i.
    exists (bit v id). split; [apply bv_get_lt; eapply bv_sized_lt; [by eapply assoc_sized|done]|].
    split; [by exists v|]. intros (v' & Ha' & ?). by rewrite (assoc_fun _ _ _ _ _ (ti_sorted _ _ Hi) Ha Ha').
  - exists false. split; [done|]. split; [done|]. intros (v & Ha%assoc_dom & _). done.
Qed.

Definition tags_same_but (t0 : tid) (id0 : N) (b : bool) (s s' : tags) : Prop :=
  ∀ t id, tag_bit s' t id ↔ if bool_decide (t = t0 ∧ id = id0) then b = true else tag_bit s t id.

Lemma tags_upd_lemma s cap i t v v' id b : tags_inv s cap → tg_ids s !! i = Some t → tg_bvs s !! i = Some v →
  length v' = length v → (∀ j, bit v' j = if bool_decide (j = id) then b else bit v j) →
  let s' := Tags (tg_ids s) (<[i := v']> (tg_bvs s)) (tg_cap s) in
  tags_inv s' cap ∧ tags_same_but t id b s s'.
Proof.
  intros Hi Hl Hv Hlen Hbit s'. assert (assocl (tg_ids s) (tg_bvs s) t v) as Ha by by exists i. split.
  - split; simpl; try apply Hi.
    + rewrite insert_length. apply Hi.
    + apply Forall_insert; [apply Hi|]. unfold bv_sized. rewrite Hlen. by eapply assoc_sized.
  - intros t1 id1. unfold tag_bit. simpl. 
    setoid_rewrite (assoc_update _ _ _ _ _ _ _ (ti_sorted _ _ Hi) (ti_len _ _ Hi) Hl).
    case_bool_decide as Hc.
    + destruct Hc as [-> ->]. split.
      * intros (w & [[_ ->]|[? _]] & Hb); [|done]. by rewrite Hbit, bool_decide_true in Hb.
      * intros ->. exists v'. split; [by left|]. by rewrite Hbit, bool_decide_true.
    + destruct (decide (t1 = t)) as [->|Hne].
      * split.
        -- intros (w & [[_ ->]|[? _]] & Hb); [|done]. exists v. split; [done|].
           rewrite Hbit, bool_decide_false in Hb by naive_solver. done.
        -- intros (w & Ha' & Hb). rewrite (assoc_fun _ _ _ _ _ (ti_sorted _ _ Hi) Ha' Ha) in Hb.
           exists v'. split; [by left|]. rewrite Hbit, bool_decide_false by naive_solver. done.
      * split; [|naive_solver]. intros (w & [[? _]|[_ ?]] & Hb); [done|]. by exists w.
Qed.

Lemma tags_add_ok s cap t id s' u : tags_inv s cap → tags_add c t id s = ROk s' u →
  tags_inv s' cap ∧ tags_same_but t id true s s'.
Proof.
  intros Hi H. unfold tags_add in H.
  apply bind_ok in H as (s1 & x & [-> ->]%get_ok & H).
  apply bind_ok in H as (s1 & i & H1 & H).
  assert (tags_inv s1 cap ∧ tg_ids s1 !! i = Some t ∧ (∀ t id, tag_bit s1 t id ↔ tag_bit s t id)) as (Hi1 & Hl1 & Hb1).
  { destruct (search_cases _ _ t Hbs (ti_sorted _ _ Hi)) as [(j & Hj & Hl)|(j & Hj & Hle & Hn & Hst)]; rewrite Hj in H1.
    - apply ret_ok in H1 as [-> ->]. done.
    - apply bind_ok in H1 as (s2 & ids & [[_ ->]%vinsert_ok ->]%lift_ok & H1).
      apply bind_ok in H1 as (s2 & [] & ->%put_ok & H1).
      apply bind_ok in H1 as (s2 & bvs & [[_ ->]%vinsert_ok ->]%lift_ok & H1).
      apply bind_ok in H1 as (s2 & [] & ->%put_ok & [-> ->]%ret_ok). simpl. split_and!.
      + split; simpl; try apply Hi; [done| |].
        * rewrite !app_length. simpl. rewrite !take_length, !drop_length, (ti_len _ _ Hi). done.
        * apply Forall_app. pose proof (ti_sized _ _ Hi). split; [by apply Forall_take|]. constructor; [|by apply Forall_drop].
          rewrite (ti_cap _ _ Hi). apply bv_alloc_sized.
      + rewrite lookup_app_r by (rewrite take_length; lia). rewrite take_length_le by lia. by rewrite Nat.sub_diag.
      + intros t1 id1. unfold tag_bit. simpl. setoid_rewrite (assoc_insert _ _ _ _ _ _ _ (ti_len _ _ Hi) Hle).
        split; [|naive_solver]. intros (v & [[-> ->]|?] & Hb); [|by exists v]. by rewrite bit_alloc in Hb. }
  apply bind_ok in H as (s2 & x & [-> ->]%get_ok & H).
  apply bind_ok in H as (s2 & v & [Hv%vget_ok ->]%lift_ok & H).
  apply bind_ok in H as (s2 & v' & [Hv' ->]%lift_ok & ->%put_ok).
  apply bv_on_ok in Hv' as [Hlen Hbit].
  destruct (tags_upd_lemma s1 cap i t v v' id true Hi1 Hl1 Hv Hlen) as [Hi2 Hb2].
  { intros j. rewrite Hbit. by case_bool_decide. }
  split; [done|]. intros t1 id1. rewrite (Hb2 t1 id1). case_bool_decide; [done|]. apply Hb1.
Qed.

Lemma tags_remove_ok s cap t id s' u : tags_inv s cap → tags_remove c t id s = ROk s' u →
  tags_inv s' cap ∧ tags_same_but t id false s s'.
Proof.
  intros Hi H. unfold tags_remove in H.
  apply bind_ok in H as (s1 & x & [-> ->]%get_ok & H).
  destruct (search_cases _ _ t Hbs (ti_sorted _ _ Hi)) as [(j & Hj & Hl)|(j & Hj & Hle & Hn & Hst)]; rewrite Hj in H.
  - apply bind_ok in H as (s2 & v & [Hv%vget_ok ->]%lift_ok & H).
    apply bind_ok in H as (s2 & v' & [Hv' ->]%lift_ok & ->%put_ok).
    apply bv_off_ok in Hv' as [Hlen Hbit]. apply (tags_upd_lemma s cap j t v v' id false); try done.
    intros k. rewrite Hbit. by case_bool_decide.
  - apply ret_ok in H as [_ ->]. split; [done|]. intros t1 id1. case_bool_decide as Hc; [|done].
    destruct Hc as [-> ->]. split; [|done]. intros (v & Ha%assoc_dom & _). done.
Qed.

Lemma bvs_map_ok (f : bitvec → pres bitvec) l l' : bvs_map f l = POk l' ↔ Forall2 (λ v v', f v = POk v') l l'.
Proof.
  revert l'. induction l as [|v l IH]; intros l'; simpl.
  - split; [intros [= <-]; constructor|]. intros H. by inversion H.
  - rewrite pbind_ok. split.
    + intros (v' & Hv & (r & Hr & [= <-])%pbind_ok). constructor; [done|]. by apply IH.
    + intros H. inversion H as [|? v' ? r Hv Hr]; subst. exists v'. split; [done|].
      apply pbind_ok. exists r. split; [by apply IH|done].
Qed.

Lemma tags_remove_all_ok s cap id s' u : tags_inv s cap → tags_remove_all id s = ROk s' u →
  tags_inv s' cap ∧ ∀ t id', tag_bit s' t id' ↔ id' ≠ id ∧ tag_bit s t id'.
Proof.
  intros Hi H. unfold tags_remove_all in H.
  apply bind_ok in H as (s1 & x & [-> ->]%get_ok & H).
  apply bind_ok in H as (s1 & bvs & [Hm%bvs_map_ok ->]%lift_ok & ->%put_ok).
  assert (Forall2 (λ v v', length v' = length v ∧ ∀ j, bit v' j = negb (bool_decide (j = id)) && bit v j) (tg_bvs s) bvs) as HR.
  { eapply Forall2_impl; [exact Hm|]. intros v v'. simpl. apply bv_off_ok. }
  split.
  - split; simpl; try apply Hi.
    + rewrite <- (Forall2_length _ _ _ HR). apply Hi.
    + apply Forall_lookup. intros i v' Hv'. destruct (Forall2_lookup_r _ _ _ _ _ HR Hv') as (v & Hv & Hl & _).
      unfold bv_sized. rewrite Hl. pose proof (ti_sized _ _ Hi) as Hf. rewrite Forall_lookup in Hf. by apply (Hf i).
  - intros t id'. unfold tag_bit. simpl. split.
    + intros (v' & Ha & Hb). apply (assoc_forall2 _ _ _ _ _ _ HR) in Ha as (v & Ha & _ & Hbit).
      rewrite Hbit in Hb. case_bool_decide; [done|]. split; [done|]. exists v. done.
    + intros (Hne & v & Ha & Hb). apply (assoc_forall2_l _ _ _ _ _ _ HR) in Ha as (v' & Ha & _ & Hbit).
      exists v'. split; [done|]. rewrite Hbit. by rewrite bool_decide_false.
Qed.

Lemma tags_grow_ok s cap new s' u : tags_inv s cap → tags_grow new s = ROk s' u →
  tags_inv s' new ∧ ∀ t id, tag_bit s' t id ↔ tag_bit s t id.
Proof.
  intros Hi H. unfold tags_grow in H.
  apply bind_ok in H as (s1 & x & [-> ->]%get_ok & H).
  apply bind_ok in H as (s1 & bvs & [Hm%bvs_map_ok ->]%lift_ok & ->%put_ok).
  assert (Forall2 (λ v v', bv_sized new v' ∧ ∀ j, bit v' j = bit v j) (tg_bvs s) bvs) as HR.
  { apply Forall2_same_length_lookup. split; [by eapply Forall2_length|]. intros i v v' Hv Hv'.
    pose proof (ti_sized _ _ Hi) as Hf. rewrite Forall_lookup in Hf.
    eapply bv_realloc_ok; [by eapply Hf|]. rewrite <- (ti_cap _ _ Hi).
    destruct (Forall2_lookup_lr _ _ _ _ _ _ Hm Hv Hv'). done. }
  split.
  - split; simpl; try apply Hi; [|done|].
    + rewrite <- (Forall2_length _ _ _ HR). apply Hi.
    + apply Forall_lookup. intros i v' Hv'. by destruct (Forall2_lookup_r _ _ _ _ _ HR Hv') as (v & Hv & Hl & _).
  - intros t id'. unfold tag_bit. simpl. split.
    + intros (v' & Ha & Hb). apply (assoc_forall2 _ _ _ _ _ _ HR) in Ha as (v & Ha & _ & Hbit).
      exists v. by rewrite Hbit in Hb.
    + intros (v & Ha & Hb). apply (assoc_forall2_l _ _ _ _ _ _ HR) in Ha as (v' & Ha & _ & Hbit).
      exists v'. by rewrite Hbit.
Qed.

(** ** Histories *)
Lemma step_tag_bits s o s' r : tags_inv (st_tags s) (ec_cap (st_ec s)) → step c o s = ROk s' r →
  tags_inv (st_tags s') (ec_cap (st_ec s')) ∧
  ∀ t id, tag_bit (st_tags s') t id ↔
    (∃ e, o = OTagAdd t e ∧ e_id e = id) ∨
    (tag_bit (st_tags s) t id ∧ ¬ ∃ e, e_id e = id ∧ (o = OTagDel t e ∨ o = ODestroy e)).
Proof.
  intros Hi H%step_tags. destruct H as [o Ho [[-> ->]|H]|e -> H|t e -> H|t e -> H|o H1 H2 H3 -> ->].
  - split; [done|]. intros t id. naive_solver.
  - apply (tags_grow_ok _ _ _ _ _ Hi) in H as [? Hb]. split; [done|]. intros t id. rewrite Hb. naive_solver.
  - apply (tags_remove_all_ok _ _ _ _ _ Hi) in H as [? Hb]. split; [done|]. intros t id. rewrite Hb.
    split; [|naive_solver]. intros [Hne ?]. right. split; [done|]. intros (e' & <- & [?|[= ->]]); done.
  - apply (tags_add_ok _ _ _ _ _ _ Hi) in H as [? Hb]. split; [done|]. intros t' id. rewrite (Hb t' id).
    case_bool_decide as Hc.
    + destruct Hc as [-> ->]. naive_solver.
    + split; [naive_solver|]. intros [(e' & [= -> ->] & <-)|[? _]]; naive_solver.
  - apply (tags_remove_ok _ _ _ _ _ _ Hi) in H as [? Hb]. split; [done|]. intros t' id. rewrite (Hb t' id).
    case_bool_decide as Hc.
    + destruct Hc as [-> ->]. split; [done|]. intros [(e' & ? & _)|[_ Hn]]; [done|]. destruct Hn. eauto.
    + split; [|naive_solver]. intros ?. right. split; [done|]. intros (e' & <- & [[= -> ->]|?]); naive_solver.
  - split; [done|]. intros t id. naive_solver.
Qed.

Lemma run_tags_inv cap tr s : run c cap tr s → tags_inv (st_tags s) (ec_cap (st_ec s)).
Proof.
  induction 1 as [s H|tr s o s' r _ IH H].
  - unfold store_with_capacity in H. apply pbind_ok in H as ([] & _ & [= <-]). simpl.
    split; simpl; [constructor|done|done|constructor].
  - by apply (step_tag_bits _ _ _ _ IH) in H as [? _].
Qed.

Lemma has_tag_spec cap tr s t e : run c cap tr s → e_id e < entities_capacity s →
  ∃ b : bool, has_tag c s t e = POk b ∧ (b = true ↔ tag_bit (st_tags s) t (e_id e)).
Proof. intros Hr%run_tags_inv Hlt. by eapply tags_has_spec. Qed.

Context (Hmd : c_mode c = Debug).

(** With tags only on live handles, the stored bits are exactly the tags of the live handles. *)
Definition tags_match (tr : trace) (s : store) : Prop :=
  ∀ t id, tag_bit (st_tags s) t id ↔ ∃ e, e_id e = id ∧ alive_in tr e ∧ tagged tr t e.
Lemma tags_on_live_snoc tr o r : tags_on_live (tr ++ [(o, r)]) → tags_on_live tr.
Proof.
  intros Hlive tr1 o1 r1 tr2 t1 e1 -> Ho. eapply (Hlive tr1 o1 r1 (tr2 ++ [(o, r)])); [by rewrite <- app_assoc|done].
Qed.
(** One call, [I] and [L] being handles that include all issued and live ones. *)
Lemma tags_match_step tr s o s' r I L : tags_match tr s → tags_inv (st_tags s) (ec_cap (st_ec s)) → ec_inv (st_ec s) I L →
  (∀ e, e ∈ issued tr → e ∈ I) → live tr ⊆ L → tags_on_live (tr ++ [(o, r)]) → step c o s = ROk s' r → tags_match (tr ++ [(o, r)]) s'.
Proof.
    intros IH Hti Hec HI HL Hlive H t id.
    pose proof (tags_on_live_snoc _ _ _ Hlive) as Hlive'.
    pose proof (step_ec _ _ _ _ _ H) as Hs. rewrite Hmd in Hs.
    assert (∀ e, alive_in tr e → e ∈ L) as HaL. { intros e He%live_alive. by apply HL. }
    assert (∀ e1 e2, e1 ∈ L → e2 ∈ L → e_id e1 = e_id e2 → e1 = e2) as Huniq.
    { intros e1 e2 [_ H1]%(inv_live _ _ _ Hec) [_ H2]%(inv_live _ _ _ Hec) Heq. rewrite Heq, H2 in H1. destruct e1, e2; simpl in *. congruence. }
    pose proof (step_tag_bits _ _ _ _ Hti H) as [_ Hb].
    rewrite Hb, (IH t id). clear Hb.
    assert (∀ e, o = OTagAdd t e ∨ o = OTagDel t e → alive_in tr e) as Ho.
    { intros e He. by apply (Hlive tr o r [] t e). }
    assert (∀ e, o = ODestroy e → e ∈ L) as Hod.
    { intros e ->. inversion Hs as [|e' s1 Hd|]; subst; [naive_solver| |naive_solver].
      by apply (ec_destroy_debug _ _ _ _ _ _ Hec) in Hd as [? _]. }
    assert (∀ e, r = Some e → ¬ tagged tr t e) as Hnew.
    { intros e ->. inversion Hs as [o' cr s1 Ho' Hc| |]; subst.
      pose proof (ec_create_spec True _ _ _ Hec) as Hcs. rewrite Hc in Hcs. destruct Hcs as [Hni _].
      intros (tr1 & [o1 r1] & tr2 & -> & Ho1 & _). simpl in Ho1. subst o1. apply Hni, HI.
      pose proof (Hlive' tr1 _ _ tr2 t (cr_entity cr) eq_refl (or_introl eq_refl)) as (tr3 & [o3 r3] & tr4 & -> & Hr3 & _).
      simpl in Hr3. subst r3. unfold issued. rewrite !omap_app. simpl. set_solver. }
    assert (∀ e, o = OTagAdd t e → r = None) as Hrn.
    { intros e ->. inversion Hs as [o' cr s1 Ho' Hc| |]; subst; [naive_solver|done]. }
    unfold alive_in, tagged. setoid_rewrite since_snoc. fold (alive_in tr). simpl. split.
    + intros [(e & -> & <-)|[(e & <- & Ha & Ht) Hn]].
      * exists e. split_and!; [done| |by left]. right. split; [|congruence]. apply Ho. by left.
      * exists e. split_and!; [done| |]; right; (split; [done|naive_solver]).
    + intros (e & <- & Ha & [->|[Ht Hn]]); [left; by exists e|right].
      destruct Ha as [->|[Ha Hnd]].
      { exfalso. by apply (Hnew e). }
      split; [by exists e|]. intros (e' & Hid & Hoe).
      assert (e' = e) as ->; [|naive_solver]. apply Huniq; [|by apply HaL|done]. destruct Hoe as [Hoe|Hoe]; [|by apply Hod].
      apply HaL, Ho. by right.
Qed.
Lemma tags_match_init md cap s : store_with_capacity md cap = POk s → tags_match [] s.
Proof.
  intros H t id. unfold store_with_capacity in H. apply pbind_ok in H as ([] & _ & [= <-]). simpl. split.
  - intros (v & (i & Hi & _) & _). done.
  - intros (e & _ & ?%since_nil & _). done.
Qed.
Lemma run_tags_live cap tr s : run c cap tr s → tags_on_live tr →
  ∀ t id, tag_bit (st_tags s) t id ↔ ∃ e, e_id e = id ∧ alive_in tr e ∧ tagged tr t e.
Proof.
  change (run c cap tr s → tags_on_live tr → tags_match tr s).
  induction 1 as [s H|tr s o s' r Hr IH H]; intros Hlive; [by eapply tags_match_init|].
  eapply tags_match_step; [by eapply IH, tags_on_live_snoc|by eapply run_tags_inv|by eapply run_ec|done|done|done|done].
Qed.

Lemma has_tag_exact cap tr s t e : run c cap tr s → tags_on_live tr → alive_in tr e →
  ∃ b : bool, has_tag c s t e = POk b ∧ (b = true ↔ tagged tr t e).
Proof.
  intros Hr Hl Ha. pose proof (live_ids _ _ Hmd _ _ Hr) as [Huniq Hlt].
  destruct (has_tag_spec _ _ _ t e Hr) as (b & Hb & Hiff); [by apply Hlt|].
  exists b. split; [done|]. rewrite Hiff, (run_tags_live _ _ _ Hr Hl). split; [|by exists e].
  intros (e' & Hid & Ha' & Ht). by rewrite <- (Huniq e' e).
Qed.

(** A new entity has no tags. *)
Lemma new_entity_no_tags cap tr s e o s' t : run c cap tr s → tags_on_live tr → step c o s = ROk s' (Some e) →
  has_tag c s' t e = POk false.
Proof.
  intros Hr Hl H. pose proof (run_ec _ _ Hmd _ _ Hr) as Hec.
  pose proof (step_ec _ _ _ _ _ H) as Hs. rewrite Hmd in Hs.
  pose proof (run_step _ _ _ _ _ _ _ Hr H) as Hr'.
  pose proof (step_tag_bits _ _ _ _ (run_tags_inv _ _ _ Hr) H) as [_ Hb].
  inversion Hs as [o' cr s1 Ho' Hc| |]; subst.
  pose proof (ec_create_spec True _ _ _ Hec) as Hcs. rewrite Hc in Hcs.
  destruct Hcs as (Hni & _ & _ & _ & Hlt & _ & Hdead & _).
  destruct (has_tag_spec _ _ _ t (cr_entity cr) Hr') as (b & -> & Hiff); [done|].
  f_equal. apply not_true_is_false. rewrite Hiff, Hb, (run_tags_live _ _ _ Hr Hl).
  intros [(e & -> & _)|[(e & Hid & Ha & _) _]]; [naive_solver|].
  apply live_alive, (inv_live _ _ _ Hec) in Ha as [Ha _]. congruence.
Qed.

(** A dead handle whose id is not in use has no tags. *)
Lemma unused_id_no_tags cap tr s e t : run c cap tr s → tags_on_live tr → e_id e < entities_capacity s →
  (∀ e', alive_in tr e' → e_id e' ≠ e_id e) → has_tag c s t e = POk false.
Proof.
  intros Hr Hl Hlt Hu. destruct (has_tag_spec _ _ _ t e Hr) as (b & -> & Hiff); [done|].
  f_equal. apply not_true_is_false. rewrite Hiff, (run_tags_live _ _ _ Hr Hl). naive_solver.
Qed.

(** The id of a destroyed entity has no tags. *)
Lemma destroyed_no_tags cap tr s e s' r t e' : run c cap tr s → step c (ODestroy e) s = ROk s' r → e_id e' = e_id e →
  has_tag c s' t e' = POk false.
Proof.
  intros Hr H Hid. pose proof (run_step _ _ _ _ _ _ _ Hr H) as Hr'.
  pose proof (step_tag_bits _ _ _ _ (run_tags_inv _ _ _ Hr) H) as [_ Hb].
  pose proof (step_ec _ _ _ _ _ H) as Hs. rewrite Hmd in Hs. pose proof (run_ec _ _ Hmd _ _ Hr) as Hec.
  inversion Hs as [|e1 s1 Hd|]; subst; [naive_solver| |naive_solver].
  apply (ec_destroy_debug _ _ _ _ _ _ Hec) in Hd as (HL & _ & Hcap & _).
  destruct (has_tag_spec _ _ _ t e' Hr') as (b & -> & Hiff).
  { unfold entities_capacity. rewrite Hcap, Hid. by eapply live_lt. }
  f_equal. apply not_true_is_false. rewrite Hiff, Hb. naive_solver.
Qed.
End tags.
