(** RobustP.v — calls with the null handle, panicking calls, growth, contents of new components. *)
From Verif.Spec Require Export Tags Orders Components.
From Verif.Proofs Require Export ShapeP CompX OrdersX TagsP.
From Verif.Proofs Require Import TagsX.
Local Open Scope N_scope.

(** ** Handles with ids beyond the capacity *)
Lemma aget_beyond {A} (a : arr A) i : N.of_nat (length a) ≤ i → aget a i = PUB OutOfBounds.
Proof. intros H. unfold aget, nlookup. apply N.ltb_ge in H. by rewrite H. Qed.
Lemma bv_get_beyond cap v i : bv_sized cap v → cap + 32 ≤ i → bv_get v i = PUB OutOfBounds.
Proof.
  intros H Hi. unfold bv_get, nlookup. unfold bv_sized, bv_len in H.
  assert (cap / 32 + 1 ≤ i / 32) as Hd.
  { replace (cap / 32 + 1) with ((cap + 1 * 32) / 32) by (by rewrite N.div_add). apply N.div_le_mono; lia. }
  assert ((i / 32 <? N.of_nat (length v)) = false) as -> by (apply N.ltb_ge; lia). done.
Qed.
Lemma alive_release_beyond c cap tr s e : c_mode c = Release → run c cap tr s → entities_capacity s ≤ e_id e →
  is_alive c s e = PUB OutOfBounds.
Proof.
  intros Hmd Hr%run_shape Hge. unfold is_alive, ec_is_alive. rewrite Hmd. simpl. unfold validate_version.
  rewrite aget_beyond; [done|]. rewrite (sh_ver _ Hr). unfold entities_capacity in Hge. lia.
Qed.
Lemma destroy_beyond c cap tr s e : run c cap tr s → entities_capacity s + 32 ≤ e_id e →
  step c (ODestroy e) s = RUB OutOfBounds.
Proof.
  intros Hr%run_shape Hge. simpl. unfold no_out, destroy_entity, mbind, M_bind, getS, lift, has_archetype.
  rewrite (bv_get_beyond _ _ _ (sh_has _ Hr)); done.
Qed.
Lemma add_tag_beyond c cap tr s t e : search_ok (c_bs c) → run c cap tr s → entities_capacity s + 32 ≤ e_id e →
  step c (OTagAdd t e) s = RUB OutOfBounds.
Proof.
  intros Hbs Hr Hge. pose proof (run_tags_inv c Hbs _ _ _ Hr) as Hi. simpl. unfold add_tag, on_tags, tags_add.
  assert (∀ m, m (st_tags s) = RUB OutOfBounds → no_out (zoom st_tags st_set_tags m) s = RUB OutOfBounds) as Hz.
  { intros m Hm. unfold no_out, mbind, M_bind, zoom. by rewrite Hm. }
  apply Hz. clear Hz. unfold mbind, M_bind, getS, lift, putS, mret, M_ret.
  assert (∀ v, bv_sized (entities_capacity s) v → bv_on v (e_id e) = PUB OutOfBounds) as Hon.
  { intros v Hv. pose proof (bv_get_beyond _ _ _ Hv Hge) as H. unfold bv_get, bv_on, bv_upd in *. by destruct (nlookup _ _). }
  destruct (search_cases _ _ t Hbs (ti_sorted _ _ Hi)) as [(i & -> & Hl)|(i & -> & Hle & Hn & Hst)].
  - destruct (lookup_lt_is_Some_2 (tg_bvs (st_tags s)) i) as [v Hv]. { rewrite (ti_len _ _ Hi). by eapply lookup_lt_Some. }
    unfold vget_unchecked. rewrite Hv, Hon; [done|]. pose proof (ti_sized _ _ Hi) as Hf. rewrite Forall_lookup in Hf. eauto.
  - rewrite vinsert_le by done. rewrite vinsert_le by (rewrite (ti_len _ _ Hi); done). simpl. unfold vget_unchecked.
    rewrite lookup_app_r by (rewrite take_length; lia). rewrite take_length_le by (rewrite (ti_len _ _ Hi); done).
    rewrite Nat.sub_diag. simpl. rewrite Hon; [done|]. rewrite (ti_cap _ _ Hi). apply bv_alloc_sized.
Qed.
(** What a debug build does detect. *)
Lemma beyond_detected c s e : c_mode c = Debug → entities_capacity s ≤ e_id e →
  is_alive c s e = PPanic ∧
  (∀ vals, add_components c e vals s = RPanic s ∧ set_components c e vals s = RPanic s) ∧
  (∀ T, remove_components c e T s = RPanic s ∧ get_components_refs c s e T = PPanic) ∧
  get_entity_archetype c s e = PPanic.
Proof.
  intros Hmd Hge. assert (is_alive c s e = PPanic) as Ha.
  { unfold is_alive, ec_is_alive. rewrite Hmd. simpl. unfold validate_id, entities_capacity in *. apply N.ltb_ge in Hge. by rewrite Hge. }
  unfold add_components, set_components, remove_components, get_components_refs, get_entity_archetype, is_valid_with_archetype,
    mbind, M_bind, getS, lift. rewrite Ha. done.
Qed.

Definition null_tagged : list (list entity → op) := [λ _, OCreate; λ hs, OTagAdd 9 (h 0 hs)].
Lemma null_witness : ∀ md, ∃ tr s, run (ex_cfg md) 4 tr s ∧ entities_capacity s = 4 ∧
  has_tag (ex_cfg md) s 9 entity_null = PUB OutOfBounds.
Proof.
  intros md. exists (end_trace (ex_cfg md) 4 null_tagged), (end_store (ex_cfg md) 4 null_tagged).
  destruct md; (split; [apply end_run; vm_compute; reflexivity|vm_compute; done]).
Qed.
Lemma null_release_refuted : ¬ ∀ c cap tr s, cfg_ok c → c_mode c = Release → run c cap tr s →
  is_alive c s entity_null = POk false ∨ is_alive c s entity_null = PPanic.
Proof.
  intros H. destruct (null_witness Release) as (tr & s & Hr & Hc & _).
  pose proof (alive_release_beyond (ex_cfg Release) _ _ _ entity_null eq_refl Hr) as Ha. rewrite Hc in Ha. specialize (Ha ltac:(done)).
  destruct (H _ _ _ _ (ex_cfg_ok Release) eq_refl Hr); congruence.
Qed.
Lemma null_destroy_refuted : ∀ md, ¬ ∀ c cap tr s, cfg_ok c → c_mode c = md → run c cap tr s →
  ∀ w, step c (ODestroy entity_null) s ≠ RUB w.
Proof.
  intros md H. destruct (null_witness md) as (tr & s & Hr & Hc & _).
  eapply (H _ _ _ _ (ex_cfg_ok md) eq_refl Hr). eapply destroy_beyond; [exact Hr|]. by rewrite Hc.
Qed.
Lemma null_tag_refuted : ∀ md, ¬ ∀ c cap tr s t, cfg_ok c → c_mode c = md → run c cap tr s →
  ∀ w, has_tag c s t entity_null ≠ PUB w.
Proof.
  intros md H. destruct (null_witness md) as (tr & s & Hr & Hc & Ht). by eapply (H _ _ _ _ _ (ex_cfg_ok md) eq_refl Hr).
Qed.

(** ** Calls that panic *)
(** Panics, if at all, in the state it was called in. *)
Definition clean {S A} (m : M S A) (s : S) : Prop := sat True (m s) (λ _ _, True) (λ s', s' = s).
Lemma clean_out (m : M store unit) s s' : clean m s → no_out m s = RPanic s' → s' = s.
Proof. unfold clean, no_out, mbind, M_bind. destruct (m s); simpl; [done| |done]. congruence. Qed.
Lemma clean_lift {S A} (p : pres A) (s : S) : clean (lift p) s.
Proof. unfold clean. by destruct p. Qed.
Lemma clean_zoom {S T A} (get : S → T) put (m : M T A) s : put (get s) s = s → clean m (get s) → clean (zoom get put m) s.
Proof. unfold clean, zoom. intros Hp. destruct (m (get s)); simpl; [done| |done]. by intros ->. Qed.

Lemma set_clean c e vals s : clean (set_components c e vals) s.
Proof.
  unfold clean, set_components. do 2 wp1. cbv beta. wp1. apply sat_lift. destruct (get_components_refs c s e vals.*1) as [[rs|]| |]; done.
Qed.
Lemma write_clean c q f s : clean (query_write c q f) s.
Proof.
  unfold clean, query_write, mbind, M_bind, getS, lift. destruct (component_query c q s) as [it| |]; [|done..].
  by destruct (write_loop (S (qiter_len it)) q (ec_ver (st_ec s)) f (ac_pages (st_ac s)) it).
Qed.

(** Never panics. *)
Definition calm {S A} (m : M S A) (s : S) : Prop := sat True (m s) (λ _ _, True) (λ _, False).
Lemma calm_bind {S A B} (m : M S A) (k : A → M S B) s : calm m s → (∀ a s', calm (k a) s') → calm (a ← m; k a) s.
Proof. unfold calm, mbind, M_bind. intros H1 H2. destruct (m s); simpl in *; [apply H2|done..]. Qed.
Lemma calm_fwd_get i g : calm (fwd_get i) g.
Proof. unfold calm, fwd_get, mbind, M_bind, getS, lift, aget. by destruct (nlookup _ _) as [[]|]. Qed.
Lemma calm_bwd_get i g : calm (bwd_get i) g.
Proof. unfold calm, bwd_get, mbind, M_bind, getS, lift, aget. by destruct (nlookup _ _) as [[]|]. Qed.
Lemma calm_fwd_set i v g : calm (fwd_set i v) g.
Proof. unfold calm, fwd_set, mbind, M_bind, getS, lift, aset. by destruct (_ <? _). Qed.
Lemma calm_bwd_set i v g : calm (bwd_set i v) g.
Proof. unfold calm, bwd_set, mbind, M_bind, getS, lift, aset. by destruct (_ <? _). Qed.
Lemma calm_ret {S A} (a : A) (s : S) : calm (mret a) s. Proof. done. Qed.
Lemma calm_get {S} (s : S) : calm getS s. Proof. done. Qed.
Lemma calm_mod {S} f (s : S) : calm (modS f) s. Proof. done. Qed.
Ltac calm := repeat first
  [ apply calm_ret | apply calm_get | apply calm_mod | apply calm_fwd_get | apply calm_bwd_get | apply calm_fwd_set | apply calm_bwd_set
  | apply calm_bind; [|intros] | case_match ].
Lemma clean_calm {S A} (m : M S A) s : calm m s → clean m s.
Proof. unfold calm, clean. by destruct (m s). Qed.
Lemma clean_read {S A B} (p : S → pres A) (k : A → M S B) s : (∀ a, p s = POk a → clean (k a) s) →
  clean (a ← (s ← getS; lift (p s)); k a) s.
Proof. unfold clean, mbind, M_bind, getS, lift. intros H. destruct (p s); simpl; [by apply H|done..]. Qed.
Lemma clean_assert md f b (k : M grp unit) g : (f = NULL_ID → b = NULL_ID → calm k g) → (∀ g, calm k g) → clean (_ ← assert_no_order md f b; k) g.
Proof.
  intros _ H. unfold clean, assert_no_order, mbind, M_bind, lift, dassertP, assertP. destruct md; [|apply clean_calm, H].
  simpl. destruct (f =? NULL_ID); simpl; [|done]. destruct (b =? NULL_ID); simpl; [|done]. apply clean_calm, H.
Qed.
Lemma grp_add_clean md id g : clean (grp_add md id) g.
Proof.
  unfold clean, grp_add. do 2 wp1. cbv beta. destruct (_ =? _); [done|]. apply (clean_read (λ g, aget (g_fwd g) id)). intros f _.
  apply (clean_read (λ g, aget (g_bwd g) id)). intros b _. apply clean_assert; intros; calm.
Qed.
Lemma grp_add_next_clean md id to g : clean (grp_add_next md id to) g.
Proof.
  unfold grp_add_next. apply (clean_read (λ g, aget (g_fwd g) id)). intros f _.
  apply (clean_read (λ g, aget (g_bwd g) id)). intros b _. apply clean_assert; intros; calm.
Qed.
Lemma grp_add_prev_clean md id to g : clean (grp_add_prev md id to) g.
Proof.
  unfold grp_add_prev. apply (clean_read (λ g, aget (g_fwd g) id)). intros f _.
  apply (clean_read (λ g, aget (g_bwd g) id)). intros b _. apply clean_assert; intros; calm.
Qed.
Lemma grp_remove_calm id g : calm (grp_remove id) g.
Proof. unfold grp_remove. calm. Qed.
(** In an empty group none of them panics. *)
Lemma fresh_calm md id cap g : grp_repr cap g [] →
  calm (grp_add md id) g ∧ ∀ to, calm (grp_add_next md id to) g ∧ calm (grp_add_prev md id to) g.
Proof.
  intros Hr.
  assert (∀ k : M grp unit, (∀ g, calm k g) →
    calm (f ← fwd_get id; b ← bwd_get id; _ ← assert_no_order md f b; k) g) as Hk.
  { intros k Hk. unfold calm, fwd_get, bwd_get, mbind, M_bind, getS, lift.
    destruct (aget (g_fwd g) id) as [f| |] eqn:Ef; [|unfold aget in Ef; by destruct (nlookup _ _) as [[]|]|done].
    destruct (aget (g_bwd g) id) as [b| |] eqn:Eb; [|unfold aget in Eb; by destruct (nlookup _ _) as [[]|]|done].
    apply aget_ok in Ef, Eb. pose proof (gr_nxt _ _ _ Hr id) as Hn. pose proof (gr_prv _ _ _ Hr id) as Hp.
    unfold alk in Hn, Hp. rewrite Ef in Hn. rewrite Eb in Hp. simpl in Hn, Hp. subst. unfold assert_no_order, mbind, M_bind, lift. 
    destruct md; simpl; apply Hk. }
  split; [|intros to; split].
  - unfold calm, grp_add. do 2 wp1. cbv beta. rewrite (gr_head _ _ _ Hr). simpl. done.
  - apply Hk. intros. calm.
  - apply Hk. intros. calm.
Qed.
Section orders.
Context (c : cfg) (Hbs : search_ok (c_bs c)).
Lemma reserve_clean s cap G t (m : M grp unit) : orders_hold s cap G →
  (∀ g, clean m g) → (∀ g, grp_repr cap g [] → calm m g) → clean (i ← reserve_group c t; with_grp i m) s.
Proof.
  intros Hh Hcl Hca. pose proof (reserve_group_wp c Hbs True s cap G t (λ _, False) Hh) as Hres.
  destruct Hh as (gs & Hi).
  destruct (search_cases _ _ t Hbs (ord_sorted _ _ _ _ Hi)) as [(i & Hs & Hl)|(i & Hs & Hle & Hn & Hst)].
  - unfold clean, reserve_group, mbind, M_bind, getS. rewrite Hs. unfold mret, M_ret, with_grp.
    rewrite (grp_at_inv _ _ _ _ _ Hi). destruct (gs !! i) as [g|] eqn:Hg; [|done]. unfold zoom. specialize (Hcl g). unfold clean in Hcl.
    destruct (m g) as [|g'|]; simpl in *; [done| |done]. subst. by eapply grp_put_same.
  - unfold clean, mbind, M_bind. destruct (reserve_group c t s) as [s1 j| |]; simpl in Hres; [|done..].
    destruct Hres as [(gs1 & Hi1) Hj]. unfold with_grp. rewrite (grp_at_inv _ _ _ _ _ Hi1).
    destruct (gs1 !! j) as [g|] eqn:Hg; [|done].
    assert (grp_repr cap g (G t)) as Hr by (apply (ord_repr _ _ _ _ Hi1); by exists j).
    rewrite (ord_other _ _ _ _ Hi) in Hr by done. specialize (Hca g Hr). unfold calm in Hca. unfold zoom.
    by destruct (m g).
Qed.
Lemma order_panic_same cap G s o s' : orders_hold (st_orders s) cap G →
  match o with OOrdAdd _ _ | OOrdNext _ _ _ | OOrdPrev _ _ _ | OOrdDel _ _ => True | _ => False end →
  step c o s = RPanic s' → s' = s.
Proof.
  intros Hh Ho H.
  assert (∀ m, clean m (st_orders s) → no_out (on_orders m) s = RPanic s' → s' = s) as Hz.
  { intros m Hm. apply clean_out, clean_zoom; [by destruct s|done]. }
  destruct o as [| | | | | | | | |g e|g e to|g e to|g e]; try done; simpl in H.
  - apply Hz in H; [done|]. eapply reserve_clean; [done|apply grp_add_clean|]. intros gr Hgr. exact (proj1 (fresh_calm (c_mode c) (e_id e) _ _ Hgr)).
  - apply Hz in H; [done|]. eapply reserve_clean; [done|apply grp_add_next_clean|]. intros gr Hgr. exact (proj1 (proj2 (fresh_calm (c_mode c) (e_id e) _ _ Hgr) _)).
  - apply Hz in H; [done|]. eapply reserve_clean; [done|apply grp_add_prev_clean|]. intros gr Hgr. exact (proj2 (proj2 (fresh_calm (c_mode c) (e_id e) _ _ Hgr) _)).
  - apply Hz in H; [done|]. unfold clean, orders_remove. do 2 wp1. cbv beta. destruct (get_group_index _ _ _) as [i|]; [|done].
    unfold with_grp. destruct (grp_at _ _) as [gr|]; [|done]. unfold zoom. pose proof (grp_remove_calm (e_id e) gr) as Hc.
    unfold calm in Hc. by destruct (grp_remove _ _).
Qed.
Lemma order_panic_clean cap tr s o s' : c_mode c = Debug → run c cap tr s → orders_proper tr →
  match o with OOrdAdd _ _ | OOrdNext _ _ _ | OOrdPrev _ _ _ | OOrdDel _ _ => True | _ => False end →
  step c o s = RPanic s' → s' = s.
Proof. intros Hmd Hr Hp. destruct (run_orders c cap Hbs Hmd _ _ Hr Hp) as [_ Hh]. by eapply order_panic_same. Qed.
(** Tag calls never panic. *)
Lemma tag_panic_never cap s o s' : tags_inv (st_tags s) cap →
  match o with OTagAdd _ _ | OTagDel _ _ => True | _ => False end → step c o s ≠ RPanic s'.
Proof.
  intros Hi Ho H.
  assert (∀ m, calm m (st_tags s) → no_out (on_tags m) s ≠ RPanic s') as Hz.
  { intros m Hm. unfold calm in Hm. unfold no_out, on_tags, mbind, M_bind, zoom. by destruct (m (st_tags s)). }
  assert (∀ f v i, bv_upd f v i ≠ PPanic) as Hu by (intros f v i; unfold bv_upd; by destruct (nlookup _ _)).
  destruct o; try done; simpl in H; apply Hz in H; try done; unfold tags_add, tags_remove, calm, mbind, M_bind, getS, lift, mret, M_ret, putS.
  - destruct (search_cases _ _ t Hbs (ti_sorted _ _ Hi)) as [(i & -> & Hl)|(i & -> & Hle & Hn & Hst)].
    + unfold vget_unchecked. destruct (tg_bvs _ !! i); [|done]. unfold bv_on. by destruct (bv_upd _ _ _) eqn:E; [|apply Hu in E|].
    + rewrite !vinsert_le by (try rewrite (ti_len _ _ Hi); done). unfold vget_unchecked. simpl. destruct (_ !! i); [|done].
      unfold bv_on. by destruct (bv_upd _ _ _) eqn:E; [|apply Hu in E|].
  - destruct (search_cases _ _ t Hbs (ti_sorted _ _ Hi)) as [(i & -> & Hl)|(i & -> & Hle & Hn & Hst)]; [|done].
    unfold vget_unchecked. destruct (tg_bvs _ !! i); [|done]. unfold bv_off. by destruct (bv_upd _ _ _) eqn:E; [|apply Hu in E|].
Qed.
Lemma tag_panic_clean cap tr s o s' : run c cap tr s →
  match o with OTagAdd _ _ | OTagDel _ _ => True | _ => False end → step c o s ≠ RPanic s'.
Proof. intros Hr. eapply tag_panic_never, (run_tags_inv c Hbs _ _ _ Hr). Qed.
End orders.

Lemma asks_add tr e vals m : comps tr e (Some m) → asks tr (OAdd e vals) = Some (dom m ∪ list_to_set vals.*1).
Proof. intros H%comps_types. simpl in *. by rewrite <- H. Qed.
Lemma asks_remove tr e T m : comps tr e (Some m) → asks tr (ORemove e T) = Some (dom m ∖ list_to_set T).
Proof. intros H%comps_types. simpl in *. by rewrite <- H. Qed.
Section comps.
Context (c : cfg) (Hc : cfg_ok c) (Hmd : c_mode c = Debug).
Lemma component_panic_clean cap tr s o s' : hrun c cap tr s → healthy c (st_ac s) (asks tr o) → args_ok c o → room c tr o →
  match o with OAdd _ _ | ORemove _ _ | OSet _ _ | OWrite _ _ => True | _ => False end →
  step c o s = RPanic s' → s' = s.
Proof.
  intros Hr Hh Ha Hro Ho H. destruct o as [| | |e vals|e T|e vals|q f| | | | | |]; try done; simpl in H.
  - destruct (N.lt_ge_cases (e_id e) (entities_capacity s)) as [Hlt|Hge].
    + destruct (values_persist c Hc Hmd _ _ _ e Hr Hlt) as ([m|] & Hcs & Hx & _).
      * destruct Ha as (H1 & H2 & H3). destruct (add_union c Hc Hmd _ _ _ e vals m Hr (Hh _ (asks_add _ _ _ _ Hcs)) Hlt Hx H1 H2 H3) as (s1 & m' & Hok & _); [by apply Hro|].
        unfold no_out, mbind, M_bind in H. by rewrite Hok in H.
      * destruct Hx as [Hx _]. destruct (dead_noop c s e vals [] Hx) as (Hok & _). unfold no_out, mbind, M_bind in H. by rewrite Hok in H.
    + destruct (beyond_detected c s e Hmd Hge) as (_ & Hb & _). destruct (Hb vals) as [Hb1 _].
      unfold no_out, mbind, M_bind in H. rewrite Hb1 in H. congruence.
  - destruct (N.lt_ge_cases (e_id e) (entities_capacity s)) as [Hlt|Hge].
    + destruct (values_persist c Hc Hmd _ _ _ e Hr Hlt) as ([m|] & Hcs & Hx & _).
      * destruct (decide (m = ∅ ∨ ¬ dom m ⊆ (list_to_set T : gset tid))) as [Hcase|Hcase].
        -- destruct (remove_diff c Hc Hmd _ _ _ e T m Hr (Hh _ (asks_remove _ _ _ _ Hcs)) Hlt Hx) as (s1 & m' & Hok & _); [|by apply Hro|].
           { destruct Hcase as [?|Hns]; [by left|right]. destruct (set_choose_or_empty (dom m ∖ list_to_set T : gset tid)) as [(t & Ht)|Hemp].
             - apply elem_of_difference in Ht as [Ht1%elem_of_dom Ht2]. exists t. split; [done|]. by rewrite <- (elem_of_list_to_set (C := gset tid)).
             - destruct Hns. set_solver. }
           unfold no_out, mbind, M_bind in H. by rewrite Hok in H.
        -- assert (remove_components c e T s = RPanic s) as Hp.
           { eapply remove_all_panics; [done..| |]; [naive_solver|]. intros t Ht. apply elem_of_dom in Ht.
             apply dec_stable. intros HnT. apply Hcase. right. intros Hsub. apply Hsub, elem_of_list_to_set in Ht. done. }
           unfold no_out, mbind, M_bind in H. rewrite Hp in H. congruence.
      * destruct Hx as [Hx _]. destruct (dead_noop c s e [] T Hx) as (_ & Hok & _). unfold no_out, mbind, M_bind in H. by rewrite Hok in H.
    + destruct (beyond_detected c s e Hmd Hge) as (_ & _ & Hb & _). destruct (Hb T) as [Hb1 _].
      unfold no_out, mbind, M_bind in H. rewrite Hb1 in H. congruence.
  - eapply clean_out; [|done]. apply set_clean.
  - eapply clean_out; [|done]. apply write_clean.
Qed.
(** Destruction through a stale handle whose id belongs to an entity without components. *)
Lemma destroy_stale_clean cap tr s e e' : run c cap tr s → ¬ alive_in tr e → e_id e' = e_id e → alive_in tr e' →
  get_entity_archetype c s e' = POk None → step c (ODestroy e) s = RPanic s.
Proof.
  intros Hr Hd Hid Ha Hg. pose proof (run_ec _ _ Hmd _ _ Hr) as Hec.
  destruct (alive_id c cap (cfg_search _ Hc) Hmd _ _ _ Hr Ha) as [Hlt _].
  destruct (is_alive_exact _ _ Hmd _ _ e' Hr Hlt) as (b & Hb & Hiff). destruct b; [|naive_solver].
  assert (has_archetype s (e_id e) = POk false) as Hhas.
  { unfold get_entity_archetype, is_valid_with_archetype in Hg. rewrite Hb in Hg. simpl in Hg. rewrite Hid in Hg.
    destruct (has_archetype s (e_id e)) as [[]| |]; simpl in Hg; try done.
    destruct (aget _ _); simpl in Hg; [|done..]. destruct (arch_by_page _ _); done. }
  simpl. unfold no_out, destroy_entity, mbind, M_bind, getS, lift. rewrite Hhas. simpl. unfold mret, M_ret, on_ec, zoom. rewrite Hmd.
  rewrite (ec_destroy_dead _ _ _ _ Hec); [by destruct s|]. by rewrite live_alive.
Qed.
End comps.

(** Destroying entity 0 twice: the second call panics, but only after removing the row of entity 2. *)
Definition twice_three : list (list entity → op) :=
  [ λ _, OCreate; λ hs, OAdd (h 0 hs) [(1, [1; 1; 1; 1])]; λ _, OCreate; λ hs, OAdd (h 1 hs) [(1, [2; 2; 2; 2])];
    λ _, OCreate; λ hs, OAdd (h 2 hs) [(1, [3; 3; 3; 3])]; λ hs, ODestroy (h 0 hs) ].
(** The state a panicking call leaves behind. *)
Definition left_by (r : res store (option entity)) (d : store) : store := match r with RPanic s => s | _ => d end.
Definition is_panic (r : res store (option entity)) : bool := match r with RPanic _ => true | _ => false end.
Lemma is_panic_left r d : is_panic r = true → r = RPanic (left_by r d).
Proof. by destruct r. Qed.
Lemma panic_witness : ∃ tr s s', hrun (ex_cfg Debug) 4 tr s ∧
  step (ex_cfg Debug) (ODestroy (Entity 0 1)) s = RPanic s' ∧
  read_components (ex_cfg Debug) s (Entity 2 1) [1] = POk (Some [Some <$> [3; 3; 3; 3]]) ∧
  read_components (ex_cfg Debug) s' (Entity 2 1) [1] = POk (Some [Some <$> [2; 2; 2; 2]]).
Proof.
  exists (end_trace (ex_cfg Debug) 4 twice_three), (end_store (ex_cfg Debug) 4 twice_three),
    (left_by (step (ex_cfg Debug) (ODestroy (Entity 0 1)) (end_store (ex_cfg Debug) 4 twice_three)) (end_store (ex_cfg Debug) 4 twice_three)).
  split; [apply hend_run; vm_compute; reflexivity|].
  split; [apply is_panic_left; vm_compute; reflexivity|]. vm_compute. done.
Qed.
Lemma panic_refuted : ¬ ∀ c cap tr s o s' e T x, cfg_ok c → c_mode c = Debug → hrun c cap tr s → healthy c (st_ac s) (asks tr o) →
  args_ok c o → room c tr o → step c o s = RPanic s' → alive_in tr e → read_components c s e T = POk x → read_components c s' e T = POk x.
Proof.
  intros H. destruct panic_witness as (tr & s & s' & Hr & Hp & H1 & H2).
  assert (alive_in tr (Entity 2 1)) as Ha.
  { destruct (N.lt_ge_cases 2 (entities_capacity s)) as [Hlt|Hge].
    - destruct (values_persist _ (ex_cfg_ok Debug) eq_refl _ _ _ (Entity 2 1) Hr Hlt) as (x & _ & Hx & Hal). apply Hal.
      destruct x; [done|]. destruct Hx as (_ & Hx & _). by rewrite Hx in H1.
    - destruct (beyond_detected (ex_cfg Debug) s (Entity 2 1) eq_refl Hge) as (_ & _ & Hb & _). unfold read_components in H1.
      destruct (Hb [1]) as [_ Hb1]. by rewrite Hb1 in H1. }
  pose proof (H _ _ _ _ (ODestroy (Entity 0 1)) _ _ _ _ (ex_cfg_ok Debug) eq_refl Hr ltac:(done) I I Hp Ha H1) as H3. rewrite H2 in H3. done.
Qed.
(** An archetype too large for a page: the call panics, but leaves a live entity without components behind. *)
Definition big : archetype := ex_arch [6; 3].
Lemma leak_witness : ∃ s s', hrun (ex_cfg Debug) 4 [] s ∧ arch_wf (ex_cfg Debug) big ∧
  step (ex_cfg Debug) (OCreateWith big) s = RPanic s' ∧
  is_alive (ex_cfg Debug) s (Entity 0 1) = POk false ∧ is_alive (ex_cfg Debug) s' (Entity 0 1) = POk true.
Proof.
  exists (end_store (ex_cfg Debug) 4 []),
    (left_by (step (ex_cfg Debug) (OCreateWith big) (end_store (ex_cfg Debug) 4 [])) (end_store (ex_cfg Debug) 4 [])).
  split; [apply hrun_init; vm_compute; reflexivity|].
  split; [split; [|split]; [apply incrb_ok; vm_compute; reflexivity|vm_compute; done|vm_compute; done]|].
  split; [apply is_panic_left; vm_compute; reflexivity|]. vm_compute. done.
Qed.
Lemma leak_refuted : ¬ ∀ c cap tr s o s' e b, cfg_ok c → c_mode c = Debug → hrun c cap tr s → args_ok c o →
  step c o s = RPanic s' → is_alive c s e = POk b → is_alive c s' e = POk b.
Proof.
  intros H. destruct leak_witness as (s & s' & Hr & Hw & Hp & H1 & H2).
  pose proof (H _ _ _ _ (OCreateWith big) _ _ _ (ex_cfg_ok Debug) eq_refl Hr Hw Hp H1) as H3. congruence.
Qed.

(** ** Growth *)
Section grow.
Context (c : cfg) (Hc : cfg_ok c) (Hmd : c_mode c = Debug).
Definition creation_op (o : op) : Prop := match o with OCreate | OCreateWith _ => True | _ => False end.
Lemma creation_tags cap tr s o s' r t e : run c cap tr s → creation_op o → step c o s = ROk s' r → e_id e < entities_capacity s →
  has_tag c s' t e = has_tag c s t e.
Proof using Hc Hmd.
  intros Hr Ho H Hlt. pose proof (cfg_search _ Hc) as Hbs. pose proof (run_step _ _ _ _ _ _ _ Hr H) as Hr'.
  pose proof (capacity_mono c cap Hmd _ _ _ _ _ Hr H) as Hmono.
  destruct (has_tag_spec c Hbs _ _ _ t e Hr Hlt) as (b & -> & Hb). destruct (has_tag_spec c Hbs _ _ _ t e Hr' ltac:(lia)) as (b' & -> & Hb').
  pose proof (step_tag_bits c Hbs _ _ _ _ (run_tags_inv c Hbs _ _ _ Hr) H) as [_ Hbits]. rewrite Hbits in Hb'.
  f_equal. apply eq_bool_prop_intro. rewrite !Is_true_true, Hb, Hb'. destruct o; naive_solver.
Qed.
Lemma creation_orders cap tr s o s' r g : run c cap tr s → orders_proper tr → creation_op o → step c o s = ROk s' r →
  first_ordered c s' g = first_ordered c s g ∧ last_ordered c s' g = last_ordered c s g ∧
  ∀ e, alive_in tr e → next_ordered c s' g e = next_ordered c s g e ∧ previous_ordered c s' g e = previous_ordered c s g e.
Proof using Hc Hmd.
  intros Hr Hp Ho H. pose proof (cfg_search _ Hc) as Hbs. pose proof (run_step _ _ _ _ _ _ _ Hr H) as Hr'.
  assert (members (tr ++ [(o, r)]) g = members tr g) as Hm by (rewrite order_snoc; by destruct o).
  assert (orders_proper (tr ++ [(o, r)])) as Hp'.
  { intros tr1 o1 r1 tr2 Heq. destruct tr2 as [|x tr2 _] using rev_ind.
    - apply app_inj_tail in Heq as [-> [= -> ->]]. by destruct o1.
    - rewrite app_comm_cons, app_assoc in Heq. apply app_inj_tail in Heq as [-> _]. by eapply Hp. }
  destruct (order_exact c cap Hbs Hmd _ _ g Hr Hp) as (_ & _ & -> & -> & Hn & Hn0).
  destruct (order_exact c cap Hbs Hmd _ _ g Hr' Hp') as (_ & _ & -> & -> & Hn' & Hn0'). rewrite Hm in *.
  split_and!; [done..|]. intros e He. destruct (decide (e ∈ members tr g)) as [Hin|Hni].
  - apply elem_of_list_lookup in Hin as [i Hi]. destruct (Hn _ _ Hi) as [-> ->]. by destruct (Hn' _ _ Hi) as [-> ->].
  - destruct (Hn0 _ He Hni) as [-> ->]. assert (alive_in (tr ++ [(o, r)]) e) as He'.
    { apply alive_snoc. right. split; [done|]. by destruct o. }
    by destruct (Hn0' _ He' Hni) as [-> ->].
Qed.
Lemma growth_invisible cap tr s o s' r : hrun c cap tr s → healthy c (st_ac s) (asks tr o) → args_ok c o → room c tr o →
  creation_op o → step c o s = ROk s' r →
  (∀ e x, alive_in tr e → observed c s e x → observed c s' e x) ∧
  (∀ e t, e_id e < entities_capacity s → has_tag c s' t e = has_tag c s t e) ∧
  (orders_proper tr → ∀ g, first_ordered c s' g = first_ordered c s g ∧ last_ordered c s' g = last_ordered c s g ∧
    ∀ e, alive_in tr e → next_ordered c s' g e = next_ordered c s g e ∧ previous_ordered c s' g e = previous_ordered c s g e).
Proof using Hc Hmd.
  intros Hr Hh Ha Hro Ho H. pose proof (hrun_run _ _ _ _ Hr) as Hr0. split_and!.
  - intros e x He Hx. eapply (others_untouched c Hc Hmd cap tr s o); try done. by destruct o.
  - intros e t Hlt. by eapply creation_tags.
  - intros Hp g. by eapply creation_orders.
Qed.
End grow.

(** ** Contents of components *)
Definition initialised (m : gmap tid (list cell)) : Prop := ∀ t v, m !! t = Some v → Forall is_Some v.
Lemma put_initialised vals m : initialised m → initialised (put vals m).
Proof.
  unfold put. revert m. induction vals as [|[t0 v0] vals IH]; intros m Hm; simpl; [done|]. apply IH. intros t v.
  destruct (decide (t = t0)) as [->|Hne]; [rewrite lookup_insert|rewrite lookup_insert_ne by done; by apply Hm].
  intros [= <-]. apply Forall_fmap, Forall_true. intros y. by eexists.
Qed.
Lemma comps_initialised tr e x : comps tr e x → (∀ a, (OCreateWith a, Some e) ∉ tr) → ∀ m, x = Some m → initialised m.
Proof.
  induction 1 as [e|tr e x o r x' Hcs IH Hst]; intros Hno m Hm; [done|].
  assert (∀ a, (OCreateWith a, Some e) ∉ tr) as Hno' by (intros a Hin; apply (Hno a), elem_of_app; by left).
  assert (∀ a, ¬ (o = OCreateWith a ∧ r = Some e)) as Hno1.
  { intros a [-> ->]. apply (Hno a), elem_of_app. right. by left. }
  specialize (IH Hno'). subst x'. destruct o; simpl in Hst; try (by apply IH).
  - destruct (decide (r = Some e)); [|by apply IH]. injection Hst as ->. by intros t v Hv.
  - destruct (decide (r = Some e)) as [->|]; [|by apply IH]. by destruct (Hno1 a).
  - destruct (decide (e0 = e)); [done|by apply IH].
  - destruct (decide (e0 = e)); [|by apply IH]. destruct x as [m0|]; [|done]. injection Hst as ->. by apply put_initialised, IH.
  - destruct (decide (e0 = e)); [|by apply IH]. destruct x as [m0|]; [|done]. injection Hst as ->. intros t v Hv.
    rewrite forget_lookup in Hv. destruct (decide (t ∈ T)); [done|]. by eapply IH.
  - destruct (decide (e0 = e)); [|by apply IH]. destruct x as [m0|]; [|done]. injection Hst as ->. destruct (has_all _ _); [|by apply IH].
    by apply put_initialised, IH.
  - destruct x as [m0|]; [|done]. injection Hst as ->. destruct (has_all _ _); [|by apply IH]. by apply put_initialised, IH.
Qed.
Section init.
Context (c : cfg) (Hc : cfg_ok c) (Hmd : c_mode c = Debug).
Lemma reads_initialised cap tr s e T vs : hrun c cap tr s → (∀ a, (OCreateWith a, Some e) ∉ tr) → T ≠ [] →
  read_components c s e T = POk (Some vs) → Forall (Forall is_Some) vs.
Proof using Hc Hmd.
  intros Hr Hno HT Hrd. destruct (N.lt_ge_cases (e_id e) (entities_capacity s)) as [Hlt|Hge].
  - destruct (values_persist c Hc Hmd _ _ _ e Hr Hlt) as (x & Hcs & (_ & Hx & _) & _). rewrite (Hx T HT) in Hrd. injection Hrd as Hrd.
    destruct x as [m|]; [|done]. simpl in Hrd. destruct (has_all m T) eqn:E; [|done]. injection Hrd as <-.
    pose proof (comps_initialised _ _ _ Hcs Hno m eq_refl) as Hin. unfold values. apply Forall_fmap, Forall_forall. intros t Ht.
    unfold has_all in E. rewrite forallb_forall in E. apply elem_of_list_In, E, bool_decide_eq_true in Ht as [v Hv]. simpl. rewrite Hv. by eapply Hin.
  - destruct (beyond_detected c s e Hmd Hge) as (_ & _ & Hb & _). unfold read_components in Hrd.
    destruct (Hb T) as [_ Hb1]. by rewrite Hb1 in Hrd.
Qed.
(** Assigning all components of any entity initialises it. *)
Lemma assigned_initialised cap tr s e vals m : hrun c cap tr s → healthy_for c (st_ac s) (dom m) → e_id e < entities_capacity s →
  observed c s e (Some m) → vals ≠ [] → NoDup vals.*1 → vals_ok c vals → (∀ t, is_Some (m !! t) ↔ t ∈ vals.*1) → fits_types c (dom m) →
  ∃ s', add_components c e vals s = ROk s' () ∧ ∀ t v, (t, v) ∈ vals → read_components c s' e [t] = POk (Some [Some <$> v]).
Proof using Hc Hmd.
  intros Hr Hh Hlt Hx Hne Hnd Hok Hdom Hfit.
  assert (dom m ∪ list_to_set vals.*1 = dom m) as Heq.
  { apply leibniz_equiv. intros t. rewrite elem_of_union, elem_of_dom, elem_of_list_to_set, Hdom. tauto. }
  destruct (add_union c Hc Hmd _ _ _ e vals m Hr ltac:(by rewrite Heq) Hlt Hx Hne Hnd Hok ltac:(by rewrite Heq)) as (s' & m' & Hs & Hx' & Hv & _).
  exists s'. split; [done|]. intros t v Hin. destruct Hx' as (_ & Hx' & _). rewrite (Hx' [t]) by done. simpl. unfold has_all, values. simpl.
  by rewrite (Hv _ _ Hin).
Qed.
End init.
Definition stale_bytes : list (list entity → op) :=
  [ λ _, OCreate; λ hs, OAdd (h 0 hs) [(1, [7; 8; 9; 10])]; λ hs, ODestroy (h 0 hs); λ _, OCreateWith (ex_arch [1]) ].
Definition fresh_bytes : list (list entity → op) := [ λ _, OCreateWith (ex_arch [1]) ].
Lemma uninit_refuted : ¬ ∀ c cap tr s e T vs, cfg_ok c → c_mode c = Debug → hrun c cap tr s → alive_in tr e → 
  read_components c s e T = POk (Some vs) → Forall (Forall is_Some) vs.
Proof.
  intros H. assert (∃ tr s, hrun (ex_cfg Debug) 4 tr s ∧ Entity 0 1 ∈ live tr ∧
    read_components (ex_cfg Debug) s (Entity 0 1) [1] = POk (Some [[None; None; None; None]])) as (tr & s & Hr & Ha%live_alive & Hrd).
  { exists (end_trace (ex_cfg Debug) 4 fresh_bytes), (end_store (ex_cfg Debug) 4 fresh_bytes).
    split; [apply hend_run; vm_compute; reflexivity|]. vm_compute. done. }
  pose proof (H _ _ _ _ _ _ _ (ex_cfg_ok Debug) eq_refl Hr Ha Hrd) as Hf.
  apply Forall_cons in Hf as [Hf _]. apply Forall_cons in Hf as [Hf _]. by destruct Hf.
Qed.
(** The bytes of a destroyed entity. *)
Lemma stale_witness : ∃ tr s s', let c := ex_cfg Debug in
  hrun c 4 tr s ∧ hrun c 4 (tr ++ [(ODestroy (Entity 0 1), None); (OCreateWith (ex_arch [1]), Some (Entity 0 2))]) s' ∧
  read_components c s (Entity 0 1) [1] = POk (Some [Some <$> [7; 8; 9; 10]]) ∧
  read_components c s' (Entity 0 2) [1] = POk (Some [Some <$> [7; 8; 9; 10]]).
Proof.
  exists (end_trace (ex_cfg Debug) 4 (take 2 stale_bytes)), (end_store (ex_cfg Debug) 4 (take 2 stale_bytes)), (end_store (ex_cfg Debug) 4 stale_bytes).
  intros c. split; [apply hend_run; vm_compute; reflexivity|]. split; [|vm_compute; done].
  replace (end_trace _ _ _ ++ _) with (end_trace c 4 stale_bytes) by (vm_compute; reflexivity).
  apply hend_run; vm_compute; reflexivity.
Qed.
Lemma stale_refuted : ¬ ∀ c cap tr s e0 a e s' t v, cfg_ok c → c_mode c = Debug → hrun c cap tr s →
  hrun c cap (tr ++ [(ODestroy e0, None); (OCreateWith a, Some e)]) s' →
  read_components c s e0 [t] = POk (Some [v]) → v ≠ [] → Forall is_Some v → read_components c s' e [t] ≠ POk (Some [v]).
Proof.
  intros H. destruct stale_witness as (tr & s & s' & Hr & Hr' & H1 & H2).
  refine (H _ _ _ _ _ _ _ _ _ _ (ex_cfg_ok Debug) eq_refl Hr Hr' H1 _ _ H2); [done|]. apply Forall_fmap, Forall_true. intros y. by eexists.
Qed.
