(** SafeP.v — no call of a disciplined debug history is undefined. *)
From Verif.Spec Require Export Safety.
From Verif.Proofs Require Export EntQ TagsP OrdersH OrdersX CompX OrdQ.
Local Open Scope N_scope.

Lemma sat_defined {A} (r : res store A) Q P : sat False r Q P → ∀ w, r ≠ RUB w.
Proof. destruct r; simpl; congruence. Qed.

(** ** Recorded locations are initialised *)
Definition hasinit (s : store) : Prop := ∀ id, bit (st_has s) id = true → pinit (st_page s) id ∧ pinit (st_idx s) id.
Definition hpres {A} (m : M store A) : Prop := ∀ s s' a, hasinit s → m s = ROk s' a → hasinit s'.
Definition locs (s : store) := (st_page s, st_idx s, st_has s).
Lemma hpres_bind {A B} (m : M store A) (k : A → M store B) : hpres m → (∀ a, hpres (k a)) → hpres (m ≫= k).
Proof. intros H1 H2 s s' b Hs (s1 & a & E1 & E2)%bind_ok. eapply H2, E2. by eapply H1. Qed.
Lemma hasinit_ext s s' : locs s' = locs s → hasinit s → hasinit s'.
Proof. unfold locs, hasinit. intros [= -> -> ->]. done. Qed.
Lemma hpres_keeps {A} (m : M store A) : keeps locs m → hpres m.
Proof. intros H s s' a Hs E. eapply hasinit_ext, Hs. by apply (keeps_ok _ _ _ _ _ H E). Qed.
Lemma pinit_set (a a' : arr nat) i v id : aset a i v = POk a' → id = i ∨ pinit a id → pinit a' id.
Proof.
  intros [Hlt ->]%aset_ok H. destruct (decide (i = id)) as [->|Hn].
  - exists v. apply aget_ok. apply list_lookup_insert. lia.
  - destruct H as [?|[p Hp]]; [done|]. exists p. apply aget_ok in Hp. apply aget_ok. rewrite list_lookup_insert_ne by lia. done.
Qed.
Lemma hpres_set_page id p : hpres (set_page_index id p).
Proof. intros s s' [] Hs H. unfold set_page_index in H. inv1 H. intros id' [H1 H2]%Hs. split; [|done]. eapply pinit_set; [done|by right]. Qed.
Lemma hpres_set_idx id p : hpres (set_index_in_page id p).
Proof. intros s s' [] Hs H. unfold set_index_in_page in H. inv1 H. intros id' [H1 H2]%Hs. split; [done|]. eapply pinit_set; [done|by right]. Qed.
Lemma hpres_disable id : hpres (disable_archetype id).
Proof.
  intros s s' [] Hs H. unfold disable_archetype in H. inv1 H. intros id' Hb.
  match goal with H : bv_off _ _ = POk _ |- _ => apply bv_off_ok in H as [_ Hbit] end.
  simpl in Hb. rewrite Hbit in Hb. apply andb_true_iff in Hb as [_ Hb]. by apply Hs.
Qed.
Lemma hpres_set_location id l : hpres (set_location id l).
Proof.
  intros s s' [] Hs H. unfold set_location, set_page_index, set_index_in_page, enable_archetype in H. inv1 H. simpl in *.
  match goal with H : bv_on _ _ = POk _ |- _ => apply bv_on_ok in H as [_ Hbit] end. intros id' Hb. simpl in *.
  rewrite Hbit in Hb. case_bool_decide as Hid; simpl in Hb.
  - split; (eapply pinit_set; [done|by left]).
  - apply Hs in Hb as [Hb1 Hb2]. split; (eapply pinit_set; [done|by right]).
Qed.
Ltac hpres := repeat first
  [ apply hpres_set_location | apply hpres_set_page | apply hpres_set_idx | apply hpres_disable
  | apply hpres_bind; [|intros ?]
  | match goal with |- hpres (match ?x with _ => _ end) => destruct x end
  | apply hpres_keeps; unfold_ops; keeps; done ].
Lemma hpres_add c e vals : hpres (add_components c e vals).
Proof. unfold add_components, ensure_types, move_entity, swap_remove_internal. hpres. Qed.
Lemma hpres_remove c e T : hpres (remove_components c e T).
Proof. unfold remove_components, move_entity, swap_remove_internal. hpres. Qed.
Lemma hpres_destroy c e : hpres (destroy_entity c e).
Proof. unfold destroy_entity, swap_remove_internal. hpres. Qed.
Lemma hpres_set c e vals : hpres (set_components c e vals).
Proof.
  apply hpres_keeps. intros s. unfold set_components, mbind, M_bind, getS, lift.
  destruct (get_components_refs c s e vals.*1) as [[rs|]| |]; reflexivity.
Qed.
Lemma hpres_write c q f : hpres (query_write c q f).
Proof.
  apply hpres_keeps. intros s. unfold query_write, mbind, M_bind, getS, lift.
  destruct (component_query c q s) as [it| |]; try reflexivity. by destruct (write_loop _ _ _ _ _ _).
Qed.
Lemma pinit_grown (a a' : arr nat) old new id : arealloc a old new = POk a' → length a = N.to_nat old → pinit a id → pinit a' id.
Proof.
  intros Hp1 Hl [p Hp]. exists p. apply aget_ok in Hp. apply aget_ok.
  unfold arealloc in Hp1. destruct (N.eqb_spec old new) as [_|Hn]; [congruence|].
  apply copy_prefix_ok in Hp1 as (H1 & H2 & ->). pose proof (lookup_lt_Some _ _ _ Hp).
  rewrite lookup_app_l by (rewrite take_length; lia). by rewrite lookup_take by lia.
Qed.
Lemma hasinit_register c s s' e I L D : comp_state c s I L D → register_new_entity c s = ROk s' e → hasinit s → hasinit s'.
Proof.
  intros Hs H Hh. pose proof (register_caps _ _ _ _ H) as Hcaps. pose proof (cs_inv _ _ _ _ _ Hs) as Hi.
  destruct Hcaps as [(_ & _ & _ & E1 & E2 & E3)|(Hp & Hx & Hb & _)].
  - apply (hasinit_ext s); [|done]. unfold locs. by rewrite E1, E2, E3.
  - intros id Hbit. apply (bv_realloc_ok _ _ _ _ (ci_has _ _ _ _ Hi)) in Hb as [_ Hb]. rewrite Hb in Hbit.
    apply Hh in Hbit as [H1 H2]. split; eapply pinit_grown; try done; apply Hi.
Qed.
Lemma step_hasinit c s s' o r I L D : comp_state c s I L D → step c o s = ROk s' r → hasinit s → hasinit s'.
Proof.
  intros Hs H Hh. destruct o; simpl in H; try apply no_out_ok in H as [H _].
  - apply bind_ok in H as (s1 & e & H & [_ ->]%ret_ok). unfold create_entity in H. apply bind_ok in H as (s2 & e2 & H1 & H).
    apply bind_ok in H as (s3 & [] & H2 & [_ ->]%ret_ok). eapply hpres_disable, H2. by eapply hasinit_register.
  - apply bind_ok in H as (s1 & e & H & [_ ->]%ret_ok). unfold create_entity_with_archetype in H. apply bind_ok in H as (s2 & e2 & H1 & H).
    assert (hpres (l ← on_ac (ac_add_entity c (e_id e2) a); _ ← set_location (e_id e2) l; mret e2)) as Hm by hpres.
    eapply Hm; [|exact H]. by eapply hasinit_register.
  - by eapply hpres_destroy.
  - by eapply hpres_add.
  - by eapply hpres_remove.
  - by eapply hpres_set.
  - by eapply hpres_write.
  - apply (keeps_ok but_tags) in H; [|apply tag_keeps]. injection H as _ _ _ E1 E2 E3. eapply hasinit_ext, Hh. unfold locs. by rewrite E1, E2, E3.
  - apply (keeps_ok but_tags) in H; [|apply tag_keeps]. injection H as _ _ _ E1 E2 E3. eapply hasinit_ext, Hh. unfold locs. by rewrite E1, E2, E3.
  - apply (keeps_ok but_orders) in H; [|apply (order_keeps c g e e)]. injection H as _ _ _ E1 E2 E3. eapply hasinit_ext, Hh. unfold locs. by rewrite E1, E2, E3.
  - apply (keeps_ok but_orders) in H; [|apply order_keeps]. injection H as _ _ _ E1 E2 E3. eapply hasinit_ext, Hh. unfold locs. by rewrite E1, E2, E3.
  - apply (keeps_ok but_orders) in H; [|apply order_keeps]. injection H as _ _ _ E1 E2 E3. eapply hasinit_ext, Hh. unfold locs. by rewrite E1, E2, E3.
  - apply (keeps_ok but_orders) in H; [|apply (order_keeps c g e e)]. injection H as _ _ _ E1 E2 E3. eapply hasinit_ext, Hh. unfold locs. by rewrite E1, E2, E3.
Qed.

Section safe.
Context (c : cfg) (Hc : cfg_ok c) (Hmd : c_mode c = Debug).

Lemma hrun_hasinit cap tr s : hrun c cap tr s → hasinit s.
Proof using Hc Hmd.
  induction 1 as [s H|tr s o s' r Hr IH Hh Ha Hro H].
  - unfold store_with_capacity in H. apply pbind_ok in H as ([] & _ & [= <-]). intros id Hb. simpl in Hb.
    unfold bv_alloc in Hb. rewrite bit_replicate in Hb. done.
  - destruct (hrun_state c Hc Hmd _ _ _ Hr) as (D & Hs & _). by eapply step_hasinit.
Qed.

(** ** Tags *)
Lemma bvs_map_total f l : (∀ v, v ∈ l → ∃ v', f v = POk v') → ∃ l', bvs_map f l = POk l'.
Proof using.
  clear. induction l as [|v l IH]; intros H; [by eexists|]. simpl. destruct (H v) as [v' Hv]; [by left|]. rewrite Hv. simpl.
  destruct IH as [l' Hl]; [|rewrite Hl; by eexists]. intros w Hw. apply H. by right.
Qed.
Lemma tags_grow_safe s cap new : tags_inv s cap → cap ≤ new → ∃ s', tags_grow new s = ROk s' ().
Proof using.
  intros Hi Hle. unfold tags_grow, mbind, M_bind, getS. destruct (bvs_map_total (λ v, bv_realloc v (tg_cap s) new) (tg_bvs s)) as [l' Hl].
  { intros v Hv. rewrite (ti_cap _ _ Hi). apply bv_realloc_le; [|done]. pose proof (ti_sized _ _ Hi) as Hf. rewrite Forall_forall in Hf. auto. }
  rewrite Hl. by eexists.
Qed.
Lemma tags_remove_all_safe s cap id : tags_inv s cap → id < cap → ∃ s', tags_remove_all id s = ROk s' ().
Proof using.
  intros Hi Hlt. unfold tags_remove_all, mbind, M_bind, getS. destruct (bvs_map_total (λ v, bv_off v id) (tg_bvs s)) as [l' Hl].
  { intros v Hv. apply bv_upd_lt. eapply bv_sized_lt; [|done]. pose proof (ti_sized _ _ Hi) as Hf. rewrite Forall_forall in Hf. auto. }
  rewrite Hl. by eexists.
Qed.
Lemma bv_at s cap i id : tags_inv s cap → (i < length (tg_ids s))%nat → id < cap →
  ∃ v, tg_bvs s !! i = Some v ∧ (N.to_nat (id / 32) < length v)%nat.
Proof using.
  clear. intros Hi Hlt Hid. destruct (lookup_lt_is_Some_2 (tg_bvs s) i) as [v Hv]; [by rewrite (ti_len _ _ Hi)|].
  exists v. split; [done|]. eapply bv_sized_lt; [|done]. pose proof (ti_sized _ _ Hi) as Hf. rewrite Forall_lookup in Hf. eauto.
Qed.
Lemma tags_add_safe s cap t id : tags_inv s cap → id < cap → ∃ s', tags_add c t id s = ROk s' ().
Proof using Hc.
  intros Hi Hid. pose proof Hc as [Hbs _ _]. unfold tags_add, mbind, M_bind, getS, mret, M_ret.
  destruct (search_cases _ _ t Hbs (ti_sorted _ _ Hi)) as [(i & -> & Hl)|(i & -> & Hle & _)].
  - destruct (bv_at s cap i id Hi) as (v & Hv & Hlt); [by eapply lookup_lt_Some|done|]. unfold vget_unchecked. rewrite Hv. simpl.
    unfold bv_on. destruct (bv_upd_lt (λ w, N.lor w (bv_mask id)) v id Hlt) as [v' ->]. by eexists.
  - unfold vinsert. assert (i <= length (tg_ids s))%nat as Hle1 by done. pose proof Hle1 as Hle2. rewrite <- (ti_len _ _ Hi) in Hle2.
    rewrite (proj2 (Nat.leb_le _ _) Hle1). simpl. rewrite (proj2 (Nat.leb_le _ _) Hle2). simpl.
    unfold vget_unchecked. rewrite list_lookup_middle by (rewrite take_length; lia). simpl. unfold bv_on.
    destruct (bv_upd_lt (λ w, N.lor w (bv_mask id)) (bv_alloc (tg_cap s)) id) as [v' ->]; [|by eexists].
    eapply bv_sized_lt; [|done]. rewrite (ti_cap _ _ Hi). unfold bv_sized, bv_alloc. by rewrite replicate_length.
Qed.
Lemma tags_remove_safe s cap t id : tags_inv s cap → id < cap → ∃ s', tags_remove c t id s = ROk s' ().
Proof using Hc.
  intros Hi Hid. pose proof Hc as [Hbs _ _]. unfold tags_remove, mbind, M_bind, getS, mret, M_ret.
  destruct (search_cases _ _ t Hbs (ti_sorted _ _ Hi)) as [(i & -> & Hl)|(i & -> & Hle & _)]; [|by eexists].
  destruct (bv_at s cap i id Hi) as (v & Hv & Hlt); [by eapply lookup_lt_Some|done|]. unfold vget_unchecked. rewrite Hv. simpl.
  unfold bv_off. destruct (bv_upd_lt (λ w, N.land w (u32_not (bv_mask id))) v id Hlt) as [v' ->]. by eexists.
Qed.

(** ** Creation *)
Lemma arealloc_le {A} (a : arr A) old new : length a = N.to_nat old → old ≤ new → ∃ a', arealloc a old new = POk a'.
Proof using.
  clear. intros Hl Hle. unfold arealloc. destruct (_ =? _); [by eexists|]. rewrite copy_prefix_le; [by eexists|lia|].
  unfold alloc_uninit. rewrite replicate_length. lia.
Qed.
Lemma register_safe s I L D G : comp_state c s I L D → tags_inv (st_tags s) (ec_cap (st_ec s)) →
  orders_hold (st_orders s) (ec_cap (st_ec s)) G → sat False (register_new_entity c s) (λ _ _, True) (λ _, True).
Proof using Hc Hmd.
  intros Hs Ht Ho. pose proof (cs_inv _ _ _ _ _ Hs) as Hi. unfold register_new_entity, on_ec. do 2 wp1. rewrite Hmd.
  pose proof (ec_create_spec False _ _ _ (cs_ec _ _ _ _ _ Hs)) as Hsp. destruct (ec_create Debug (st_ec s)) as [ec' cr| |] eqn:Hcr; try done.
  destruct (ec_create_caps _ _ _ _ Hcr) as [Hbef Haft]. destruct Hsp as (_ & _ & _ & _ & _ & _ & _ & Hcap & _). simpl.
  assert (ec_cap (st_ec s) ≤ ec_cap ec') as Hle by (destruct Hcap as [->|[-> _]]; lia).
  destruct (container_was_grow cr); [|by wp]. wp1. unfold grow_entities, entities_capacity. do 4 wp1. simpl. rewrite Hbef.
  destruct (arealloc_le (st_page s) _ _ (ci_page _ _ _ _ Hi) Hle) as [a1 ->]. simpl. do 4 wp1. simpl.
  destruct (arealloc_le (st_idx s) _ _ (ci_idx _ _ _ _ Hi) Hle) as [a2 ->]. simpl. do 4 wp1. simpl.
  destruct (bv_realloc_le _ _ _ (ci_has _ _ _ _ Hi) Hle) as [v ->]. simpl. do 2 wp1. unfold on_tags. do 2 wp1. simpl.
  destruct (tags_grow_safe _ _ _ Ht Hle) as [t' ->]. simpl. unfold on_orders. wp1. simpl.
  rewrite <- Hmd.
  eapply sat_mono; [apply (orders_grow_wp c False _ _ _ _ (λ _, True) Ho Hle)| |done]. intros ? ? _. by wp.
Qed.

(** ** Stale locations *)
Lemma swap_remove_stale s I L D p k : comp_state c s I L D →
  sat False (swap_remove_internal (Eia p k) s) (λ s' _, st_ec s' = st_ec s) (λ _, True).
Proof using Hc Hmd.
  intros Hs. pose proof (cs_inv _ _ _ _ _ Hs) as Hi. unfold swap_remove_internal, on_ac. do 2 wp1.
  destruct (loc (st_ac s) p k) as [[id m]|] eqn:Hl.
  - eapply sat_mono; [by apply (ac_swap_remove_wp c _ _ _ _ _ False (λ _, True) (ci_ac _ _ _ _ Hi) Hl)| |done].
    intros a' r [_ _ (n & idn & mn & Hn & _ & -> & _)]. destruct (decide (k < n)%nat); [|by wp].
    destruct (ci_rows _ _ _ _ Hi _ _ _ _ Hn) as [HD _]; [done|]. apply (ci_lt _ _ _ _ Hi) in HD.
    unfold set_index_in_page. do 4 wp1. simpl. rewrite aset_lt by (rewrite (ci_idx _ _ _ _ Hi); lia). simpl. by wp.
  - unfold ac_swap_remove. simpl. do 4 wp1. unfold vidx at 1. destruct (ac_p2a (st_ac s) !! p) as [i|] eqn:H1; simpl; [|done].
    do 2 wp1. unfold vidx at 1. destruct (ac_pages (st_ac s) !! p) as [pg|] eqn:Hp; simpl; [|done].
    do 2 wp1. unfold vidx at 1. destruct (ac_archs (st_ac s) !! i) as [a|] eqn:Ha; simpl; [|done].
    do 2 wp1. unfold vidx at 1. destruct (ac_layouts (st_ac s) !! i) as [ly|] eqn:Hly; simpl; [|done].
    do 2 wp1. unfold loc, page_arch in Hl. rewrite Hp, H1, Ha, Hly in Hl. unfold page_swap_remove, vswap_remove.
    destruct (pg_ids pg !! k); [done|]. simpl. done.
Qed.
Lemma destroy_stale_safe s I L D e : comp_state c s I L D → hasinit s → e_id e < ec_cap (st_ec s) → e ∉ L →
  sat False (destroy_entity c e s) (λ _ _, True) (λ _, True).
Proof using Hc Hmd.
  intros Hs Hh Hlt HL. pose proof (cs_inv _ _ _ _ _ Hs) as Hi. unfold destroy_entity. do 4 wp1.
  unfold has_archetype. rewrite bv_get_lt by (by eapply bv_sized_lt; [apply Hi|]). simpl. wp1.
  assert (∀ s1, st_ec s1 = st_ec s → sat False ((_ ← on_ec (ec_destroy (c_mode c) e);
    _ ← on_tags (tags_remove_all (e_id e)); on_orders (orders_remove_all (e_id e))) s1) (λ _ _, True) (λ _, True)) as Hdead.
  { intros s1 E. unfold on_ec. do 2 wp1. rewrite Hmd, E, (ec_destroy_dead _ _ _ _ (cs_ec _ _ _ _ _ Hs) HL). done. }
  destruct (bit (st_has s) (e_id e)) eqn:Hb; [|wp1; by apply Hdead].
  apply Hh in Hb as [[p Hp] [k Hk]]. do 2 wp1. unfold get_eia, get_page_index, get_index_in_page. rewrite Hp. simpl. rewrite Hk. simpl.
  eapply sat_mono; [by eapply swap_remove_stale| |done]. intros s1 u E. by apply Hdead.
Qed.
Lemma destroy_live_safe s I L D G e : comp_state c s I L D → tags_inv (st_tags s) (ec_cap (st_ec s)) →
  orders_hold (st_orders s) (ec_cap (st_ec s)) G → e ∈ L → e_id e ≠ NULL_ID →
  sat False (destroy_entity c e s) (λ _ _, True) (λ _, True).
Proof using Hc Hmd.
  intros Hs Ht Ho HL Hnull. pose proof (cs_ec _ _ _ _ _ Hs) as Hec. pose proof (live_lt _ _ _ _ Hec HL) as Hlt.
  unfold destroy_entity. do 3 wp1.
  pose proof (destroy_row_wp c s _ _ D e False (λ _, True) Hs HL) as Hrow. apply sat_bind in Hrow.
  eapply sat_mono; [exact Hrow| |done]. intros s0 has Hrow'. cbv beta in *. wp1. eapply sat_mono; [exact Hrow'| |done].
  intros s1 [] [_ Hids]. injection Hids as E1 E2 E3. unfold on_ec. do 2 wp1. rewrite E1.
  destruct (ec_destroy_live (c_mode c) _ _ _ _ Hec HL) as (ec' & -> & _). simpl. unfold on_tags. do 2 wp1. simpl. rewrite E2.
  destruct (tags_remove_all_safe _ _ _ Ht Hlt) as [t' ->]. simpl. unfold on_orders. wp1. simpl. rewrite E3.
  eapply sat_mono; [apply (orders_remove_all_wp False _ _ _ _ (λ _, True) Ho Hlt Hnull)| |done]. intros. done.
Qed.

(** ** All calls *)
Lemma step_safe cap tr s o : hrun c cap tr s → healthy c (st_ac s) (asks tr o) → args_ok c o → room c tr o → orders_proper tr → order_use_ok tr o →
  (∀ e, e ∈ handles o → e_id e < entities_capacity s) → sat False (step c o s) (λ _ _, True) (λ _, True).
Proof using Hc Hmd.
  intros Hr Hh Ha Hroom Hp Huse Hown. pose proof (hrun_run _ _ _ _ Hr) as Hrun. pose proof Hc as [Hbs _ _].
  destruct (hrun_state c Hc Hmd _ _ _ Hr) as (D & Hs & Hcs). pose proof (room_room_at c _ _ _ Hroom Hcs) as Hra.
  apply (healthy_at c s tr D o) in Hh; [|done].
  pose proof (run_tags_inv c Hbs _ _ _ Hrun) as Ht. destruct (run_orders c cap Hbs Hmd _ _ Hrun Hp) as [Hmem Ho].
  pose proof (cs_inv _ _ _ _ _ Hs) as Hi. unfold entities_capacity in Hown.
  assert (∀ g e, alive_in tr e → ∀ x, x ∈ members tr g → e_id x = e_id e → x = e) as Hinj.
  { intros g e He x Hx Heq. pose proof (live_ids _ _ Hmd _ _ Hrun) as [Huniq _]. apply Huniq; [by apply (Hmem g)|done|done]. }
  assert (∀ m : M store unit, sat False (m s) (λ _ _, True) (λ _, True) → sat False (no_out m s) (λ _ _, True) (λ _, True)) as Hno.
  { intros m Hm. unfold no_out. wp1. eapply sat_mono; [exact Hm|by intros; wp|done]. }
  destruct o as [|a|e|e vals|e T|e vals|q f|t e|t e|g e|g e to|g e to|g e]; simpl in *; try apply Hno.
  - unfold create_entity. do 2 wp1. pose proof (register_safe _ _ _ _ _ Hs Ht Ho) as Hreg.
    destruct (register_new_entity c s) as [s1 e| |] eqn:Hre; [|done|done]. destruct (register_comp c Hmd _ _ _ _ _ _ Hs Hre) as (Hi1 & _ & Hlt & _).
    simpl. wp1. unfold disable_archetype. do 4 wp1. unfold bv_off.
    destruct (bv_upd_lt (λ w, N.land w (u32_not (bv_mask (e_id e)))) (st_has s1) (e_id e)) as [v ->]; [|simpl; by wp].
    eapply bv_sized_lt; [apply Hi1|done].
  - unfold create_entity_with_archetype. do 2 wp1. pose proof (register_safe _ _ _ _ _ Hs Ht Ho) as Hreg.
    destruct (register_new_entity c s) as [s1 e| |] eqn:Hre; [|done|done]. destruct (register_comp c Hmd _ _ _ _ _ _ Hs Hre) as (Hi1 & Hnone & Hlt & Hac).
    simpl. pose proof (place_wp c Hc s1 D (e_id e) a False (λ _, True) Hi1) as Hpl. rewrite Hac in Hpl.
    specialize (Hpl Hh Ha Hroom Hlt (or_introl Hnone)). apply sat_bind in Hpl. wp1. eapply sat_mono; [exact Hpl| |done].
    intros s2 l Hl. cbv beta in *. apply sat_bind in Hl. wp1. eapply sat_mono; [exact Hl| |done]. intros. by wp.
  - destruct (decide (e ∈ live tr)) as [HL|HL].
    + eapply destroy_live_safe; try done. apply (alive_id c cap Hbs Hmd _ _ _ Hrun). by apply live_alive.
    + eapply destroy_stale_safe; try done; [by eapply hrun_hasinit|]. apply Hown. by left.
  - destruct Ha as (H1 & H2 & H3). eapply sat_mono; [eapply (add_components_wp c Hc s _ _ D e vals False (λ _, True)); try done|done|done].
    apply Hown. by left.
  - eapply sat_mono; [eapply (remove_components_wp c Hc s _ _ D e T False (λ _, True)); try done|done|done].
    + apply Hown. by left.
    + intros m HL HD _. split; [by apply Hh|by apply Hra].
  - destruct Ha as (H1 & H2 & H3). eapply sat_mono; [eapply (set_components_wp c Hc s _ _ D e vals False (λ _, True)); try done|done|done].
    apply Hown. by left.
  - destruct Ha as (H1 & H2). eapply sat_mono; [eapply (query_write_wp c Hc s _ _ D q f False (λ _, True)); try done|done|done].
  - unfold add_tag, on_tags. wp1. destruct (tags_add_safe _ _ t (e_id e) Ht) as [t' ->]; [apply Hown; by left|]. done.
  - unfold remove_tag, on_tags. wp1. destruct (tags_remove_safe _ _ t (e_id e) Ht) as [t' ->]; [apply Hown; by left|]. done.
  - destruct Huse as [Hal Hni]. destruct (alive_id c cap Hbs Hmd _ _ _ Hrun Hal) as [Hlt Hn]. unfold add_order, on_orders. wp1.
    eapply sat_mono; [apply (orders_add_wp c Hbs False _ _ _ g _ (λ _, True) Ho Hlt Hn (id_notin _ _ (Hinj g e Hal) Hni))|done|done].
  - destruct Huse as (Hal & Hni & Hto). destruct (alive_id c cap Hbs Hmd _ _ _ Hrun Hal) as [Hlt Hn]. unfold add_order_next, on_orders. wp1.
    destruct (insert_after_split to e (members tr g) Hto) as (l1 & l2 & Hl & _).
    assert (e_id <$> members tr g = (e_id <$> l1) ++ e_id to :: (e_id <$> l2)) as Hl' by (by rewrite Hl, fmap_app).
    eapply sat_mono; [apply (orders_add_next_wp c Hbs False _ _ _ g _ _ _ _ (λ _, True) Ho Hlt Hn (id_notin _ _ (Hinj g e Hal) Hni) Hl')|done|done].
  - destruct Huse as (Hal & Hni & Hto). destruct (alive_id c cap Hbs Hmd _ _ _ Hrun Hal) as [Hlt Hn]. unfold add_order_prev, on_orders. wp1.
    destruct (insert_before_split to e (members tr g) Hto) as (l1 & l2 & Hl & _).
    assert (e_id <$> members tr g = (e_id <$> l1) ++ e_id to :: (e_id <$> l2)) as Hl' by (by rewrite Hl, fmap_app).
    eapply sat_mono; [apply (orders_add_prev_wp c Hbs False _ _ _ g _ _ _ _ (λ _, True) Ho Hlt Hn (id_notin _ _ (Hinj g e Hal) Hni) Hl')|done|done].
  - destruct (alive_id c cap Hbs Hmd _ _ _ Hrun Huse) as [Hlt Hn]. unfold remove_order, on_orders. wp1.
    eapply sat_mono; [apply (orders_remove_wp c Hbs False _ _ _ g _ (λ _, True) Ho Hlt Hn)|done|done].
Qed.

Lemma own_lt cap tr s e : run c cap tr s → e ∈ issued tr → e_id e < entities_capacity s.
Proof using Hmd. intros Hr He. pose proof (run_ec _ _ Hmd _ _ Hr) as Hec.
  destruct (inv_issued _ _ _ Hec _ He) as (v & Hv & _). by eapply ver_at_lt. Qed.
Lemma own_defined cap tr s o : hrun c cap tr s → healthy c (st_ac s) (asks tr o) → args_ok c o → room c tr o → orders_proper tr → order_use_ok tr o →
  own tr o → defined c o s.
Proof using Hc Hmd.
  intros Hr Hh Ha Hro Hp Hu Ho. intros w. eapply sat_defined. eapply step_safe; try done. intros e He. eapply own_lt; [by apply hrun_run|by apply Ho].
Qed.

(** ** Reads *)
Lemma next_same s g e e' : e_id e = e_id e' → next_ordered c s g e = next_ordered c s g e' ∧ previous_ordered c s g e = previous_ordered c s g e'.
Proof using. clear. unfold next_ordered, previous_ordered. by intros ->. Qed.
Lemma reads_defined cap tr s e : hrun c cap tr s → orders_proper tr → e ∈ issued tr →
  (∃ b, is_alive c s e = POk b) ∧ (∀ T, T ≠ [] → ∃ x, read_components c s e T = POk x) ∧
  (∃ a, get_entity_archetype c s e = POk a) ∧ (∀ t, ∃ b, has_tag c s t e = POk b) ∧
  ∀ g, (∃ x, first_ordered c s g = POk x) ∧ (∃ x, last_ordered c s g = POk x) ∧
    (∃ x, next_ordered c s g e = POk x) ∧ (∃ x, previous_ordered c s g e = POk x).
Proof using Hc Hmd.
  intros Hr Hp He. pose proof (hrun_run _ _ _ _ Hr) as Hrun. pose proof Hc as [Hbs _ _]. pose proof (own_lt _ _ _ _ Hrun He) as Hlt.
  destruct (hrun_state c Hc Hmd _ _ _ Hr) as (D & Hs & _). destruct (state_observed c Hc _ _ _ _ e Hs Hlt) as (H1 & H2 & H3). split_and!.
  - by eexists.
  - intros T HT. eexists. by apply H2.
  - destruct (cview (live tr) D e) as [m|]; [|by eexists]. destruct (decide (m = ∅)); [by eexists|]. destruct H3 as (a & H3 & _). by eexists.
  - intros t. destruct (tags_has_spec c Hbs _ _ t (e_id e) (run_tags_inv c Hbs _ _ _ Hrun) Hlt) as (b & Hb & _). by exists b.
  - intros g. destruct (order_exact c cap Hbs Hmd _ _ g Hrun Hp) as (_ & _ & Hf & Hl & Hm & _). split; [by eexists|]. split; [by eexists|].
    destruct (decide (e_id e ∈ e_id <$> members tr g)) as [(e' & Hid & (i & Hi)%elem_of_list_lookup)%elem_of_list_fmap|Hni].
    + destruct (next_same s g _ _ Hid) as [-> ->]. destruct (Hm _ _ Hi) as [-> ->]. split; by eexists.
    + destruct (run_orders c cap Hbs Hmd _ _ Hrun Hp) as [_ Ho].
      destruct (get_link_spec c Hbs _ _ _ g (e_id e) Ho Hlt) as [E1 E2].
      unfold next_ordered, previous_ordered. rewrite E1, E2, !nxt_notin by (rewrite ?elem_of_reverse; done). simpl. split; by eexists.
Qed.
End safe.

(** ** Insertions next to non-members *)
Definition tail_lost : list (list entity → op) :=
  [ λ _, OCreate; λ _, OCreate; λ _, OCreate; λ _, OCreate; λ _, OCreate;
    λ hs, OOrdNext 9 (h 1 hs) (h 0 hs); λ hs, OOrdAdd 9 (h 0 hs); λ hs, OOrdAdd 9 (h 2 hs); λ hs, OOrdPrev 9 (h 3 hs) (h 1 hs);
    λ hs, OOrdDel 9 (h 0 hs); λ hs, OOrdDel 9 (h 2 hs); λ hs, OOrdDel 9 (h 0 hs) ].
Fixpoint live_check (before tr : trace) : bool :=
  match tr with
  | [] => true
  | (o, r) :: rest => forallb (λ e, bool_decide (e ∈ live before)) (handles o) && live_check (before ++ [(o, r)]) rest
  end.
Lemma live_check_ok before tr : live_check before tr = true → ∀ tr1 o r tr2, tr = tr1 ++ (o, r) :: tr2 → on_live (before ++ tr1) o.
Proof.
  revert before. induction tr as [|[o r] tr IH]; intros before H tr1 o' r' tr2 Heq; [by destruct tr1|].
  simpl in H. apply andb_true_iff in H as [H1 H2]. destruct tr1 as [|x tr1]; simpl in Heq.
  - injection Heq as -> -> ->. rewrite app_nil_r. intros e He. apply live_alive. rewrite forallb_forall in H1.
    specialize (H1 e). apply elem_of_list_In in He. apply H1 in He. by apply bool_decide_eq_true in He.
  - injection Heq as <- ->. rewrite cons_middle, app_assoc. by eapply IH.
Qed.
Lemma non_members_refuted : ¬ ∀ c cap tr s o, cfg_ok c → c_mode c = Debug → hrun c cap tr s → healthy c (st_ac s) (asks tr o) → args_ok c o → room c tr o →
  all_on_live tr → on_live tr o → defined c o s.
Proof.
  intros H. apply (H (ex_cfg Debug) 5 (end_trace (ex_cfg Debug) 5 tail_lost) (end_store (ex_cfg Debug) 5 tail_lost) (OOrdAdd 9 (Entity 4 1))) with OutOfBounds.
  - apply ex_cfg_ok.
  - done.
  - apply hend_run. vm_compute. reflexivity.
  - apply healthyb_ok. vm_compute. reflexivity.
  - done.
  - done.
  - intros tr1 o r tr2. apply (live_check_ok []). vm_compute. reflexivity.
  - intros e ->%elem_of_list_singleton. apply live_alive. vm_compute. done.
  - vm_compute. reflexivity.
Qed.

(** ** Queries *)
Lemma queries_defined c cap tr s q : cfg_ok c → c_mode c = Debug → hrun c cap tr s → NoDup (q_types q) → q_types q ≠ [] →
  (∃ it l it', component_query c q s = POk it ∧ yields (qiter_next_with (ec_ver (st_ec s))) it l it') ∧
  (∀ ents, (∀ e, e ∈ ents → had_components tr e) →
    ∃ it l it', entity_query c q s ents = POk it ∧ yields eiter_next_with it l it') ∧
  (∀ g fuel, orders_proper tr → (∀ e, e ∈ members tr g → had_components tr e) → (length (members tr g) < fuel)%nat →
    ∃ it l it', ordered_query fuel c q s g = Some (POk it) ∧ yields oiter_next it l it').
Proof.
  intros Hc Hmd Hr Hnd Hne. split_and!.
  - destruct (query_exact c Hc Hmd cap tr s q Hr Hnd Hne) as (it & l & it1 & it2 & H1 & H2 & _). eauto.
  - intros ents He. destruct (entity_query_exact c cap tr s q ents Hc Hmd Hr Hnd Hne He) as (it & l & it1 & f & H1 & H2 & _). eauto.
  - intros g fuel Hp He Hf. destruct (ordered_query_exact c cap tr s q g fuel Hc Hmd Hr Hp Hnd Hne He Hf) as (it & l & it1 & f & H1 & H2 & _). eauto.
Qed.
