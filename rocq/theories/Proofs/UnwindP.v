(** UnwindP.v — the calls made to the allocator by calls that panic. *)
From stdpp Require Import gmultiset.
From Verif.Spec Require Export Unwind.
From Verif.Model Require Export Unwind.
From Verif.Proofs Require LayoutP.
From Verif.Proofs Require Import UsageP HeapP SortedP.
Local Open Scope N_scope.

(** ** Inversion of panics *)
Lemma bind_panicked {S A B} (m : M S A) (f : A → M S B) s s' : (m ≫= f) s = RPanic s' →
  m s = RPanic s' ∨ ∃ s1 a, m s = ROk s1 a ∧ f a s1 = RPanic s'.
Proof. unfold mbind, M_bind. destruct (m s) as [s1 a|s1|]; intros H; [right; by eauto|left; by injection H as ->|done]. Qed.
Lemma lift_panicked {S A} (p : pres A) (s s' : S) : lift p s = RPanic s' → p = PPanic ∧ s' = s.
Proof. unfold lift. destruct p; [done| |done]. by intros [= ->]. Qed.
Lemma zoom_panicked {S T A} (get : S → T) put (m : M T A) s s' : zoom get put m s = RPanic s' → ∃ t, m (get s) = RPanic t ∧ s' = put t s.
Proof. unfold zoom. destruct (m (get s)); [done| |done]. intros [= <-]. by eauto. Qed.
Lemma ret_panicked {S A} (a : A) (s s' : S) : (mret a : M S A) s = RPanic s' → False.
Proof. done. Qed.
Lemma mod_panicked {S} f (s s' : S) : modS f s = RPanic s' → False.
Proof. done. Qed.
Lemma get_panicked {S} (s s' : S) : getS s = RPanic s' → False.
Proof. done. Qed.

(** ** Calls that return *)
Lemma u_reserve_page_ok c id ai s s' l k : reserve_page c id ai s = ROk s' l → u_reserve_page ai s k = m_reserve_page ai s k.
Proof.
  unfold reserve_page, u_reserve_page. intros H. apply bind_ok in H as (s0 & x & [-> ->]%get_ok & H).
  apply bind_ok in H as (s2 & ps & [Hps ->]%lift_ok & H). apply bind_ok in H as (s2 & room & [Hroom ->]%lift_ok & H). unfold if_returned. rewrite Hps. by rewrite Hroom.
Qed.
Lemma u_add_entity_ok c id a s s1 ai s2 l k h : reserve_archetype c a s = ROk s1 ai → reserve_page c id ai s1 = ROk s2 l →
  u_add_entity c a s k h = m_add_entity c a s k h.
Proof.
  intros H1 H2. unfold u_add_entity, m_add_entity, u_reserve_archetype. rewrite H1. unfold mbind, M_bind.
  destruct (m_reserve_archetype a s k h); [|done..]. by rewrite (u_reserve_page_ok _ _ _ _ _ _ _ H2).
Qed.
Lemma u_on_ac_ok (f g : acp → M (list ev) acp) k h : (∀ k h, f k h = g k h) → m_on_ac f k h = m_on_ac g k h.
Proof. intros H. unfold m_on_ac, mbind, M_bind. by rewrite H. Qed.
Lemma u_temporary_ok c id a s s1 ai s2 l k h : reserve_archetype c a (st_ac s) = ROk s1 ai → reserve_page c id ai s1 = ROk s2 l →
  u_with_temporary c a s k h = m_with_temporary c a s k h.
Proof.
  intros H1 H2. unfold u_with_temporary, m_with_temporary. unfold mbind at 1 4. unfold M_bind at 1 4.
  destruct (m_arch_new (arch_count a) h) as [h1 t| |]; [|done..]. unfold mbind at 1 3. unfold M_bind at 1 3.
  rewrite (u_on_ac_ok _ (m_add_entity c a (st_ac s))); [done|]. intros. by eapply u_add_entity_ok.
Qed.
Lemma u_ensure_ok c e T s s' l k h : ensure_types c e T s = ROk s' l → u_ensure_types c e T s k h = m_ensure_types c e T s k h.
Proof.
  unfold ensure_types, u_ensure_types, m_ensure_types. intros H. apply bind_ok in H as (s0 & x & [-> ->]%get_ok & H).
  apply bind_ok in H as (s0 & has & [Hhas ->]%lift_ok & H). rewrite Hhas. cbn [if_returned]. unfold mbind at 1, M_bind at 1, lift at 1. destruct has.
  - apply bind_ok in H as (s0 & l0 & [Hl0 ->]%lift_ok & H). apply bind_ok in H as (s0 & ai & [Hai ->]%lift_ok & H).
    apply bind_ok in H as (s0 & a & [Ha ->]%lift_ok & H). rewrite Hl0. cbn [if_returned]. unfold mbind at 1, M_bind at 1, lift at 1. rewrite Hai. cbn [if_returned].
    unfold mbind at 1, M_bind at 1, lift at 1. rewrite Ha. cbn [if_returned]. unfold mbind at 1, M_bind at 1, lift at 1. destruct (is_include_ids c a T); [done|].
    apply bind_ok in H as (s0 & na & [Hna ->]%lift_ok & H). rewrite Hna. cbn [if_returned]. unfold mbind at 1, M_bind at 1, lift at 1.
    apply move_entity_parts in H as (ac1 & ai' & ac2 & l2 & H1 & H2 & Hf). by eapply u_temporary_ok.
  - apply bind_ok in H as (s0 & a & [Ha ->]%lift_ok & H). rewrite Ha. cbn [if_returned]. unfold mbind at 1, M_bind at 1, lift at 1.
    apply bind_ok in H as (s0 & l1 & (t & Hm & ->)%zoom_ok & H). unfold ac_add_entity in Hm. apply bind_ok in Hm as (ac1 & ai & H1 & H2).
    by eapply u_temporary_ok.
Qed.
Lemma u_order_ok c g s t0 i k h : reserve_group c g (st_orders s) = ROk t0 i →
  (o ← u_reserve_group c (st_orders s) g (ps_orders k); mret (ps_set_orders o k)) h =
  (o ← m_reserve_group c (st_orders s) g (ps_orders k); mret (ps_set_orders o k)) h.
Proof. intros H. unfold u_reserve_group. by rewrite H. Qed.
Lemma u_step_ok c o s s' r k h : step c o s = ROk s' r → u_step c o s k h = m_step c o s k h.
Proof.
  intros H. assert (∀ (m : M store unit), no_out m s = ROk s' r → m s = ROk s' tt) as Hno.
  { intros m Hm. unfold no_out in Hm. apply bind_ok in Hm as (s1 & [] & Hm & [_ ->]%ret_ok). done. }
  destruct o as [|a|e|e vals|e T|e vals|q f|t e|t e|g e|g e to|g e to|g e]; cbn [step m_step u_step] in *; try done.
  - apply bind_ok in H as (s1 & e & H & [-> ->]%ret_ok). unfold create_entity in H. apply bind_ok in H as (s2 & e2 & H & H'). unfold u_register. by rewrite H.
  - apply bind_ok in H as (s1 & e & H & [-> ->]%ret_ok). unfold create_entity_with_archetype in H. apply bind_ok in H as (s2 & e2 & H & H').
    apply bind_ok in H' as (s3 & l & (t & Hm & ->)%zoom_ok & H'). unfold ac_add_entity in Hm. apply bind_ok in Hm as (ac1 & ai & H1 & H2).
    unfold u_create_with, m_create_with, u_register. rewrite H. unfold mbind, M_bind. destruct (m_register c s k h) as [h1 k1| |]; [|done..].
    apply u_on_ac_ok. intros. by eapply u_add_entity_ok.
  - apply Hno in H. unfold add_components in H. unfold u_add_components, m_add_components. apply bind_ok in H as (s0 & x & [-> ->]%get_ok & H).
    apply bind_ok in H as (s0 & alive & [Hal ->]%lift_ok & H). rewrite Hal. cbn [if_returned]. unfold mbind at 1, M_bind at 1, lift at 1.
    destruct alive; simpl in *; [|done]. apply bind_ok in H as (s1 & l & H & H'). by eapply u_ensure_ok.
  - apply Hno in H. unfold remove_components in H. unfold u_remove_components, m_remove_components. apply bind_ok in H as (s0 & x & [-> ->]%get_ok & H).
    apply bind_ok in H as (s0 & ok & [Hok ->]%lift_ok & H). rewrite Hok. cbn [if_returned]. unfold mbind at 1, M_bind at 1, lift at 1.
    destruct ok; cbn [negb] in *; [|done].
    apply bind_ok in H as (s0 & l0 & [Hl0 ->]%lift_ok & H). apply bind_ok in H as (s0 & ai & [Hai ->]%lift_ok & H).
    apply bind_ok in H as (s0 & a & [Ha ->]%lift_ok & H). rewrite Hl0. cbn [if_returned]. unfold mbind at 1, M_bind at 1, lift at 1. rewrite Hai. cbn [if_returned].
    unfold mbind at 1, M_bind at 1, lift at 1. rewrite Ha. cbn [if_returned]. unfold mbind at 1, M_bind at 1, lift at 1.
    apply bind_ok in H as (s0 & na & [Hna ->]%lift_ok & H). rewrite Hna. cbn [if_returned]. unfold mbind at 1, M_bind at 1, lift at 1.
    apply bind_ok in H as (s0 & l & H & [_ ->]%ret_ok).
    apply move_entity_parts in H as (ac1 & ai' & ac2 & l2 & H1 & H2 & Hf). by eapply u_temporary_ok.
  - apply Hno in H. unfold add_tag, on_tags in H. apply zoom_ok in H as (t' & H & ->). unfold u_tags_add. by rewrite H.
  - apply Hno in H. unfold add_order, on_orders in H. apply zoom_ok in H as (t' & H & ->). unfold orders_add in H.
    apply bind_ok in H as (t0 & i & H0 & H). by eapply u_order_ok.
  - apply Hno in H. unfold add_order_next, on_orders in H. apply zoom_ok in H as (t' & H & ->). unfold orders_add_next in H.
    apply bind_ok in H as (t0 & i & H0 & H). by eapply u_order_ok.
  - apply Hno in H. unfold add_order_prev, on_orders in H. apply zoom_ok in H as (t' & H & ->). unfold orders_add_prev in H.
    apply bind_ok in H as (t0 & i & H0 & H). by eapply u_order_ok.
Qed.

(** ** Shapes: what the blocks and the places of panics depend on *)
Definition tshape (s : tags) := (tg_ids s, length (tg_bvs s), tg_cap s).
Definition oshape (s : orders) := (og_ids s, length (og_fwd s), length (og_bwd s), length (og_head s), length (og_tail s), og_cap s).
Definition sh (s : store) := (ec_cap (st_ec s), afoot (st_ac s), tshape (st_tags s), oshape (st_orders s)).
Lemma sh_foot s s' : sh s' = sh s → foot s' = foot s.
Proof. unfold sh, foot, tshape, oshape, tfoot, ofoot, afoot. intros H. injection H as -> -> -> _ -> -> _ -> _ _ _ ->. done. Qed.
(** the tables of tags and groups are well-formed *)
Record tables (cap : N) (t : tags) (o : orders) : Prop := Tables {
  tb_tids : incr (tg_ids t);
  tb_tlen : length (tg_bvs t) = length (tg_ids t);
  tb_oids : incr (og_ids o);
  tb_ofwd : length (og_fwd o) = length (og_ids o);
  tb_obwd : length (og_bwd o) = length (og_ids o);
  tb_ohead : length (og_head o) = length (og_ids o);
  tb_otail : length (og_tail o) = length (og_ids o);
  tb_ocap : og_cap o = cap }.
Definition whole (s : store) : Prop := tables (ec_cap (st_ec s)) (st_tags s) (st_orders s).
Lemma tables_shape cap t o t' o' : tables cap t o → tshape t' = tshape t → oshape o' = oshape o → tables cap t' o'.
Proof. intros [] [= Ht1 Ht2 Ht3] [= Ho1 Ho2 Ho3 Ho4 Ho5 Ho6]. split; congruence. Qed.
Lemma whole_sh s s' : sh s' = sh s → whole s → whole s'.
Proof. unfold whole, sh. intros Hs Hw. pose proof (f_equal (λ x, x.1.1.1) Hs) as E1. cbn in E1. rewrite E1. eapply tables_shape; [done|exact (f_equal (λ x, x.1.2) Hs)|exact (f_equal snd Hs)]. Qed.
Lemma whole_ids s s' : ids_part s' = ids_part s → whole s → whole s'.
Proof. intros [= E1 E2 E3]. unfold whole. by rewrite E1, E2, E3. Qed.

Lemma grp_sh {A} i (m : M grp A) : keeps oshape (with_grp i m).
Proof.
  intros s. unfold with_grp, zoom. destruct (grp_at s i) as [g|]; [|done]. unfold oshape, grp_put. destruct (m g); simpl; by rewrite ?insert_length.
Qed.
Lemma orders_remove_all_sh id : keeps oshape (orders_remove_all id).
Proof.
  unfold orders_remove_all. apply keeps_bind_get. intros s0. generalize (seq 0 (length (og_ids s0))). intros is.
  induction is as [|i is IH]; simpl; [apply keeps_ret|]. apply keeps_bind; [apply grp_sh|done].
Qed.
Lemma orders_remove_sh c t id : keeps oshape (orders_remove c t id).
Proof. unfold orders_remove. apply keeps_bind_get. intros s1. destruct (get_group_index c s1 t); [apply grp_sh|apply keeps_ret]. Qed.
Lemma tags_remove_all_sh id : keeps tshape (tags_remove_all id).
Proof.
  intros s. unfold tags_remove_all, mbind, M_bind, getS, lift. destruct (bvs_map _ _) as [l| |] eqn:E; [|done..]. simpl. unfold tshape. simpl.
  by erewrite bvs_map_length.
Qed.
Lemma tags_remove_sh c t id : keeps tshape (tags_remove c t id).
Proof.
  intros s. unfold tags_remove, mbind, M_bind, getS, lift. destruct (c_bs c (tg_ids s) t) as [i|]; [|done].
  destruct (vget_unchecked (tg_bvs s) i) as [v| |]; [|done..]. destruct (bv_off v id) as [v'| |]; [|done..]. simpl. unfold tshape. simpl. by rewrite insert_length.
Qed.
Lemma on_ac_sh {A} (m : M ac A) : keeps afoot m → keeps sh (on_ac m).
Proof. intros Hm. apply (keeps_part _ afoot); [done|]. intros t s Ht. unfold sh. simpl. by rewrite Ht. Qed.
Lemma on_tags_sh {A} (m : M tags A) : keeps tshape m → keeps sh (on_tags m).
Proof. intros Hm. apply (keeps_part _ tshape); [done|]. intros t s Ht. unfold sh. simpl. by rewrite Ht. Qed.
Lemma on_orders_sh {A} (m : M orders A) : keeps oshape m → keeps sh (on_orders m).
Proof. intros Hm. apply (keeps_part _ oshape); [done|]. intros t s Ht. unfold sh. simpl. by rewrite Ht. Qed.
Lemma swap_remove_sh l : keeps sh (swap_remove_internal l).
Proof.
  unfold swap_remove_internal. apply keeps_bind; [apply on_ac_sh, ac_swap_remove_keeps|]. intros [id|]; [|apply keeps_ret]. unfold set_index_in_page. keeps.
Qed.
Lemma destroy_sh c e : keeps sh (destroy_entity c e).
Proof.
  unfold destroy_entity. apply keeps_bind_get. intros s0. apply keeps_bind; [apply keeps_lift|]. intros has.
  apply keeps_bind. { destruct has; [|apply keeps_ret]. apply keeps_bind; [apply keeps_lift|]. intros l. apply swap_remove_sh. }
  intros _. apply keeps_bind. { apply (keeps_part _ ec_cap); [unfold ec_destroy; keeps|]. intros t s Ht. unfold sh. simpl. by rewrite Ht. }
  intros _. apply keeps_bind; [apply on_tags_sh, tags_remove_all_sh|]. intros _. apply on_orders_sh, orders_remove_all_sh.
Qed.
Lemma set_components_sh c e vals : keeps sh (set_components c e vals).
Proof.
  intros s. unfold set_components, mbind, M_bind, getS, lift. destruct (get_components_refs _ _ _ _) as [[rs|]| |]; done.
Qed.
Lemma query_write_sh c q f : keeps sh (query_write c q f).
Proof.
  intros s. unfold query_write, mbind, M_bind, getS, lift. destruct (component_query c q s) as [it| |]; [|done..]. by destruct (write_loop _ _ _ _ _ _).
Qed.

(** ** Registration *)
Lemma ec_grow_panicked new s s' : ec_grow new s = RPanic s' → False.
Proof.
  unfold ec_grow. intros [H|(s0 & x & [-> ->]%get_ok & H)]%bind_panicked; [done|]. destruct (new <=? ec_cap s); [done|].
  apply bind_panicked in H as [[H _]%lift_panicked|(s1 & v & [_ ->]%lift_ok & H)].
  { unfold arealloc_filled, copy_prefix in H. by destruct (_ && _). }
  apply bind_panicked in H as [?|(s1 & [] & ->%mod_ok & H)]; [done|].
  apply bind_panicked in H as [[H _]%lift_panicked|(s1 & v' & [_ ->]%lift_ok & H)].
  { unfold bv_realloc, copy_prefix in H. destruct (_ =? _); [done|]. by destruct (_ && _). }
  by apply bind_panicked in H as [?|(s1 & [] & ->%mod_ok & H)].
Qed.
Lemma ec_grow_new_ver new s s' u id v : ec_cap s < new → ec_grow new s = ROk s' u → ec_cap s ≤ id → aget (ec_ver s') id = POk v → v = 0.
Proof.
  unfold ec_grow. intros Hlt H Hid Hv. apply bind_ok in H as (s0 & x & [-> ->]%get_ok & H). destruct (N.leb_spec new (ec_cap s)); [lia|].
  apply bind_ok in H as (s1 & ver & [Hver ->]%lift_ok & H). apply bind_ok in H as (s1 & [] & ->%mod_ok & H).
  apply bind_ok in H as (s1 & al & [_ ->]%lift_ok & H). apply bind_ok in H as (s1 & [] & ->%mod_ok & H). apply mod_ok in H as ->. simpl in Hv.
  unfold arealloc_filled, copy_prefix in Hver. destruct (_ && _) eqn:Hb; [|done]. injection Hver as <-. apply andb_true_iff in Hb as [Hb _]. apply N.leb_le in Hb.
  apply aget_ok in Hv. rewrite lookup_app_r in Hv by (rewrite take_length; lia). rewrite lookup_drop in Hv. unfold alloc_filled in Hv. apply lookup_replicate in Hv as [[= <-] _]. done.
Qed.
Lemma ec_create_panicked md s s' : ec_create md s = RPanic s' → ec_cap s < u32_size →
  ec_cap s' = ec_cap s ∧ ∀ k, w_ec_create md s k = mret k.
Proof.
  intros H Hc. unfold ec_create in H. apply bind_panicked in H as [?|(s0 & x & [-> ->]%get_ok & H)]; [done|]. unfold w_ec_create.
  assert (∀ s1 id, (∀ v, aget (ec_ver s1) id = POk v → md = Debug → v + 1 < u32_size) → 
    (s1 ← getS; al ← lift (bv_toggle (ec_alive s1) id); _ ← modS (ec_set_alive al); v ← lift (aget (ec_ver s1) id);
     version ← lift (u32_add md v 1); vers ← lift (aset (ec_ver s1) id version); _ ← modS (ec_set_ver vers); s2 ← getS;
     mret (Creation (Entity id version) (ec_cap s) (ec_cap s2))) s1 = RPanic s' → False) as Hno.
  { clear H. intros s1 id Hv H. apply bind_panicked in H as [?|(s0 & x & [-> ->]%get_ok & H)]; [done|].
    apply bind_panicked in H as [[H _]%lift_panicked|(s0 & al & [_ ->]%lift_ok & H)]; [by apply bv_upd_no_panic in H|].
    apply bind_panicked in H as [?|(s0 & [] & ->%mod_ok & H)]; [done|].
    apply bind_panicked in H as [[H _]%lift_panicked|(s0 & v & [Hg ->]%lift_ok & H)]; [unfold aget in H; by destruct (nlookup _ _) as [[]|]|].
    specialize (Hv _ Hg).
    apply bind_panicked in H as [[H _]%lift_panicked|(s0 & w & [_ ->]%lift_ok & H)].
    { unfold u32_add in H. destruct (N.ltb_spec (v + 1) u32_size); [done|]. destruct md; [|done]. specialize (Hv eq_refl). lia. }
    apply bind_panicked in H as [[H _]%lift_panicked|(s0 & ws & [_ ->]%lift_ok & H)]; [unfold aset in H; by destruct (_ <? _)|].
    apply bind_panicked in H as [?|(s0 & [] & ->%mod_ok & H)]; [done|]. by apply bind_panicked in H as [?|(s0 & x & [-> ->]%get_ok & H)]. }
  assert (∀ s1 id, 
    (s1 ← getS; al ← lift (bv_toggle (ec_alive s1) id); _ ← modS (ec_set_alive al); v ← lift (aget (ec_ver s1) id);
     version ← lift (u32_add md v 1); vers ← lift (aset (ec_ver s1) id version); _ ← modS (ec_set_ver vers); s2 ← getS;
     mret (Creation (Entity id version) (ec_cap s) (ec_cap s2))) s1 = RPanic s' → ec_cap s' = ec_cap s1) as Hcap.
  { intros s1 id. apply keeps_panicked. keeps. }
  apply bind_panicked in H as [H|(s1 & id & Hid & H)].
  - destruct (last (ec_gaps s)) as [g|]; [by apply bind_panicked in H as [?|(? & ? & _ & ?)]|].
    apply bind_panicked in H as [[H ->]%lift_panicked|(s0 & nf & [_ ->]%lift_ok & H)]. { split; [done|]. intros k. by rewrite H. }
    apply bind_panicked in H as [?|(s0 & [] & ->%mod_ok & H)]; [done|].
    apply bind_panicked in H as [H|(s0 & [] & _ & H)]; [|done]. destruct (will_grow_with_id s (ec_next s)); [|done]. by apply ec_grow_panicked in H.
  - destruct (last (ec_gaps s)) as [g|] eqn:Hl.
    + apply Hcap in H. rewrite H. by inv1 Hid.
    + apply bind_ok in Hid as (s3 & nf & [Hnf ->]%lift_ok & Hid). apply bind_ok in Hid as (s3 & [] & ->%mod_ok & Hid).
      apply bind_ok in Hid as (s3 & [] & Hg & Hid). apply ret_ok in Hid as [-> ->].
      destruct (will_grow_with_id s (ec_next s)) eqn:Ew.
      * exfalso. eapply Hno; [|exact H]. intros v Hv _. enough (v = 0) as -> by done. eapply ec_grow_new_ver; [|exact Hg| |exact Hv]; simpl; [lia|].
        unfold will_grow_with_id in Ew. apply N.leb_le in Ew. unfold as_u32 in Ew. by rewrite N.mod_small in Ew.
      * inv1 Hg. apply Hcap in H. rewrite H. split; [done|]. intros k. rewrite Hnf. cbn [if_returned]. unfold m_ec_create. by rewrite Hl, Ew.
Qed.
Lemma pbind_panicked {A B} (m : pres A) (f : A → pres B) : (m ≫= f) = PPanic → m = PPanic ∨ ∃ a, m = POk a ∧ f a = PPanic.
Proof. destruct m as [a| |]; simpl; [by eauto|by left|done]. Qed.
Lemma arealloc_panicked {A} (a : list (option A)) old new : arealloc a old new ≠ PPanic.
Proof. unfold arealloc, copy_prefix. destruct (_ =? _); [done|]. by destruct (_ && _). Qed.
Lemma bv_realloc_panicked v old new : bv_realloc v old new ≠ PPanic.
Proof. unfold bv_realloc, copy_prefix. destruct (_ =? _); [done|]. by destruct (_ && _). Qed.
Lemma links_grow_all_panicked l old new : links_grow_all l old new ≠ PPanic.
Proof.
  induction l as [|a l IH]; simpl; [done|]. intros [H|(a' & _ & [?|(r & _ & ?)]%pbind_panicked)]%pbind_panicked; [|done..].
  unfold links_grow in H. apply pbind_panicked in H as [?%arealloc_panicked|(? & _ & ?)]; done.
Qed.
Lemma bvs_grow_panicked l old new : bvs_map (λ v, bv_realloc v old new) l ≠ PPanic.
Proof.
  induction l as [|a l IH]; simpl; [done|]. intros [H|(a' & _ & [?|(r & _ & ?)]%pbind_panicked)]%pbind_panicked; [|done..].
  by apply bv_realloc_panicked in H.
Qed.
Lemma grow_entities_panicked md old s s' : og_cap (st_orders s) ≤ entities_capacity s → grow_entities md old s = RPanic s' → False.
Proof.
  intros Hc H. unfold grow_entities in H. apply bind_panicked in H as [?|(s0 & x & [-> ->]%get_ok & H)]; [done|].
  apply bind_panicked in H as [[H _]%lift_panicked|(s0 & a & [_ ->]%lift_ok & H)]; [by apply arealloc_panicked in H|].
  apply bind_panicked in H as [?|(s0 & [] & ->%mod_ok & H)]; [done|].
  apply bind_panicked in H as [[H _]%lift_panicked|(s0 & b & [_ ->]%lift_ok & H)]; [by apply arealloc_panicked in H|].
  apply bind_panicked in H as [?|(s0 & [] & ->%mod_ok & H)]; [done|].
  apply bind_panicked in H as [[H _]%lift_panicked|(s0 & v & [_ ->]%lift_ok & H)].
  { unfold bv_realloc, copy_prefix in H. destruct (_ =? _); [done|]. by destruct (_ && _). }
  apply bind_panicked in H as [?|(s0 & [] & ->%mod_ok & H)]; [done|].
  apply bind_panicked in H as [(t & H & _)%zoom_panicked|(s0 & [] & (t & _ & ->)%zoom_ok & H)].
  { unfold tags_grow in H. apply bind_panicked in H as [?|(s0 & x & [-> ->]%get_ok & H)]; [done|].
    apply bind_panicked in H as [[H _]%lift_panicked|(s0 & w & _ & H)]; [by apply bvs_grow_panicked in H|done]. }
  apply zoom_panicked in H as (o & H & _). unfold orders_grow in H. apply bind_panicked in H as [?|(s0 & x & [-> ->]%get_ok & H)]; [done|].
  apply bind_panicked in H as [[H _]%lift_panicked|(s0 & w & [_ ->]%lift_ok & H)].
  { unfold usize_sub in H. simpl in H. unfold entities_capacity in *. destruct (N.leb_spec (og_cap (st_orders s)) (ec_cap (st_ec s))); [done|lia]. }
  apply bind_panicked in H as [[H _]%lift_panicked|(s0 & x & [_ ->]%lift_ok & H)]; [by apply links_grow_all_panicked in H|].
  apply bind_panicked in H as [[H _]%lift_panicked|(s0 & y & [_ ->]%lift_ok & H)]; [by apply links_grow_all_panicked in H|done].
Qed.
Lemma register_panicked c s s' : register_new_entity c s = RPanic s' → whole s → ec_cap (st_ec s) < u32_size →
  sh s' = sh s ∧ ∀ k h, u_register c s k h = ROk h k.
Proof.
  intros H Hw Hc. pose proof H as H0. unfold register_new_entity in H. apply bind_panicked in H as [(t & H & ->)%zoom_panicked|(s1 & cr & (t & Hcr & ->)%zoom_ok & H)].
  - destruct (ec_create_panicked _ _ _ H Hc) as [Hcap Hk]. split; [unfold sh; simpl; by rewrite Hcap|]. intros k h. unfold u_register, w_register. rewrite H0, H.
    unfold mbind, M_bind. rewrite Hk. unfold mret, M_ret. by destruct k.
  - exfalso. apply bind_panicked in H as [H|(s1 & [] & _ & H)]; [|done]. destruct (container_was_grow cr); [|done].
    eapply grow_entities_panicked; [|exact H]. simpl. rewrite (tb_ocap _ _ _ Hw). unfold entities_capacity. simpl.
    by destruct (does_ec_create _ _ _ _ (ECP 0 0) Hcr) as (_ & _ & Hle & _).
Qed.

(** ** A program logic in which a block of offsets may be lost *)
Definition lost (L : blks) : Prop := L = ∅ ∨ ∃ p n, 0 < n ∧ L = {[+ (p, layout_of usize_t n) +]}.
Definition doesl {A : Type} (B : blks) (m : M (list ev) A) (B' : A → blks) (Q : A → Prop) : Prop :=
  ∀ F h, owns h (B ⊎ F) → ∃ h' a L, m h = ROk h' a ∧ Q a ∧ lost L ∧ owns h' (B' a ⊎ L ⊎ F).
Lemma does_doesl {A : Type} B (m : M (list ev) A) B' Q : does B m B' Q → doesl B m B' Q.
Proof.
  intros Hm F h Ho. destruct (Hm F h Ho) as (h' & a & Hr & HQ & Ho'). exists h', a, ∅. split_and!; [done..|by left|].
  by rewrite gmultiset_disj_union_right_id.
Qed.
Lemma doesl_before {A C : Type} B1 R B (m : M (list ev) A) B1' Q1 (f : A → M (list ev) C) B' Q :
  does B1 m B1' Q1 → B = B1 ⊎ R → (∀ a, Q1 a → doesl (B1' a ⊎ R) (f a) B' Q) → doesl B (m ≫= f) B' Q.
Proof.
  intros Hm -> Hf F h Ho. destruct (Hm (R ⊎ F) h) as (h1 & a & Hrun & HQ & Ho1). { by rewrite gmultiset_disj_union_assoc. }
  destruct (Hf a HQ F h1) as (h2 & b & L & Hrun2 & HQ2 & HL & Ho2). { by rewrite <- gmultiset_disj_union_assoc. }
  exists h2, b, L. split_and!; [|done..]. unfold mbind, M_bind. by rewrite Hrun.
Qed.
Lemma doesl_after {A C : Type} B1 R B (m : M (list ev) A) B1' Q1 (f : A → M (list ev) C) B' Q :
  doesl B1 m B1' Q1 → B = B1 ⊎ R → (∀ a, Q1 a → does (B1' a ⊎ R) (f a) B' Q) → doesl B (m ≫= f) B' Q.
Proof.
  intros Hm -> Hf F h Ho. destruct (Hm (R ⊎ F) h) as (h1 & a & L & Hrun & HQ & HL & Ho1). { by rewrite gmultiset_disj_union_assoc. }
  destruct (Hf a HQ (L ⊎ F) h1) as (h2 & b & Hrun2 & HQ2 & Ho2).
  { match goal with Ho : owns _ ?X |- owns _ ?Y => replace Y with X; [exact Ho|] end. ms. }
  exists h2, b, L. split_and!; [|done..|]. { unfold mbind, M_bind. by rewrite Hrun. }
  by rewrite <- gmultiset_disj_union_assoc.
Qed.
Lemma doesl_ret {A : Type} (a : A) B B' (Q : A → Prop) : Q a → B = B' a → doesl B (mret a) B' Q.
Proof. intros. by apply does_doesl, does_ret. Qed.
Lemma doesl_frame {A : Type} B1 R B (m : M (list ev) A) B1' B' (Q : A → Prop) :
  doesl B1 m B1' Q → B = B1 ⊎ R → (∀ a, B' a = B1' a ⊎ R) → doesl B m B' Q.
Proof.
  intros Hm -> HB F h Ho. destruct (Hm (R ⊎ F) h) as (h1 & a & L & Hrun & HQ & HL & Ho1). { by rewrite gmultiset_disj_union_assoc. }
  exists h1, a, L. split_and!; [done..|]. rewrite HB.
  match goal with Ho : owns _ ?X |- owns _ ?Y => replace Y with X; [exact Ho|] end. ms.
Qed.
Lemma doesl_conseq {A : Type} B (m : M (list ev) A) B1 B' (Q1 Q : A → Prop) :
  doesl B m B1 Q1 → (∀ a, Q1 a → Q a ∧ B' a = B1 a) → doesl B m B' Q.
Proof. intros Hm HB F h Ho. destruct (Hm F h Ho) as (h1 & a & L & Hrun & HQ & HL & Ho1). exists h1, a, L. destruct (HB a HQ) as [? ->]. done. Qed.
Lemma doesl_same {A : Type} s s' B (m : M (list ev) A) (pk : A → stp) : foot s' = foot s →
  doesl B m (λ a, st_blk s (pk a)) (λ a, st_fits s (pk a)) → doesl B m (λ a, st_blk s' (pk a)) (λ a, st_fits s' (pk a)).
Proof. intros Hf Hm. eapply doesl_conseq; [apply Hm|]. intros a Ha. exact (st_same s s' (pk a) Hf Ha). Qed.

(** ** Archetypes *)
(** The call is over, in one way or the other. *)
Definition over {S A} (m : M S A) (s s' : S) : Prop := (∃ a, m s = ROk s' a) ∨ m s = RPanic s'.
Lemma keeps_over {S X A} (π : S → X) (m : M S A) s s' : keeps π m → over m s s' → π s' = π s.
Proof. intros Hm [[a H]|H]; [by eapply keeps_ok|by eapply keeps_panicked]. Qed.
Lemma over_bind {S A B} (m : M S A) (f : A → M S B) s s' : over (m ≫= f) s s' →
  m s = RPanic s' ∨ ∃ s1 a, m s = ROk s1 a ∧ over (f a) s1 s'.
Proof.
  intros [[b (s1 & a & H1 & H2)%bind_ok]|[H|(s1 & a & H1 & H2)]%bind_panicked].
  - right. exists s1, a. split; [done|]. left. by exists b.
  - by left.
  - right. exists s1, a. split; [done|]. by right.
Qed.
Lemma over_lift {S A B} (p : pres A) (f : A → M S B) s s' : over (lift p ≫= f) s s' → (p = PPanic ∧ s' = s) ∨ ∃ a, p = POk a ∧ over (f a) s s'.
Proof. intros [[-> ->]%lift_panicked|(s1 & a & [-> ->]%lift_ok & H)]%over_bind; [by left|right; by exists a]. Qed.
Lemma over_get {S B} (f : S → M S B) s s' : over (getS ≫= f) s s' → over (f s) s s'.
Proof. by intros [?|(s1 & a & [-> ->]%get_ok & H)]%over_bind. Qed.
Lemma over_zoom {S T A} (get : S → T) put (m : M T A) s s' : over (zoom get put m) s s' → ∃ t, over m (get s) t ∧ s' = put t s.
Proof.
  intros [[a (t & H & ->)%zoom_ok]|(t & H & ->)%zoom_panicked]; exists t; (split; [|done]); [left; by exists a|by right].
Qed.

Lemma vset_panicked {A} (l : list A) i x : vset l i x = PPanic → l !! i = None.
Proof. unfold vset. by destruct (l !! i). Qed.
Lemma reserve_archetype_panicked c a s s' k : reserve_archetype c a s = RPanic s' → ac_fits s k →
  doesl (ac_blk s k) (w_reserve_archetype c a s k) (ac_blk s') (ac_fits s').
Proof.
  unfold reserve_archetype, w_reserve_archetype. intros H Hfit. pose proof Hfit as [Ha Hl].
  apply bind_panicked in H as [?|(s0 & x & [-> ->]%get_ok & H)]; [done|].
  destruct (find_arch (ac_archs s) 0 a) as [j|].
  { assert (s' = s) as ->. { destruct (c_bs c _ _); [|done]. apply bind_panicked in H as [[_ ->]%lift_panicked|(? & ? & _ & H)]; [done|]. by apply bind_panicked in H as [?|(? & ? & _ & ?)]. }
    by apply doesl_ret. }
  assert (∀ cap, calc_capacity (c_mode c) a = POk cap → 0 < arch_count a) as Hpos. { intros cap Hcap. destruct a; [by unfold calc_capacity in Hcap|unfold arch_count; simpl; lia]. }
  apply bind_panicked in H as [[H ->]%lift_panicked|(s2 & ly & [Hly ->]%lift_ok & H)].
  { unfold if_returned. destruct (calc_capacity (c_mode c) a) as [cap| |] eqn:Ec; [|by apply doesl_ret..]. rewrite H.
    specialize (Hpos _ eq_refl). intros F h Ho.
    destruct (does_alloc usize_t (arch_count a) (size_pos usize_t _ eq_refl Hpos) (ac_blk s k ⊎ F) h) as (h' & p & Hr & _ & Ho'). { by rewrite gmultiset_disj_union_left_id. }
    exists h', k, {[+ (p, layout_of usize_t (arch_count a)) +]}. split_and!; [|done|right; by eauto|].
    - unfold m_layout_new, mbind, M_bind. by rewrite Hr.
    - match goal with Ho : owns _ ?X |- owns _ ?Y => replace Y with X; [exact Ho|] end. ms. }
  pose proof Hly as Hly'. unfold layout_new in Hly'. apply pbind_ok in Hly' as (cap & Hcap & _). rewrite Hcap. cbn [if_returned]. specialize (Hpos _ Hcap). rewrite Hly. cbn [if_returned].
  apply does_doesl.
  apply (does_step ∅ (ac_blk s k) _ _ _ _ _ _ _ (does_alloc usize_t (arch_count a) (size_pos usize_t _ eq_refl Hpos))); [ms|]. intros l _.
  apply (does_step ∅ ({[+ (l, layout_of usize_t (arch_count a)) +]} ⊎ ac_blk s k) _ _ _ _ _ _ _ (does_arch_new _ Hpos)); [ms|]. intros n _.
  destruct (last (ac_free_archs s)) as [i|].
  - apply bind_panicked in H as [?|(s2 & [] & ->%mod_ok & H)]; [done|].
    apply bind_panicked in H as [[H%vset_panicked ->]%lift_panicked|(s2 & ar & [[Hk ->]%vset_inv ->]%lift_ok & H)].
    + rewrite H.
      apply (does_step _ ({[+ (l, layout_of usize_t (arch_count a)) +]} ⊎ ac_blk s k) _ _ _ _ _ _ _ (does_arch_drop (arch_count a) n)); [ms|]. intros [] _.
      apply (does_step _ (ac_blk s k) _ _ _ _ _ _ _ (does_free usize_t l (arch_count a))); [ms|]. intros [] _. apply does_ret; [done|]. 
      rewrite (ac_blk_foot (ac_set_free_archs (vpop (ac_free_archs s)) s) s k) by done. ms.
    + apply bind_panicked in H as [?|(s2 & [] & ->%mod_ok & H)]; [done|].
      apply bind_panicked in H as [[H ->]%lift_panicked|(s2 & lys & [_ ->]%lift_ok & H)]; [|by apply bind_panicked in H as [?|(? & ? & _ & ?)]].
      destruct (lookup_lt_is_Some_2 _ _ Hk) as [old Hold]. destruct (lookup_lt_is_Some_2 (pc_archs k) i) as [oldp Holdp]; [lia|]. rewrite Hold, Holdp.
      destruct (bsum_lookup (λ x, arch_blk (arch_count x.1) x.2) _ _ _ (zip_lookup _ _ _ _ _ Hold Holdp)) as (R1 & HR1 & HR1').
      eapply (does_step _ (arch_blk (arch_count a) n ⊎ {[+ (l, layout_of usize_t (arch_count a)) +]} ⊎ R1 ⊎
        bsum lay_blk (zip (ac_layouts s) (pc_layouts k)) ⊎ pages_blk (pc_pages k)) _ _ _ _ _ _ _ (does_arch_drop (arch_count old) oldp)).
      { unfold ac_blk, archs_blk. rewrite HR1. simpl. ms. }
      intros [] _.
      apply (does_step _ (arch_blk (arch_count a) n ⊎ R1 ⊎ bsum lay_blk (zip (ac_layouts s) (pc_layouts k)) ⊎ pages_blk (pc_pages k)) _ _ _ _ _ _ _ (does_free usize_t l (arch_count a))); [ms|].
      intros [] _. apply does_ret. { split; simpl; by rewrite ?insert_length. }
      unfold ac_blk, archs_blk. cbn [ac_archs ac_layouts ac_set_archs ac_set_layouts ac_set_free_archs pc_archs pc_layouts pc_pages].
      rewrite <- !insert_zip_with, HR1'. cbn [fst snd]. ms.
  - exfalso. by repeat (apply bind_panicked in H as [?|(? & ? & _ & H)]; [done|]).
Qed.
Lemma reserve_page_over c id ai s s' k : over (reserve_page c id ai) s s' → ac_fits s k →
  does (ac_blk s k) (u_reserve_page ai s k) (ac_blk s') (ac_fits s').
Proof.
  intros [[l H]|H] Hk. { rewrite (u_reserve_page_ok _ _ _ _ _ _ _ H). by eapply does_reserve_page. }
  unfold reserve_page in H. unfold u_reserve_page, m_reserve_page. apply bind_panicked in H as [?|(s0 & x & [-> ->]%get_ok & H)]; [done|].
  apply bind_panicked in H as [[H ->]%lift_panicked|(s2 & ps & [Hps ->]%lift_ok & H)]; [rewrite H; by apply does_ret|]. rewrite Hps. cbn [if_returned].
  apply bind_panicked in H as [[H ->]%lift_panicked|(s2 & room & [Hroom ->]%lift_ok & H)]; [rewrite H; by apply does_ret|]. rewrite Hroom. cbn [if_returned].
  eapply does_lift; [done|]. eapply does_lift; [done|]. destruct room as [pi|].
  { apply (keeps_panicked afoot) in H; [|apply ac_page_add_keeps]. apply does_ret; [by apply (ac_fits_foot s)|by rewrite (ac_blk_foot _ _ _ H)]. }
  assert (afoot s' = afoot s) as Hf. { revert H. apply keeps_panicked. keeps. }
  destruct (last (ac_free_pages s)).
  - apply does_ret; [by apply (ac_fits_foot s)|by rewrite (ac_blk_foot _ _ _ Hf)].
  - apply (does_step ∅ (ac_blk s k) _ _ _ _ _ _ _ does_page_new); [ms|]. intros p _. apply does_ret.
    + by apply (ac_fits_foot s).
    + rewrite (ac_blk_foot _ _ _ Hf). unfold ac_blk, pages_blk. simpl. rewrite bsum_app. simpl. ms.
Qed.
Lemma add_entity_over c id a s s' k : over (ac_add_entity c id a) s s' → ac_fits s k →
  doesl (ac_blk s k) (u_add_entity c a s k) (ac_blk s') (ac_fits s').
Proof.
  intros [H|(s1 & ai & H1 & H2)]%over_bind Hk; unfold u_add_entity, u_reserve_archetype.
  - rewrite H. eapply (doesl_after _ ∅); [by apply reserve_archetype_panicked|ms|]. intros k1 Hk1. apply does_ret; [done|]. ms.
  - rewrite H1. apply (doesl_before _ ∅ _ _ _ _ _ _ _ (does_reserve_archetype _ _ _ _ _ _ H1 Hk)); [ms|]. intros k1 Hk1. apply does_doesl.
    apply (does_frame _ ∅ _ _ _ _ _ (reserve_page_over _ _ _ _ _ _ H2 Hk1)); [ms|]. intros; ms.
Qed.
Lemma doesl_on_ac (m : acp → M (list ev) acp) s a' k : st_fits s k →
  doesl (ac_blk (st_ac s) (ps_ac k)) (m (ps_ac k)) (ac_blk a') (ac_fits a') →
  doesl (st_blk s k) (m_on_ac m k) (st_blk (st_set_ac a' s)) (st_fits (st_set_ac a' s)).
Proof.
  intros (Hc & Ho & Ha & Ht & Hg) Hm. unfold m_on_ac. apply (doesl_after _ (rest_blk s k) _ _ _ _ _ _ _ Hm); [apply st_blk_split|].
  intros k1 Hk1. apply does_ret; [by split_and!|]. rewrite st_blk_split. unfold rest_blk. simpl. done.
Qed.
Lemma temporary_over c a s id k ac' : over (ac_add_entity c id a) (st_ac s) ac' → a ≠ [] → st_fits s k →
  doesl (st_blk s k) (u_with_temporary c a s k) (st_blk (st_set_ac ac' s)) (st_fits (st_set_ac ac' s)).
Proof.
  intros H Hne Hk. assert (0 < arch_count a) as Hn. { destruct a; [done|]. unfold arch_count. simpl. lia. } unfold u_with_temporary.
  apply (doesl_before ∅ (st_blk s k) _ _ _ _ _ _ _ (does_arch_new _ Hn)); [ms|]. intros t _.
  eapply (doesl_after _ (arch_blk (arch_count a) t)).
  { apply doesl_on_ac; [done|]. eapply add_entity_over; [done|]. apply Hk. }
  { ms. }
  intros k1 Hk1. apply (does_step _ (st_blk (st_set_ac ac' s) k1) _ _ _ _ _ _ _ (does_arch_drop (arch_count a) t)); [ms|]. intros [] _.
  apply does_ret; [done|]. ms.
Qed.
(** What remains of a call that puts an entity into an archetype *)
Lemma move_entity_over c e a s s' : over (move_entity c e a) s s' →
  (∀ l, get_eia s (e_id e) = POk l → ∃ ai, arch_index_by_page (st_ac s) (ea_page l) = POk ai) →
  (s' = s ∧ get_eia s (e_id e) = PPanic) ∨ ∃ ac', over (ac_add_entity c (e_id e) a) (st_ac s) ac' ∧ foot s' = foot (st_set_ac ac' s).
Proof.
  intros H Hai. unfold move_entity in H. apply over_get in H. apply over_lift in H as [[Hp ->]|(prev & Hprev & H)]; [by left|]. right.
  destruct (Hai _ Hprev) as [ai Hpai]. apply over_lift in H as [[Hp _]|(pai & Hp & H)]; [congruence|].
  assert (∀ t, over (ac_move_entity c (e_id e) prev pai a) (st_ac s) t → ∃ ac', over (ac_add_entity c (e_id e) a) (st_ac s) ac' ∧ afoot t = afoot ac') as Hmv.
  { intros t Ht. unfold ac_move_entity in Ht. apply over_bind in Ht as [Ht|(ac1 & nai & H1 & Ht)].
    { exists t. split; [|done]. right. unfold ac_add_entity, mbind, M_bind. by rewrite Ht. }
    apply over_bind in Ht as [Ht|(ac2 & l2 & H2 & Ht)].
    { exists t. split; [|done]. right. unfold ac_add_entity, mbind, M_bind. by rewrite H1. }
    exists ac2. split. { left. exists l2. unfold ac_add_entity, mbind, M_bind. by rewrite H1. }
    revert Ht. apply keeps_over. keeps. }
  apply over_bind in H as [(t & Ht & ->)%zoom_panicked|(s1 & l1 & (t & Ht & ->)%zoom_ok & H)].
  - destruct (Hmv t (or_intror Ht)) as (ac' & ? & Hf). exists ac'. split; [done|]. unfold foot. simpl. by rewrite Hf.
  - destruct (Hmv t (or_introl (ex_intro _ _ Ht))) as (ac' & ? & Hf). exists ac'. split; [done|].
    transitivity (foot (st_set_ac t s)); [|unfold foot; simpl; by rewrite Hf].
    revert H. apply keeps_over. apply keeps_bind; [apply set_page_foot|]. intros _. apply keeps_bind; [apply set_idx_foot|]. intros _.
    apply keeps_bind; [apply swap_remove_foot|]. intros _. apply keeps_ret.
Qed.
Lemma ensure_over c e T s s' k : over (ensure_types c e T) s s' → st_fits s k →
  doesl (st_blk s k) (u_ensure_types c e T s k) (st_blk s') (st_fits s').
Proof.
  intros H Hk. assert (doesl (st_blk s k) (mret k) (st_blk s) (st_fits s)) as Hsame by (by apply doesl_ret).
  unfold ensure_types in H. unfold u_ensure_types. apply over_get in H.
  apply over_lift in H as [[Hp ->]|(has & Hp & H)]; rewrite Hp; cbn [if_returned]; [done|]. destruct has.
  - apply over_lift in H as [[Hl ->]|(l & Hl & H)]; rewrite Hl; cbn [if_returned]; [done|].
    apply over_lift in H as [[Hai ->]|(ai & Hai & H)]; rewrite Hai; cbn [if_returned]; [done|].
    apply over_lift in H as [[Ha ->]|(a & Ha & H)]; rewrite Ha; cbn [if_returned]; [done|]. destruct (is_include_ids c a T).
    { assert (s' = s) as ->; [|done]. by destruct H as [[? [_ ->]%ret_ok]|?]. }
    apply over_lift in H as [[Hn ->]|(n & Hn & H)]; rewrite Hn; cbn [if_returned]; [done|].
    apply move_entity_over in H as [[_ ?]|(ac' & H & Hf)]; [congruence| |].
    + apply (doesl_same _ _ _ _ id Hf). eapply temporary_over; [done|by eapply arch_new_ne|done].
    + intros l' Hl'. exists ai. congruence.
  - apply over_lift in H as [[Ha ->]|(a & Ha & H)]; rewrite Ha; cbn [if_returned]; [done|].
    assert (∃ ac', over (ac_add_entity c (e_id e) a) (st_ac s) ac' ∧ foot s' = foot (st_set_ac ac' s)) as (ac' & Hac & Hf).
    { apply over_bind in H as [(t & Ht & ->)%zoom_panicked|(s1 & l1 & (t & Ht & ->)%zoom_ok & H)].
      - exists t. split; [by right|done].
      - exists t. split; [left; by exists l1|]. revert H. apply keeps_over. apply keeps_bind; [apply set_location_foot|]. intros _. apply keeps_ret. }
    apply (doesl_same _ _ _ _ id Hf). eapply temporary_over; [done|by eapply with_components_ne|done].
Qed.

(** ** Tags and groups *)
Lemma vinsert_le {A} (l : list A) i x : (i ≤ length l)%nat → vinsert l i x = POk (take i l ++ x :: drop i l).
Proof. intros Hi. unfold vinsert. by rewrite (proj2 (Nat.leb_le _ _) Hi). Qed.
Lemma vinsert_length {A} (l : list A) i x : (i ≤ length l)%nat → length (take i l ++ x :: drop i l) = S (length l).
Proof. intros Hi. rewrite app_length. simpl. rewrite take_length, drop_length. lia. Qed.
Lemma bv_on_panicked v i : bv_on v i ≠ PPanic.
Proof. unfold bv_on, bv_upd. by destruct (nlookup v (i / 32)). Qed.
Lemma tag_bit_over i id s s' :
  over (s ← getS; v ← lift (vget_unchecked (tg_bvs s) i); v' ← lift (bv_on v id); putS (Tags (tg_ids s) (<[i := v']> (tg_bvs s)) (tg_cap s))) s s' → tshape s' = tshape s.
Proof.
  intros H%over_get. apply over_lift in H as [[_ ->]|(v & _ & H)]; [done|]. apply over_lift in H as [[_ ->]|(v' & _ & H)]; [done|].
  destruct H as [[[] ->%put_ok]|?]; [|done]. unfold tshape. simpl. by rewrite insert_length.
Qed.
Lemma tags_add_over c t id s s' cap o : search_ok (c_bs c) → tables cap s o → over (tags_add c t id) s s' →
  tables cap s' o ∧ tags_add c t id s = ROk s' tt.
Proof.
  intros Hbs Hw H. split.
  - unfold tags_add in H. apply over_get in H. destruct (search_cases _ _ t Hbs (tb_tids _ _ _ Hw)) as [(i & E & _)|(i & E & Hi & _ & Hinc)]; rewrite E in H.
    + apply over_bind in H as [?|(s1 & j & [-> ->]%ret_ok & H)]; [done|]. eapply tables_shape; [done|by eapply tag_bit_over|done].
    + rewrite !vinsert_le in H by (rewrite ?(tb_tlen _ _ _ Hw); done). apply over_bind in H as [?|(s1 & j & H1 & H)]; [done|].
      apply bind_ok in H1 as (? & ? & [[= <-] ->]%lift_ok & H1). apply bind_ok in H1 as (? & [] & ->%put_ok & H1).
      apply bind_ok in H1 as (? & ? & [[= <-] ->]%lift_ok & H1). apply bind_ok in H1 as (? & [] & ->%put_ok & H1). apply ret_ok in H1 as [-> ->].
      eapply tables_shape; [|by eapply tag_bit_over|done]. destruct Hw. split; simpl; try done. rewrite !vinsert_length by congruence. congruence.
  - destruct H as [[[] H]|H]; [done|]. exfalso.
    assert (∀ i s1, (s ← getS; v ← lift (vget_unchecked (tg_bvs s) i); v' ← lift (bv_on v id); putS (Tags (tg_ids s) (<[i := v']> (tg_bvs s)) (tg_cap s))) s1 = RPanic s' → False) as Hbit.
    { intros i s1 [?|(s2 & x & [-> ->]%get_ok & Hx)]%bind_panicked; [done|].
      apply bind_panicked in Hx as [[Hx _]%lift_panicked|(s2 & v & [_ ->]%lift_ok & Hx)]; [unfold vget_unchecked in Hx; by destruct (tg_bvs s1 !! i)|].
      apply bind_panicked in Hx as [[Hx _]%lift_panicked|(s2 & v' & [_ ->]%lift_ok & Hx)]; [by apply bv_on_panicked in Hx|done]. }
    unfold tags_add in H. apply bind_panicked in H as [?|(s0 & x & [-> ->]%get_ok & H)]; [done|].
    destruct (search_cases _ _ t Hbs (tb_tids _ _ _ Hw)) as [(i & E & _)|(i & E & Hi & _ & Hinc)]; rewrite E in H.
    + apply bind_panicked in H as [?|(s1 & j & _ & H)]; [done|by apply Hbit in H].
    + rewrite !vinsert_le in H by (rewrite ?(tb_tlen _ _ _ Hw); done). apply bind_panicked in H as [?|(s1 & j & _ & H)]; [done|by apply Hbit in H].
Qed.
Lemma reserve_group_total c g s cap t : search_ok (c_bs c) → tables cap t s → ∃ s' i, reserve_group c g s = ROk s' i ∧ tables cap t s'.
Proof.
  intros Hbs Hw. unfold reserve_group. destruct (search_cases _ _ g Hbs (tb_oids _ _ _ Hw)) as [(i & E & _)|(i & E & Hi & _ & Hinc)];
    unfold mbind, M_bind, getS; rewrite E; [by eexists _, _|]. pose proof Hw as [].
  rewrite !vinsert_le by congruence. simpl. eexists _, _. split; [done|]. split; simpl; rewrite ?vinsert_length; congruence.
Qed.
(** adding to an order group *)
Lemma add_group_over {A} c g (m : nat → M orders A) s s' cap t : (∀ i, keeps oshape (m i)) → search_ok (c_bs c) → tables cap t s →
  over (i ← reserve_group c g; m i) s s' → tables cap t s' ∧ ∃ t0 i, reserve_group c g s = ROk t0 i ∧ ofoot s' = ofoot t0.
Proof.
  intros Hm Hbs Hw H. destruct (reserve_group_total c g s cap t Hbs Hw) as (t0 & i & E & Hw'). apply over_bind in H as [?|(s1 & j & E' & H)]; [congruence|].
  rewrite E in E'. injection E' as <- <-. apply (keeps_over oshape) in H; [|done]. split; [by eapply tables_shape|]. exists t0, i. split; [done|].
  unfold ofoot. f_equal; [exact (f_equal snd H)|exact (f_equal (λ x, x.1.1.1.1.2) H)].
Qed.
Lemma u_order c g s t0 i t' k : reserve_group c g (st_orders s) = ROk t0 i → ofoot t' = ofoot t0 → st_fits s k →
  does (st_blk s k) (o ← u_reserve_group c (st_orders s) g (ps_orders k); mret (ps_set_orders o k)) (st_blk (st_set_orders t' s)) (st_fits (st_set_orders t' s)).
Proof. intros H Hf Hk. unfold u_reserve_group. rewrite H. by eapply does_order. Qed.

(** ** Calls of the API *)
Lemma no_out_over (m : M store unit) s s' : over (no_out m) s s' → over m s s'.
Proof. unfold no_out. intros [?|(s1 & [] & H & H')]%over_bind; [by right|]. left. exists tt. by destruct H' as [[? [_ ->]%ret_ok]|?]. Qed.
Lemma ec_create_mono md s s' : over (ec_create md) s s' → ec_cap s ≤ ec_cap s'.
Proof.
  unfold ec_create. intros H%over_get.
  assert (∀ s1, over (match last (ec_gaps s) with
     | Some id => _ ← modS (ec_set_gaps (vpop (ec_gaps s))); mret id
     | None => let id := ec_next s in nf ← lift (u32_add md id 1); _ ← modS (ec_set_next nf);
               _ ← (if will_grow_with_id s id then ec_grow (N.max (ec_cap s) 1 * 2) else mret tt); mret id end) s s1 → ec_cap s ≤ ec_cap s1) as Hid.
  { clear H. intros s1 H. destruct (last (ec_gaps s)).
    - apply N.eq_le_incl. symmetry. revert H. apply (keeps_over ec_cap). keeps.
    - cbv zeta in H. apply over_lift in H as [[_ ->]|(nf & _ & H)]; [lia|]. apply over_bind in H as [?|(s2 & [] & ->%mod_ok & H)]; [done|].
      apply over_bind in H as [H|(s2 & [] & Hg & H)].
      + destruct (will_grow_with_id _ _); [by apply ec_grow_panicked in H|done].
      + assert (s1 = s2) as -> by (by destruct H as [[? [_ ->]%ret_ok]|?]). destruct (will_grow_with_id _ _); [|by inv1 Hg].
        apply ec_grow_cap in Hg. simpl in Hg. lia. }
  apply over_bind in H as [H|(s1 & id & H1 & H)]; [apply Hid; by right|].
  etransitivity; [apply (Hid s1); left; by eexists|]. apply N.eq_le_incl. symmetry. revert H. apply (keeps_over ec_cap). keeps.
Qed.
Lemma grow_entities_ec md old : keeps st_ec (grow_entities md old).
Proof. unfold grow_entities, on_tags, on_orders. keeps. Qed.
Lemma register_mono c s s' : over (register_new_entity c) s s' → ec_cap (st_ec s) ≤ ec_cap (st_ec s').
Proof.
  unfold register_new_entity. intros [(t & H & ->)%zoom_panicked|(s1 & cr & (t & H & ->)%zoom_ok & H')]%over_bind.
  - apply ec_create_mono with (md := c_mode c). by right.
  - apply (keeps_over st_ec) in H'. { rewrite H'. apply ec_create_mono with (md := c_mode c). left. by eexists. }
    apply keeps_bind; [|intros _; apply keeps_ret]. destruct (container_was_grow cr); [apply grow_entities_ec|apply keeps_ret].
Qed.
Lemma register_whole c s s1 e : register_new_entity c s = ROk s1 e → whole s → whole s1.
Proof.
  unfold register_new_entity. intros (s2 & cr & (t & Hcr & ->)%zoom_ok & H)%bind_ok [Hw1 Hw2 Hw3 Hw4 Hw5 Hw6 Hw7 Hw8].
  destruct (does_ec_create _ _ _ _ (ECP 0 0) Hcr) as (Hb & Haf & _ & _).
  apply bind_ok in H as (s3 & [] & Hgr & [-> ->]%ret_ok). unfold container_was_grow in *. rewrite Haf, Hb in *.
  destruct (N.eqb_spec (ec_cap t) (ec_cap (st_ec s))) as [Heq|Hne]; simpl in *.
  - inv1 Hgr. split; simpl; first [done|congruence].
  - unfold grow_entities in Hgr. apply bind_ok in Hgr as (s0 & x & [-> ->]%get_ok & Hgr).
    do 3 (apply bind_ok in Hgr as (s4 & ? & [_ ->]%lift_ok & Hgr); apply bind_ok in Hgr as (s4 & [] & ->%mod_ok & Hgr)).
    apply bind_ok in Hgr as (s4 & [] & (tg' & Htg & ->)%zoom_ok & Hgr). apply zoom_ok in Hgr as (og' & Hog & ->).
    unfold tags_grow in Htg. apply bind_ok in Htg as (s4 & ? & [-> ->]%get_ok & Htg). apply bind_ok in Htg as (s4 & ? & [Hb1%bvs_map_length ->]%lift_ok & ->%put_ok).
    unfold orders_grow in Hog. apply bind_ok in Hog as (s4 & ? & [-> ->]%get_ok & Hog). apply bind_ok in Hog as (s4 & ? & [_ ->]%lift_ok & Hog).
    apply bind_ok in Hog as (s4 & ? & [Hb3%links_grow_length ->]%lift_ok & Hog). apply bind_ok in Hog as (s4 & ? & [Hb2%links_grow_length ->]%lift_ok & ->%put_ok).
    simpl in *. split; simpl; first [done|congruence].
Qed.
Lemma create_parts c s s' : over (create_entity c) s s' →
  register_new_entity c s = RPanic s' ∨ ∃ s1 e, register_new_entity c s = ROk s1 e ∧ sh s' = sh s1.
Proof.
  unfold create_entity. intros [?|(s1 & e & H1 & H)]%over_bind; [by left|]. right. exists s1, e. split; [done|].
  revert H. apply keeps_over. unfold disable_archetype. keeps.
Qed.
Lemma create_with_parts c a s s' : over (create_entity_with_archetype c a) s s' →
  register_new_entity c s = RPanic s' ∨ ∃ s1 e ac', register_new_entity c s = ROk s1 e ∧ over (ac_add_entity c (e_id e) a) (st_ac s1) ac' ∧ sh s' = sh (st_set_ac ac' s1).
Proof.
  unfold create_entity_with_archetype. intros [?|(s1 & e & H1 & H)]%over_bind; [by left|]. right. exists s1, e.
  apply over_bind in H as [(t & Ht & ->)%zoom_panicked|(s2 & l & (t & Ht & ->)%zoom_ok & H)].
  - exists t. split_and!; [done|by right|done].
  - exists t. split_and!; [done|left; by exists l|]. revert H. apply keeps_over. unfold set_location, set_page_index, set_index_in_page, enable_archetype. keeps.
Qed.
Lemma step_mono c o s s' : over (step c o) s s' → ec_cap (st_ec s) ≤ ec_cap (st_ec s').
Proof.
  assert (sh s' = sh s → ec_cap (st_ec s) ≤ ec_cap (st_ec s')) as Hsh. { intros H. apply N.eq_le_incl. symmetry. exact (f_equal (λ x, x.1.1.1) H). }
  assert (ids_part s' = ids_part s → ec_cap (st_ec s) ≤ ec_cap (st_ec s')) as Hids. { intros H. apply N.eq_le_incl. symmetry. exact (f_equal (λ x, ec_cap (x.1.1)) H). }
  assert (∀ {A} (m : M orders A), over (on_orders m) s s' → ec_cap (st_ec s) ≤ ec_cap (st_ec s')) as Hord. { intros A m (t & _ & ->)%over_zoom. done. }
  assert (∀ {A} (m : M tags A), over (on_tags m) s s' → ec_cap (st_ec s) ≤ ec_cap (st_ec s')) as Htag. { intros A m (t & _ & ->)%over_zoom. done. }
  intros H. destruct o as [|a|e|e vals|e T|e vals|q f|t e|t e|g e|g e to|g e to|g e]; cbn [step] in H; try apply no_out_over in H.
  - assert (over (create_entity c) s s') as [H1|(s1 & e & H1 & Hs)]%create_parts.
    { apply over_bind in H as [?|(s1 & e & ? & H)]; [by right|]. left. exists e. by destruct H as [[? [_ ->]%ret_ok]|?]. }
    + apply register_mono with (c := c). by right.
    + etransitivity; [apply register_mono with (c := c); left; by exists e|]. apply N.eq_le_incl. symmetry. exact (f_equal (λ x, x.1.1.1) Hs).
  - assert (over (create_entity_with_archetype c a) s s') as [H1|(s1 & e & ac' & H1 & _ & Hs)]%create_with_parts.
    { apply over_bind in H as [?|(s1 & e & ? & H)]; [by right|]. left. exists e. by destruct H as [[? [_ ->]%ret_ok]|?]. }
    + apply register_mono with (c := c). by right.
    + etransitivity; [apply register_mono with (c := c); left; by exists e|]. apply N.eq_le_incl. symmetry. exact (f_equal (λ x, x.1.1.1) Hs).
  - apply Hsh. revert H. apply keeps_over, destroy_sh.
  - apply Hids. revert H. apply keeps_over, add_components_keeps.
  - apply Hids. revert H. apply keeps_over, remove_components_keeps.
  - apply Hids. revert H. apply keeps_over, set_components_keeps.
  - apply Hids. revert H. apply keeps_over, query_write_keeps.
  - by eapply Htag.
  - by eapply Htag.
  - by eapply Hord.
  - by eapply Hord.
  - by eapply Hord.
  - by eapply Hord.
Qed.
Lemma step_whole c o s s' : search_ok (c_bs c) → over (step c o) s s' → ec_cap (st_ec s) < u32_size → whole s → whole s'.
Proof.
  intros Hbs H Hc Hw.
  destruct o as [|a|e|e vals|e T|e vals|q f|t e|t e|g e|g e to|g e to|g e]; cbn [step] in H; try apply no_out_over in H.
  - assert (over (create_entity c) s s') as [H1|(s1 & e & H1 & Hs)]%create_parts.
    { apply over_bind in H as [?|(s1 & e & ? & H)]; [by right|]. left. exists e. by destruct H as [[? [_ ->]%ret_ok]|?]. }
    + apply (whole_sh s); [|done]. by apply (register_panicked c).
    + apply (whole_sh s1); [done|]. by eapply register_whole.
  - assert (over (create_entity_with_archetype c a) s s') as [H1|(s1 & e & ac' & H1 & _ & Hs)]%create_with_parts.
    { apply over_bind in H as [?|(s1 & e & ? & H)]; [by right|]. left. exists e. by destruct H as [[? [_ ->]%ret_ok]|?]. }
    + apply (whole_sh s); [|done]. by apply (register_panicked c).
    + apply (whole_sh (st_set_ac ac' s1)); [done|]. apply (whole_ids s1); [done|]. by eapply register_whole.
  - eapply whole_sh; [|done]. revert H. apply keeps_over, destroy_sh.
  - eapply whole_ids; [|done]. revert H. apply keeps_over, add_components_keeps.
  - eapply whole_ids; [|done]. revert H. apply keeps_over, remove_components_keeps.
  - eapply whole_ids; [|done]. revert H. apply keeps_over, set_components_keeps.
  - eapply whole_ids; [|done]. revert H. apply keeps_over, query_write_keeps.
  - apply over_zoom in H as (t' & H & ->). by apply (tags_add_over c t (e_id e) (st_tags s)).
  - eapply whole_sh; [|done]. revert H. apply keeps_over, on_tags_sh, tags_remove_sh.
  - apply over_zoom in H as (t' & H & ->). by apply (add_group_over c g (λ i, with_grp i (grp_add (c_mode c) (e_id e))) (st_orders s)); [intros; apply grp_sh|..].
  - apply over_zoom in H as (t' & H & ->). by apply (add_group_over c g (λ i, with_grp i (grp_add_next (c_mode c) (e_id e) (e_id to))) (st_orders s)); [intros; apply grp_sh|..].
  - apply over_zoom in H as (t' & H & ->). by apply (add_group_over c g (λ i, with_grp i (grp_add_prev (c_mode c) (e_id e) (e_id to))) (st_orders s)); [intros; apply grp_sh|..].
  - eapply whole_sh; [|done]. revert H. apply keeps_over, on_orders_sh, orders_remove_sh.
Qed.

Lemma step_panicked c o s s' k : search_ok (c_bs c) → step c o s = RPanic s' → ec_cap (st_ec s) < u32_size → whole s → st_fits s k →
  if placing o then doesl (st_blk s k) (u_step c o s k) (st_blk s') (st_fits s') else does (st_blk s k) (u_step c o s k) (st_blk s') (st_fits s').
Proof.
  intros Hbs H Hc Hw Hk. assert (sh s' = sh s → does (st_blk s k) (mret k) (st_blk s') (st_fits s')) as Hsame.
  { intros Hf%sh_foot. apply (does_same _ _ _ _ id Hf). by apply does_ret. }
  assert (over (step c o) s s') as Ho by (by right).
  assert (∀ s1, register_new_entity c s = RPanic s1 → does (st_blk s k) (u_register c s k) (st_blk s1) (st_fits s1)) as Hreg.
  { intros s1 Hp. destruct (register_panicked _ _ _ Hp Hw Hc) as [Hs Hu]. apply sh_foot in Hs. intros F h Hown. exists h, k. destruct (st_same _ _ _ Hs Hk) as [Hf Hb]. rewrite Hb. by split_and!. }
  destruct o as [|a|e|e vals|e T|e vals|q f|t e|t e|g e|g e to|g e to|g e]; cbn [step u_step placing] in *; try apply no_out_over in Ho.
  - assert (over (create_entity c) s s') as [H1|(s1 & e & H1 & Hs)]%create_parts.
    { apply bind_panicked in H as [?|(s1 & e & ? & H)]; [by right|done]. }
    + by apply Hreg.
    + apply sh_foot in Hs. apply (does_same _ _ _ _ id Hs). unfold u_register. rewrite H1. by eapply does_register.
  - assert (over (create_entity_with_archetype c a) s s') as [H1|(s1 & e & ac' & H1 & Hac & Hs)]%create_with_parts.
    { apply bind_panicked in H as [?|(s1 & e & ? & H)]; [by right|done]. }
    + apply does_doesl. unfold u_create_with. apply (does_step _ ∅ _ _ _ _ _ _ _ (Hreg _ H1)); [ms|]. intros k1 Hk1. rewrite H1. apply does_ret; [done|]. ms.
    + apply sh_foot in Hs. apply (doesl_same _ _ _ _ id Hs). unfold u_create_with, u_register. rewrite H1.
      apply (doesl_before _ ∅ _ _ _ _ _ _ _ (does_register _ _ _ _ _ H1 Hk)); [ms|]. intros k1 Hk1.
      eapply (doesl_frame _ ∅). { apply (doesl_on_ac _ s1 ac' k1 Hk1). eapply add_entity_over; [done|]. apply Hk1. } { ms. } intros; cbn; ms.
  - apply Hsame. revert Ho. apply keeps_over, destroy_sh.
  - unfold add_components in Ho. unfold u_add_components. apply over_get in Ho.
    apply over_lift in Ho as [[Hp ->]|(alive & Hp & Ho)]; rewrite Hp; cbn [if_returned]; [by apply doesl_ret|]. destruct alive; simpl in *.
    + assert (∃ s1, over (ensure_types c e vals.*1) s s1 ∧ foot s' = foot s1) as (s1 & H1 & Hf).
      { apply over_bind in Ho as [?|(s1 & l & H1 & Ho)]; [exists s'; split; [by right|done]|]. exists s1. split; [left; by exists l|].
        revert Ho. apply keeps_over. keeps. }
      apply (doesl_same _ _ _ _ id Hf). by apply ensure_over.
    + assert (s' = s) as ->; [|by apply doesl_ret]. by destruct Ho as [[? [_ ->]%ret_ok]|?].
  - unfold remove_components in Ho. unfold u_remove_components. apply over_get in Ho.
    apply over_lift in Ho as [[Hp ->]|(ok & Hp & Ho)]; rewrite Hp; cbn [if_returned]; [by apply doesl_ret|]. destruct ok; simpl in *.
    + apply over_lift in Ho as [[Hl ->]|(l & Hl & Ho)]; rewrite Hl; cbn [if_returned]; [by apply doesl_ret|].
      apply over_lift in Ho as [[Hai ->]|(ai & Hai & Ho)]; rewrite Hai; cbn [if_returned]; [by apply doesl_ret|].
      apply over_lift in Ho as [[Ha ->]|(a & Ha & Ho)]; rewrite Ha; cbn [if_returned]; [by apply doesl_ret|].
      apply over_lift in Ho as [[Hn ->]|(n & Hn & Ho)]; rewrite Hn; cbn [if_returned]; [by apply doesl_ret|].
      assert (over (move_entity c e n) s s') as Hm. { apply over_bind in Ho as [?|(s1 & l1 & ? & Ho)]; [by right|]. left. exists l1. by destruct Ho as [[? [_ ->]%ret_ok]|?]. }
      apply move_entity_over in Hm as [[_ ?]|(ac' & Hac & Hf)]; [congruence| |].
      * apply (doesl_same _ _ _ _ id Hf). eapply temporary_over; [done|by eapply arch_new_ne|done].
      * intros l' Hl'. exists ai. congruence.
    + assert (s' = s) as ->; [|by apply doesl_ret]. by destruct Ho as [[? [_ ->]%ret_ok]|?].
  - apply Hsame. revert Ho. apply keeps_over, set_components_sh.
  - apply Hsame. revert Ho. apply keeps_over, query_write_sh.
  - exfalso. apply over_zoom in Ho as (t' & Ho & ->). destruct (tags_add_over _ _ _ _ _ _ _ Hbs Hw Ho) as [_ E].
    unfold no_out, add_tag, on_tags, zoom, mbind, M_bind in H. by rewrite E in H.
  - apply Hsame. revert Ho. apply keeps_over, on_tags_sh, tags_remove_sh.
  - apply over_zoom in Ho as (t' & Ho & ->). destruct (add_group_over c g (λ i, with_grp i (grp_add (c_mode c) (e_id e))) _ _ _ _ (λ i, grp_sh i _) Hbs Hw Ho) as (_ & t0 & i & E & Hf). by eapply u_order.
  - apply over_zoom in Ho as (t' & Ho & ->). destruct (add_group_over c g (λ i, with_grp i (grp_add_next (c_mode c) (e_id e) (e_id to))) _ _ _ _ (λ i, grp_sh i _) Hbs Hw Ho) as (_ & t0 & i & E & Hf). by eapply u_order.
  - apply over_zoom in Ho as (t' & Ho & ->). destruct (add_group_over c g (λ i, with_grp i (grp_add_prev (c_mode c) (e_id e) (e_id to))) _ _ _ _ (λ i, grp_sh i _) Hbs Hw Ho) as (_ & t0 & i & E & Hf). by eapply u_order.
  - apply Hsame. revert Ho. apply keeps_over, on_orders_sh, orders_remove_sh.
Qed.

(** ** Histories *)
Lemma interrupted_app tr tr' : interrupted (tr ++ tr') = (interrupted tr + interrupted tr')%nat.
Proof. induction tr as [|[o []] tr IH]; simpl; lia. Qed.
Definition offsets_blk (x : N * lay) : Prop := ∃ n, 0 < n ∧ x.2 = layout_of usize_t n.
(** [L]: the blocks lost so far *)
Definition missing (L : blks) (n : nat) : Prop := (∀ x, x ∈ L → offsets_blk x) ∧ (size L ≤ n)%nat.
Lemma store_whole md cap s : store_with_capacity md cap = POk s → whole s.
Proof. unfold store_with_capacity. intros (u & _ & [= <-])%pbind_ok. split; simpl; try done; constructor. Qed.
Lemma ends_over c o s x s' : ends c o s x s' → over (step c o) s s'.
Proof. destruct x; simpl; [left; by eexists|by right]. Qed.
Lemma prun_cap c cap tr s o x s' : prun c cap tr s → ends c o s x s' → ec_cap (st_ec s') < u32_size → ec_cap (st_ec s) < u32_size.
Proof. intros _ H%ends_over%step_mono. lia. Qed.
Lemma prun_whole c cap tr s : search_ok (c_bs c) → prun c cap tr s → ec_cap (st_ec s) < u32_size → whole s.
Proof.
  intros Hbs. induction 1 as [s Hs|tr s o x s' Hrun IH Hs]; intros Hc; [by eapply store_whole|].
  pose proof (prun_cap _ _ _ _ _ _ _ Hrun Hs Hc) as Hc1. apply (step_whole c o s s' Hbs); [by eapply ends_over|done|by apply IH].
Qed.
Lemma pmrun_prun c cap tr s k h : pmrun c cap tr s k h → prun c cap tr s.
Proof. induction 1; by econstructor. Qed.
Lemma doesl_run {A : Type} B L (m : M (list ev) A) B' Q h : doesl B m B' Q → owns h (B ⊎ L) → ∃ h' a L', m h = ROk h' a ∧ Q a ∧ lost L' ∧ owns h' (B' a ⊎ (L' ⊎ L)).
Proof. intros Hm Ho. destruct (Hm L h Ho) as (h' & a & L' & Hr & HQ & HL & Ho'). exists h', a, L'. rewrite gmultiset_disj_union_assoc. done. Qed.
Lemma ends_doesl c o s x s' k h L n : search_ok (c_bs c) → ends c o s x s' → ec_cap (st_ec s) < u32_size → whole s → st_fits s k →
  owns h (st_blk s k ⊎ L) → missing L n →
  ∃ h' k' L', u_step c o s k h = ROk h' k' ∧ st_fits s' k' ∧ owns h' (st_blk s' k' ⊎ L') ∧ missing L' (n + interrupted [(o, x)])%nat.
Proof.
  intros Hbs Hs Hc Hw Hk Ho [HL1 HL2]. destruct x as [r|]; simpl in *.
  - rewrite (u_step_ok _ _ _ _ _ _ _ Hs). destruct (does_m_step _ _ _ _ _ _ Hs Hk L h Ho) as (h' & k' & Hr & HQ & Ho'). exists h', k', L.
    split_and!; try done. by rewrite Nat.add_0_r.
  - pose proof (step_panicked _ _ _ _ _ Hbs Hs Hc Hw Hk) as Hd. destruct (placing o).
    + destruct (doesl_run _ _ _ _ _ _ Hd Ho) as (h' & k' & L' & Hr & HQ & HL & Ho'). exists h', k', (L' ⊎ L). split_and!; try done.
      destruct HL as [->|(p & m & Hm & ->)].
      * rewrite gmultiset_disj_union_left_id. split; [done|lia].
      * split.
        -- intros y [Hy|Hy]%gmultiset_elem_of_disj_union; [|by apply HL1]. apply gmultiset_elem_of_singleton in Hy as ->. by exists m.
        -- rewrite gmultiset_size_disj_union, gmultiset_size_singleton. lia.
    + destruct (Hd L h Ho) as (h' & k' & Hr & HQ & Ho'). exists h', k', L. split_and!; try done. by rewrite Nat.add_0_r.
Qed.
Lemma pmrun_owns c cap tr s k h : search_ok (c_bs c) → 0 < cap → pmrun c cap tr s k h → ec_cap (st_ec s) < u32_size →
  st_fits s k ∧ ∃ L, owns h (st_blk s k ⊎ L) ∧ missing L (interrupted tr).
Proof.
  intros Hbs Hcap. induction 1 as [s k h Hs Hm|tr s k h o x s' k' h' Hrun IH Hs Hm]; intros Hc.
  - destruct (does_ran _ _ _ _ _ _ _ (does_store_new _ _ _ Hs Hcap) owns_nil Hm) as [Hf Ho]. split; [done|]. exists ∅.
    rewrite gmultiset_disj_union_right_id. split; [done|]. split; [|by rewrite gmultiset_size_empty]. intros x []%gmultiset_not_elem_of_empty.
  - pose proof (pmrun_prun _ _ _ _ _ _ Hrun) as Hp. pose proof (prun_cap _ _ _ _ _ _ _ Hp Hs Hc) as Hc1. destruct (IH Hc1) as (Hf & L & Ho & HL).
    pose proof (prun_whole _ _ _ _ Hbs Hp Hc1) as Hw. destruct (ends_doesl _ _ _ _ _ _ _ _ _ Hbs Hs Hc1 Hw Hf Ho HL) as (h2 & k2 & L2 & Hr & Hf2 & Ho2 & HL2).
    rewrite Hm in Hr. injection Hr as <- <-. split; [done|]. exists L2. by rewrite interrupted_app.
Qed.
Lemma prun_pmrun c cap tr s : search_ok (c_bs c) → 0 < cap → prun c cap tr s → ec_cap (st_ec s) < u32_size → ∃ k h, pmrun c cap tr s k h.
Proof.
  intros Hbs Hcap. induction 1 as [s Hs|tr s o x s' Hrun IH Hs]; intros Hc.
  - destruct (does_run _ _ _ _ _ (does_store_new _ _ _ Hs Hcap) owns_nil) as (h & k & Hr & _ & _). exists k, h. by apply pmrun_init.
  - pose proof (prun_cap _ _ _ _ _ _ _ Hrun Hs Hc) as Hc1. destruct (IH Hc1) as (k & h & Hm).
    destruct (pmrun_owns _ _ _ _ _ _ Hbs Hcap Hm Hc1) as (Hf & L & Ho & HL). pose proof (prun_whole _ _ _ _ Hbs Hrun Hc1) as Hw.
    destruct (ends_doesl _ _ _ _ _ _ _ _ _ Hbs Hs Hc1 Hw Hf Ho HL) as (h2 & k2 & L2 & Hr & _). exists k2, h2. by eapply pmrun_step.
Qed.
Lemma owns_size h L m : owns h L → in_use h = Some m → (size m ≤ size L)%nat.
Proof.
  intros Ho Hm. unfold size, map_size, gmultiset_size. simpl. apply submseteq_length. apply NoDup_submseteq; [apply NoDup_map_to_list|].
  intros [p l] Hin%elem_of_map_to_list. apply gmultiset_elem_of_elements. by apply (owns_in_use _ _ _ Hm Ho).
Qed.
Lemma store_blocks_panics c cap tr s : cfg_ok c → prun c cap tr s → 0 < cap → ec_cap (st_ec s) < 2 ^ 32 →
  (∃ k h, pmrun c cap tr s k h) ∧
  ∀ k h, pmrun c cap tr s k h →
    allowed h ∧ ∃ h' m, m_store_drop s k h = ROk h' tt ∧ in_use h' = Some m ∧ (size m ≤ interrupted tr)%nat ∧
      (∀ p l, m !! p = Some l → ∃ n, 0 < n ∧ l = layout_of usize_t n) ∧
      ∀ p l, EAlloc p l ∈ h' → m !! p = Some l ∨ freed_once h' p l.
Proof.
  intros [Hbs _ _] Hrun Hcap Hc. split; [by apply prun_pmrun|]. intros k h Hm. destruct (pmrun_owns _ _ _ _ _ _ Hbs Hcap Hm Hc) as (Hf & L & Ho & HL1 & HL2).
  split; [by eapply owns_allowed|]. destruct (does_store_drop _ _ Hf L h Ho) as (h' & [] & Hr & _ & Ho'). rewrite gmultiset_disj_union_left_id in Ho'.
  pose proof Ho' as (Hn & m & Hm' & _). exists h', m. split_and!; [done..|pose proof (owns_size _ _ _ Ho' Hm'); lia| |].
  - intros p l Hin. apply (owns_in_use _ _ _ Hm' Ho') in Hin. by apply (HL1 (p, l)).
  - intros p l Hin. destruct (block_story _ _ _ _ Hn Hm' Hin) as [[? _]|[_ ?]]; [by left|by right].
Qed.
Lemma store_blocks_other_panics c cap tr s k h h' : cfg_ok c → 0 < cap → ec_cap (st_ec s) < 2 ^ 32 → interrupted tr = 0%nat →
  pmrun c cap tr s k h → m_store_drop s k h = ROk h' tt → all_freed h' ∧ ∀ p l, EAlloc p l ∈ h' → freed_once h' p l.
Proof.
  intros Hok Hcap Hc Hi Hm Hd. destruct (store_blocks_panics c cap tr s Hok (pmrun_prun _ _ _ _ _ _ Hm) Hcap Hc) as [_ H].
  destruct (H k h Hm) as (_ & h2 & m & Hd2 & Hu & Hs & _ & Hb). rewrite Hd in Hd2. injection Hd2 as <-.
  assert (m = ∅) as ->. { apply map_size_empty_inv. lia. } split; [done|]. intros p l Hin. by destruct (Hb p l Hin).
Qed.
Lemma pmrun_returned c cap tr s k h : pmrun c cap (all_returned tr) s k h ↔ mrun c cap tr s k h.
Proof.
  split.
  - intros H. remember (all_returned tr) as tr' eqn:E. revert tr E. induction H as [s k h Hs Hm|tr' s k h o x s' k' h' Hrun IH Hs Hm]; intros tr E.
    + destruct tr; [by apply mrun_init|done].
    + destruct tr as [|[o0 r0] tr0 _] using rev_ind; [by destruct tr'|]. unfold all_returned in E. rewrite fmap_app in E. apply app_inj_tail in E as [E [= -> ->]].
      simpl in Hs. eapply mrun_step; [by apply IH|done|]. by rewrite (u_step_ok _ _ _ _ _ _ _ Hs) in Hm.
  - induction 1 as [s k h Hs Hm|tr s k h o s' r k' h' Hrun IH Hs Hm]; [by apply pmrun_init|].
    unfold all_returned. rewrite fmap_app. eapply pmrun_step; [exact IH|exact Hs|]. by rewrite (u_step_ok _ _ _ _ _ _ _ Hs).
Qed.

(** ** A witness *)
Lemma p_exec_run c cap ops hs tr s k h h' tr' s' k' : pmrun c cap tr s k h → p_exec c ops hs tr s k h = ROk h' (tr', s', k') → pmrun c cap tr' s' k' h'.
Proof.
  revert hs tr s k h. induction ops as [|o ops IH]; intros hs tr s k h Hr; simpl.
  - by intros [[= -> -> ->] ->]%ret_ok.
  - intros (h1 & k1 & Hu & H)%bind_ok. destruct (step c (o hs) s) as [s1 r|s1|w] eqn:E; [| |by apply lift_ok in H as [? _]].
    + eapply IH; [|exact H]. by eapply pmrun_step.
    + eapply IH; [|exact H]. by eapply pmrun_step.
Qed.
Lemma p_exec0_run c cap ops h tr s k : p_exec0 c cap ops = ROk h (tr, s, k) → pmrun c cap tr s k h.
Proof.
  unfold p_exec0. destruct (store_with_capacity (c_mode c) cap) as [s0| |] eqn:E; [|done..]. intros (h1 & k1 & H1 & H)%bind_ok.
  eapply p_exec_run; [|exact H]. by apply pmrun_init.
Qed.
Definition ex_refused : list (list entity → op) := [λ _, OCreateWith LayoutP.refused].
Lemma lost_refuted : ¬ ∀ c cap tr s k h h', cfg_ok c → 0 < cap → pmrun c cap tr s k h → m_store_drop s k h = ROk h' tt → all_freed h'.
Proof.
  intros H. destruct (p_exec0 (ex_cfg Debug) 1 ex_refused) as [h [[tr s] k]| |] eqn:E; [|by vm_compute in E..].
  pose proof (p_exec0_run _ _ _ _ _ _ _ E) as Hm.
  destruct (m_store_drop s k h) as [h' []| |] eqn:E'.
  - specialize (H (ex_cfg Debug) 1 _ _ _ _ _ (ex_cfg_ok Debug) eq_refl Hm E'). clear Hm. vm_compute in E. injection E as <- <- <- <-. vm_compute in E'. injection E' as <-. vm_compute in H. discriminate H.
  - clear Hm. vm_compute in E. injection E as <- <- <- <-. by vm_compute in E'.
  - clear Hm. vm_compute in E. injection E as <- <- <- <-. by vm_compute in E'.
Qed.
(** A refused archetype, removal of all components, both caught; then growth, a tag, the refused archetype again. *)
Definition ex_caught : list (list entity → op) :=
  [ λ _, OCreate; λ hs, OAdd (h 0 hs) [(1, [1; 2; 3; 4])]; λ _, OCreateWith LayoutP.refused; λ hs, ORemove (h 0 hs) [1]; λ _, OCreate;
    λ hs, OTagAdd 7 (h 0 hs); λ _, OCreateWith LayoutP.refused ].
(** what became of the calls, the blocks in use before the store is dropped, and those in use afterwards *)
Definition p_life (c : cfg) (cap : N) (ops : list (list entity → op)) : option (list outcome * nat * list (N * lay)) :=
  match p_exec0 c cap ops with
  | ROk h (tr, s, k) =>
    match m_store_drop s k h with
    | ROk h' _ =>
      match in_use h, in_use h' with
      | Some m, Some m' => Some (snd <$> tr, size m, map_to_list m')
      | _, _ => None
      end
    | _ => None
    end
  | _ => None
  end.
