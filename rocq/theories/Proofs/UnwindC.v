(** UnwindC.v — components when calls panic and the panics are caught. *)
From Verif.Spec Require Export Caught.
From Verif.Proofs Require Import UnwindH UnwindT DiscP CompX QueryX RobustP ClientP.
Local Open Scope N_scope.

(** ** Debug builds *)
Definition droom (c : cfg) (tr : trace) (o : op) : Prop :=
  match o with
  | OCreateWith a => fits c a ∨ refuses c a
  | OAdd e vals => ∀ m, comps tr e (Some m) → let S := dom m ∪ list_to_set vals.*1 in fits_types c S ∨ refuses_types c S
  | ORemove e T => ∀ m, comps tr e (Some m) → let S := dom m ∖ list_to_set T in fits_types c S ∨ refuses_types c S
  | _ => True
  end.
Inductive dcrun (c : cfg) (cap : N) : list (op * outcome) → store → Prop :=
| dcrun_init s : store_with_capacity (c_mode c) cap = POk s → dcrun c cap [] s
| dcrun_step tr s o x s' : dcrun c cap tr s → healthy c (st_ac s) (asks (answered tr) o) → args_ok c o → droom c (answered tr) o →
    own (answered tr) o →
    (∀ e, o = ODestroy e → alive_in (answered tr) e) →
    (creating o = true → N.of_nat (creations tr) < 2 ^ 32 - 1) →
    (∀ r, x = Returned r → order_use_ok (answered tr) o) →
    ends c o s x s' → dcrun c cap (tr ++ [(o, x)]) s'.

(** ** Stores that differ in the archetype bits of some ids *)
Section veil.
Context (c : cfg) (P : N → Prop).

Definition alike (s s0 : store) : Prop :=
  ∃ v, s = st_set_has v s0 ∧ length v = length (st_has s0) ∧ ∀ id, ¬ P id → bit v id = bit (st_has s0) id.
Definition same {A} (x y : res store A) : Prop :=
  match x, y with
  | ROk s a, ROk s0 a0 => alike s s0 ∧ a = a0
  | RPanic s, RPanic s0 => alike s s0
  | RUB _, RUB _ => True
  | _, _ => False
  end.
Lemma same_bind {A B} (m m' : M store A) (k k' : A → M store B) s s0 : same (m s) (m' s0) →
  (∀ s1 s2 a, alike s1 s2 → same (k a s1) (k' a s2)) → same ((m ≫= k) s) ((m' ≫= k') s0).
Proof using. intros Hm Hk. unfold mbind, M_bind. destruct (m s), (m' s0); try done. destruct Hm as [Ha ->]. by apply Hk. Qed.
Lemma same_get {B} (k k' : store → M store B) s s0 : same (k s s) (k' s0 s0) → same ((getS ≫= k) s) ((getS ≫= k') s0).
Proof using. done. Qed.
Lemma same_ret {A} (a : A) s s0 : alike s s0 → same ((mret a : M store A) s) ((mret a : M store A) s0).
Proof using. done. Qed.
Lemma same_lift {A} (p p' : pres A) s s0 : p = p' → alike s s0 → same (lift p s) (lift p' s0).
Proof using. intros -> H. unfold lift. by destruct p'. Qed.
Lemma same_bind_lift {A B} (p : pres A) (k k' : A → M store B) s s0 : alike s s0 → (∀ a, p = POk a → same (k a s) (k' a s0)) →
  same ((lift p ≫= k) s) ((lift p ≫= k') s0).
Proof using. intros H Hk. unfold mbind, M_bind, lift. destruct p; [by apply Hk|done|done]. Qed.
Lemma same_mod f f' s s0 : alike (f s) (f' s0) → same (modS f s) (modS f' s0).
Proof using. done. Qed.
Lemma alike_ec s s0 : alike s s0 → st_ec s = st_ec s0. Proof using. by intros (v & -> & _). Qed.
Lemma alike_ac s s0 : alike s s0 → st_ac s = st_ac s0. Proof using. by intros (v & -> & _). Qed.
Lemma alike_page s s0 : alike s s0 → st_page s = st_page s0. Proof using. by intros (v & -> & _). Qed.
Lemma alike_idx s s0 : alike s s0 → st_idx s = st_idx s0. Proof using. by intros (v & -> & _). Qed.
Lemma alike_set_ec x s s0 : alike s s0 → alike (st_set_ec x s) (st_set_ec x s0). Proof using. intros (v & -> & H). by exists v. Qed.
Lemma alike_set_ac x s s0 : alike s s0 → alike (st_set_ac x s) (st_set_ac x s0). Proof using. intros (v & -> & H). by exists v. Qed.
Lemma alike_set_tags x s s0 : alike s s0 → alike (st_set_tags x s) (st_set_tags x s0). Proof using. intros (v & -> & H). by exists v. Qed.
Lemma alike_set_orders x s s0 : alike s s0 → alike (st_set_orders x s) (st_set_orders x s0). Proof using. intros (v & -> & H). by exists v. Qed.
Lemma alike_set_page x s s0 : alike s s0 → alike (st_set_page x s) (st_set_page x s0). Proof using. intros (v & -> & H). by exists v. Qed.
Lemma alike_set_idx x s s0 : alike s s0 → alike (st_set_idx x s) (st_set_idx x s0). Proof using. intros (v & -> & H). by exists v. Qed.
Lemma alike_set_has x y s s0 : alike s s0 → length x = length y → (∀ id, ¬ P id → bit x id = bit y id) → alike (st_set_has x s) (st_set_has y s0).
Proof using. intros (v & -> & _) Hl Hb. by exists x. Qed.
Lemma same_on_ec {A} (m : M ec A) s s0 : alike s s0 → same (on_ec m s) (on_ec m s0).
Proof using. intros H. unfold on_ec, zoom. rewrite (alike_ec _ _ H). destruct (m (st_ec s0)); simpl; try done; [split; [|done]|]; by apply alike_set_ec. Qed.
Lemma same_on_ac {A} (m : M ac A) s s0 : alike s s0 → same (on_ac m s) (on_ac m s0).
Proof using. intros H. unfold on_ac, zoom. rewrite (alike_ac _ _ H). destruct (m (st_ac s0)); simpl; try done; [split; [|done]|]; by apply alike_set_ac. Qed.
Lemma same_on_tags {A} (m : M tags A) s s0 : alike s s0 → same (on_tags m s) (on_tags m s0).
Proof using. intros H. unfold on_tags, zoom. assert (st_tags s = st_tags s0) as -> by by destruct H as (v & -> & _). destruct (m (st_tags s0)); simpl; try done; [split; [|done]|]; by apply alike_set_tags. Qed.
Lemma same_on_orders {A} (m : M orders A) s s0 : alike s s0 → same (on_orders m s) (on_orders m s0).
Proof using. intros H. unfold on_orders, zoom. assert (st_orders s = st_orders s0) as -> by by destruct H as (v & -> & _). destruct (m (st_orders s0)); simpl; try done; [split; [|done]|]; by apply alike_set_orders. Qed.

Lemma alike_eia s s0 id : alike s s0 → get_eia s id = get_eia s0 id.
Proof using. by intros (v & -> & _). Qed.
Lemma alike_alive s s0 e : alike s s0 → is_alive c s e = is_alive c s0 e.
Proof using. by intros (v & -> & _). Qed.
Lemma alike_has s s0 id : alike s s0 → ¬ P id → has_archetype s id = has_archetype s0 id.
Proof using.
  intros (v & -> & Hl & Hb) Hid. unfold has_archetype. simpl. destruct (decide (N.to_nat (id / 32) < length (st_has s0))%nat) as [Hlt|Hge].
  - rewrite !bv_get_lt by lia. by rewrite Hb.
  - unfold bv_get. rewrite !nlookup_lookup, (lookup_ge_None_2 v), (lookup_ge_None_2 (st_has s0)) by lia. done.
Qed.
Lemma alike_valid s s0 e : alike s s0 → (is_alive c s e = POk true → ¬ P (e_id e)) → is_valid_with_archetype c s e = is_valid_with_archetype c s0 e.
Proof using.
  intros H Hp. unfold is_valid_with_archetype. rewrite <- (alike_alive _ _ _ H). destruct (is_alive c s e) as [[]| |] eqn:E; try done. simpl. by apply alike_has, Hp.
Qed.

Lemma same_set_page id p s s0 : alike s s0 → same (set_page_index id p s) (set_page_index id p s0).
Proof using.
  intros H. unfold set_page_index. apply same_get. rewrite (alike_page _ _ H). apply same_bind; [by apply same_lift|]. intros s1 s2 a H1. by apply same_mod, alike_set_page.
Qed.
Lemma same_set_idx id p s s0 : alike s s0 → same (set_index_in_page id p s) (set_index_in_page id p s0).
Proof using.
  intros H. unfold set_index_in_page. apply same_get. rewrite (alike_idx _ _ H). apply same_bind; [by apply same_lift|]. intros s1 s2 a H1. by apply same_mod, alike_set_idx.
Qed.
Lemma same_enable id s s0 : alike s s0 → same (enable_archetype id s) (enable_archetype id s0).
Proof using.
  intros (v & -> & Hl & Hb). unfold enable_archetype, mbind, M_bind, getS, lift, modS. simpl.
  destruct (bv_on v id) as [v1| |] eqn:E1; destruct (bv_on (st_has s0) id) as [v2| |] eqn:E2; try (by apply bv_upd_no_panic in E1); try (by apply bv_upd_no_panic in E2).
  - apply bv_on_ok in E1 as [L1 B1], E2 as [L2 B2]. split; [|done]. exists v1. split; [done|]. simpl. split; [lia|]. intros i Hi. rewrite B1, B2. by rewrite Hb.
  - apply bv_upd_inv in E1. unfold bv_on in E2. destruct (bv_upd_lt (λ w, N.lor w (bv_mask id)) (st_has s0) id) as [? ?]; [lia|congruence].
  - apply bv_upd_inv in E2. unfold bv_on in E1. destruct (bv_upd_lt (λ w, N.lor w (bv_mask id)) v id) as [? ?]; [lia|congruence].
  - done.
Qed.
(** Whatever the bit was. *)
Lemma same_disable id s s0 : alike s s0 → same (disable_archetype id s) (disable_archetype id s0).
Proof using.
  intros (v & -> & Hl & Hb). unfold disable_archetype, mbind, M_bind, getS, lift, modS. simpl.
  destruct (bv_off v id) as [v1| |] eqn:E1; destruct (bv_off (st_has s0) id) as [v2| |] eqn:E2; try (by apply bv_upd_no_panic in E1); try (by apply bv_upd_no_panic in E2).
  - apply bv_off_ok in E1 as [L1 B1], E2 as [L2 B2]. split; [|done]. exists v1. split; [done|]. simpl. split; [lia|]. intros i Hi. rewrite B1, B2. by rewrite Hb.
  - apply bv_upd_inv in E1. unfold bv_off in E2. destruct (bv_upd_lt (λ w, N.land w (u32_not (bv_mask id))) (st_has s0) id) as [? ?]; [lia|congruence].
  - apply bv_upd_inv in E2. unfold bv_off in E1. destruct (bv_upd_lt (λ w, N.land w (u32_not (bv_mask id))) v id) as [? ?]; [lia|congruence].
  - done.
Qed.

Lemma bit_realloc v old new v' id : bv_realloc v old new = POk v' → bv_len old ≠ bv_len new → length v' = N.to_nat (bv_len new) ∧
  bit v' id = if decide (N.to_nat (id / 32) < N.to_nat (bv_len old))%nat then bit v id else false.
Proof using.
  unfold bv_realloc. intros H Hne. rewrite (proj2 (N.eqb_neq _ _) Hne) in H. unfold copy_prefix in H. destruct (_ && _) eqn:E; [|done].
  apply andb_true_iff in E as [E1%N.leb_le E2%N.leb_le]. injection H as <-. rewrite replicate_length in E2.
  split; [rewrite app_length, take_length, drop_length, replicate_length; lia|].
  unfold bit. case_decide as Hd.
  - rewrite lookup_app_l by (rewrite take_length; lia). by rewrite lookup_take by lia.
  - rewrite lookup_app_r by (rewrite take_length; lia). rewrite lookup_drop, take_length.
    destruct (replicate _ _ !! _) as [w|] eqn:Hw; [|done]. apply lookup_replicate in Hw as [-> _]. by rewrite N.bits_0.
Qed.
Lemma same_grow md old s s0 : alike s s0 → same (grow_entities md old s) (grow_entities md old s0).
Proof using.
  intros H. unfold grow_entities, entities_capacity. apply same_get. rewrite (alike_ec _ _ H), (alike_page _ _ H), (alike_idx _ _ H).
  set (new := ec_cap (st_ec s0)). clearbody new. destruct H as (v & -> & Hl & Hb). change (st_has (st_set_has v s0)) with v.
  assert (alike (st_set_has v s0) s0) as H by by exists v. generalize dependent (st_has s0). intros w Hl Hb. revert H.
  generalize (st_set_has v s0). intros s H.
  apply same_bind; [by apply same_lift|]. clear s H. intros s1 s2 a H. apply same_bind; [by apply same_mod, alike_set_page|]. clear s1 s2 H. intros s1 s2 [] H.
  apply same_bind; [by apply same_lift|]. clear s1 s2 H. intros s1 s2 b H. apply same_bind; [by apply same_mod, alike_set_idx|]. clear s1 s2 H. intros s1 s2 [] H.
  assert (∀ s1 s2, alike s1 s2 → same ((_ ← on_tags (tags_grow new); on_orders (orders_grow md new)) s1) ((_ ← on_tags (tags_grow new); on_orders (orders_grow md new)) s2)) as Hk.
  { clear. intros s1 s2 H. apply same_bind; [by apply same_on_tags|]. clear s1 s2 H. intros s1 s2 [] H. by apply same_on_orders. }
  destruct (bv_realloc v old new) as [v'| |] eqn:E1; destruct (bv_realloc w old new) as [w'| |] eqn:E2.
  - unfold mbind at 1 4, M_bind at 1 4, lift at 1 2. apply same_bind; [apply same_mod, alike_set_has; [done| |]|].
    + destruct (decide (bv_len old = bv_len new)) as [He|He].
      * unfold bv_realloc in E1, E2. rewrite (proj2 (N.eqb_eq _ _) He) in E1, E2. congruence.
      * by rewrite (proj1 (bit_realloc _ _ _ _ 0 E1 He)), (proj1 (bit_realloc _ _ _ _ 0 E2 He)).
    + intros id Hid. destruct (decide (bv_len old = bv_len new)) as [He|He].
      * unfold bv_realloc in E1, E2. rewrite (proj2 (N.eqb_eq _ _) He) in E1, E2. simplify_eq. by apply Hb.
      * rewrite (proj2 (bit_realloc _ _ _ _ id E1 He)), (proj2 (bit_realloc _ _ _ _ id E2 He)). by rewrite Hb.
    + intros s3 s4 [] H3. by apply Hk.
  - exfalso. unfold bv_realloc, copy_prefix in E1, E2. rewrite Hl in E1. repeat case_match; simplify_eq.
  - exfalso. unfold bv_realloc, copy_prefix in E1, E2. rewrite Hl in E1. repeat case_match; simplify_eq.
  - exfalso. unfold bv_realloc, copy_prefix in E1, E2. rewrite Hl in E1. repeat case_match; simplify_eq.
  - unfold mbind, M_bind, lift. done.
  - exfalso. unfold bv_realloc, copy_prefix in E1, E2. rewrite Hl in E1. repeat case_match; simplify_eq.
  - exfalso. unfold bv_realloc, copy_prefix in E1, E2. rewrite Hl in E1. repeat case_match; simplify_eq.
  - exfalso. unfold bv_realloc, copy_prefix in E1, E2. rewrite Hl in E1. repeat case_match; simplify_eq.
  - done.
Qed.
Lemma same_register s s0 : alike s s0 → same (register_new_entity c s) (register_new_entity c s0).
Proof using.
  intros H. unfold register_new_entity. apply same_bind; [by apply same_on_ec|]. clear s s0 H. intros s s0 cr H. apply same_bind; [|intros; by apply same_ret].
  destruct (container_was_grow cr); [by apply same_grow|by apply same_ret].
Qed.
Lemma same_location id l s s0 : alike s s0 → same (set_location id l s) (set_location id l s0).
Proof using.
  intros H. unfold set_location. apply same_bind; [by apply same_set_page|]. clear s s0 H. intros s s0 [] H. apply same_bind; [by apply same_set_idx|].
  clear s s0 H. intros s s0 [] H. by apply same_enable.
Qed.
Lemma same_swap l s s0 : alike s s0 → same (swap_remove_internal l s) (swap_remove_internal l s0).
Proof using.
  intros H. unfold swap_remove_internal. apply same_bind; [by apply same_on_ac|]. clear s s0 H. intros s s0 [id|] H; [by apply same_set_idx|by apply same_ret].
Qed.
Lemma same_move e a s s0 : alike s s0 → same (move_entity c e a s) (move_entity c e a s0).
Proof using.
  intros H. unfold move_entity. apply same_get. rewrite (alike_eia _ _ _ H), (alike_ac _ _ H).
  apply same_bind; [by apply same_lift|]. clear H s. intros s s1 prev H. apply same_bind; [by apply same_lift|]. clear H s s1. intros s s1 ai H.
  apply same_bind; [by apply same_on_ac|]. clear s s1 H. intros s s1 l H. apply same_bind; [by apply same_set_page|]. clear s s1 H. intros s s1 [] H.
  apply same_bind; [by apply same_set_idx|]. clear s s1 H. intros s s1 [] H. apply same_bind; [by apply same_swap|]. intros. by apply same_ret.
Qed.
Lemma same_assign pages s s0 : alike s s0 → alike (st_set_ac (ac_set_pages pages (st_ac s)) s) (st_set_ac (ac_set_pages pages (st_ac s0)) s0).
Proof using. intros H. rewrite (alike_ac _ _ H). by apply alike_set_ac. Qed.
Lemma same_add e vals s s0 : alike s s0 → (is_alive c s e = POk true → ¬ P (e_id e)) → same (add_components c e vals s) (add_components c e vals s0).
Proof using.
  intros H Hp. unfold add_components. apply same_get. rewrite <- (alike_alive _ _ _ H).
  apply same_bind_lift; [done|]. intros [] E; [|by apply same_ret]. cbn [negb]. specialize (Hp E). clear E. apply same_bind.
  { unfold ensure_types. apply same_get. rewrite (alike_has _ _ _ H Hp), (alike_eia _ _ _ H), (alike_ac _ _ H). apply same_bind; [by apply same_lift|].
    clear s H. intros s s1 [] H.
    - apply same_bind; [by apply same_lift|]. clear s s1 H. intros s s1 l H. apply same_bind; [by apply same_lift|]. clear s s1 H. intros s s1 ai H.
      apply same_bind; [by apply same_lift|]. clear s s1 H. intros s s1 a H. destruct (is_include_ids c a _); [by apply same_ret|].
      apply same_bind; [by apply same_lift|]. clear s s1 H. intros s s1 b H. by apply same_move.
    - apply same_bind; [by apply same_lift|]. clear s s1 H. intros s s1 a H. apply same_bind; [by apply same_on_ac|]. clear s s1 H. intros s s1 l H.
      apply same_bind; [by apply same_location|]. intros. by apply same_ret. }
  clear s s0 H. intros s s0 l H. apply same_get. rewrite (alike_ac _ _ H). apply same_bind; [by apply same_lift|]. clear s s0 H. intros s s0 v H.
  apply same_bind; [by apply same_lift|]. clear s s0 H. intros s s0 rs H. apply same_mod. rewrite (alike_ac _ _ H). by apply alike_set_ac.
Qed.
Lemma same_remove e T s s0 : alike s s0 → (is_alive c s e = POk true → ¬ P (e_id e)) → same (remove_components c e T s) (remove_components c e T s0).
Proof using.
  intros H Hp. unfold remove_components. apply same_get. rewrite <- (alike_valid _ _ _ H Hp). apply same_bind_lift; [done|]. intros [] _; [|by apply same_ret].
  cbn [negb]. rewrite (alike_eia _ _ _ H), (alike_ac _ _ H). apply same_bind_lift; [done|]. intros l _. apply same_bind_lift; [done|]. intros ai _.
  apply same_bind_lift; [done|]. intros a _. apply same_bind_lift; [done|]. intros b _. apply same_bind; [by apply same_move|]. intros. by apply same_ret.
Qed.
Lemma alike_refs e T s s0 : alike s s0 → (is_alive c s e = POk true → ¬ P (e_id e)) → get_components_refs c s e T = get_components_refs c s0 e T.
Proof using.
  intros H Hp. unfold get_components_refs. rewrite <- (alike_valid _ _ _ H Hp). destruct (is_valid_with_archetype c s e) as [[]| |]; try done. simpl.
  unfold get_page_index, get_index_in_page. by rewrite (alike_page _ _ H), (alike_idx _ _ H), (alike_ac _ _ H).
Qed.
Lemma same_set e vals s s0 : alike s s0 → (is_alive c s e = POk true → ¬ P (e_id e)) → same (set_components c e vals s) (set_components c e vals s0).
Proof using.
  intros H Hp. unfold set_components. apply same_get. rewrite (alike_refs _ _ _ _ H Hp). apply same_bind_lift; [done|]. intros [rs|] _; [|by apply same_ret].
  rewrite (alike_ac _ _ H). split; [|done]. by apply alike_set_ac.
Qed.
Lemma alike_query q s s0 : alike s s0 → component_query c q s = component_query c q s0.
Proof using. by intros (v & -> & _). Qed.
Lemma same_write q f s s0 : alike s s0 → same (query_write c q f s) (query_write c q f s0).
Proof using.
  intros H. unfold query_write. apply same_get. rewrite (alike_query _ _ _ H), (alike_ac _ _ H), (alike_ec _ _ H). apply same_bind_lift; [done|]. intros it _.
  apply same_bind_lift; [done|]. intros pages _. split; [|done]. by apply alike_set_ac.
Qed.
Lemma same_destroy e s s0 : alike s s0 → ¬ P (e_id e) → same (destroy_entity c e s) (destroy_entity c e s0).
Proof using.
  intros H Hp. unfold destroy_entity. apply same_get. rewrite (alike_has _ _ _ H Hp), (alike_eia _ _ _ H). apply same_bind_lift; [done|]. intros has _. apply same_bind.
  { destruct has; [|by apply same_ret]. apply same_bind_lift; [done|]. intros l _. by apply same_swap. }
  clear s s0 H. intros s s0 [] H. apply same_bind; [by apply same_on_ec|]. clear s s0 H. intros s s0 [] H. apply same_bind; [by apply same_on_tags|].
  clear s s0 H. intros s s0 [] H. by apply same_on_orders.
Qed.
Lemma same_out m s s0 : same (m s) (m s0) → same (no_out m s) (no_out m s0).
Proof using. intros H. unfold no_out. apply same_bind; [done|]. intros. by apply same_ret. Qed.
(** A call does the same in both, unless it is about one of the ids. *)
Lemma same_step o s s0 : alike s s0 → (∀ e, e ∈ handles o → is_alive c s e = POk true → ¬ P (e_id e)) → (∀ e, o = ODestroy e → ¬ P (e_id e)) →
  same (step c o s) (step c o s0).
Proof using.
  intros H Hp Hd. destruct o as [|a|e|e vals|e T|e vals|q f|t e|t e|g e|g e to|g e to|g e]; simpl; try apply same_out.
  - unfold create_entity. apply same_bind; [|by intros; apply same_ret]. apply same_bind; [by apply same_register|]. clear s s0 H Hp. intros s s0 e H.
    apply same_bind; [by apply same_disable|]. intros. by apply same_ret.
  - unfold create_entity_with_archetype. apply same_bind; [|by intros; apply same_ret]. apply same_bind; [by apply same_register|]. clear s s0 H Hp. intros s s0 e H.
    apply same_bind; [by apply same_on_ac|]. clear s s0 H. intros s s0 l H. apply same_bind; [by apply same_location|]. intros. by apply same_ret.
  - apply same_destroy; [done|by apply Hd].
  - apply same_add; [done|]. apply Hp. by left.
  - apply same_remove; [done|]. apply Hp. by left.
  - apply same_set; [done|]. apply Hp. by left.
  - by apply same_write.
  - by apply same_on_tags.
  - by apply same_on_tags.
  - by apply same_on_orders.
  - by apply same_on_orders.
  - by apply same_on_orders.
  - by apply same_on_orders.
Qed.
End veil.

(** ** Refused archetypes *)
Section refused.
Context (c : cfg) (Hc : cfg_ok c) (Hmd : c_mode c = Debug).
Lemma hrun_tidy cap tr s : hrun c cap tr s → tidy c (st_ac s).
Proof using Hc Hmd.
  induction 1 as [s H|tr s o s' r Hr IH Hh Ha Hro H].
  - unfold store_with_capacity in H. apply pbind_ok in H as ([] & _ & H). injection H as <-. simpl. split; simpl; [apply NoDup_nil_2|apply not_elem_of_nil|intros ????; rewrite lookup_nil; discriminate|intros ???; rewrite lookup_nil; discriminate].
  - destruct (hrun_state c Hc Hmd _ _ _ Hr) as (D & Hs & Hcs).
    destruct (step_evolved c Hc Hmd tr s o s' r D) as [[] _]; try done; [by apply healthy_at|by apply room_room_at].
Qed.
Lemma reserve_refused a s : tidy c s → ac_inv c s → arch_wf c a → refuses c a → reserve_archetype c a s = RPanic s.
Proof using.
  intros Ht Hi Hwf Hre. unfold reserve_archetype, mbind, M_bind, getS.
  pose proof (find_arch_spec (ac_archs s) 0 a) as Hf. destruct (find_arch (ac_archs s) 0 a) as [i|].
  - exfalso. destruct Hf as (j & x & _ & Hx & Hs). destruct (lookup_lt_is_Some_2 (ac_layouts s) j) as [lx Hlx].
    { rewrite (ac_lay_len _ _ Hi). by eapply lookup_lt_Some. }
    destruct (ac_arch_ok _ _ Hi _ _ _ Hx Hlx) as (Hxwf & _).
    assert (x = a) as -> by (apply (arch_wf_eq c); [done|done|by apply is_same_as_spec]).
    apply (td_lay _ _ Ht _ _ _ Hx) in Hlx. unfold refuses in Hre. congruence.
  - unfold lift. by rewrite Hre.
Qed.
Lemma set_ac_same s : st_set_ac (st_ac s) s = s. Proof using. by destruct s. Qed.
Lemma refused_add s I L D e vals m : comp_state c s I L D → tidy c (st_ac s) → e ∈ L → D !! e_id e = Some m → vals ≠ [] → NoDup vals.*1 →
  refuses_types c (dom m ∪ list_to_set vals.*1) → add_components c e vals s = RPanic s.
Proof using Hc.
  intros Hs Ht HL HD Hne Hnd Href. pose proof (cs_inv _ _ _ _ _ Hs) as Hi. pose proof (ci_ac _ _ _ _ Hi) as Hai. pose proof Hc as [Hbs _ _].
  destruct (cs_row _ _ _ _ _ _ Hs HL) as (m0 & HD0 & Hlt & Hrow). assert (m0 = m) as -> by congruence. clear HD0.
  unfold add_components. unfold mbind at 1, M_bind at 1, getS at 1. unfold mbind at 1, M_bind at 1. rewrite (cs_alive _ _ _ _ _ _ Hs Hlt), bool_decide_true by done. simpl.
  unfold mbind at 1, M_bind at 1. unfold ensure_types. unfold mbind at 1, M_bind at 1, getS at 1. unfold mbind at 1, M_bind at 1.
  destruct Hrow as [(p & k & Hlk & Hl & Hhas & _)|(Hbit & Hhas & ->)]; rewrite Hhas; simpl.
  - destruct (loc_page _ _ _ _ _ _ Hai Hl) as (pg & i & a & ly & _ & Hp2a & Ha & Hly & _ & Hwf & _).
    pose proof (loc_dom _ _ _ _ _ _ _ _ Hai Hl Hp2a Ha) as Hdom.
    unfold mbind at 1, M_bind at 1. rewrite (linked_eia _ _ _ _ Hlk). simpl. unfold mbind at 1, M_bind at 1, arch_index_by_page, vidx. rewrite Hp2a. simpl.
    unfold mbind at 1, M_bind at 1, vget_unchecked. rewrite Ha. simpl.
    destruct (is_include_ids c a vals.*1) eqn:E.
    + exfalso. rewrite is_include_ids_spec in E by first [done|apply Hwf]. assert (refuses c a) as Hra.
      { apply Href; [done|]. intros t. rewrite elem_of_union, elem_of_dom, elem_of_list_to_set, (Hdom t). split; [by left|]. intros [?|Hin]; [done|]. by apply E. }
      unfold refuses in Hra. rewrite (td_lay _ _ Ht _ _ _ Ha Hly) in Hra. done.
    + destruct (include_arch c a vals.*1 Hwf) as (Hnew & Hwf' & Hids'). unfold mbind at 1, M_bind at 1. rewrite Hnew. simpl.
      set (b := sort_cts _) in *. clearbody b. assert (refuses c b) as Hrb.
      { apply Href; [done|]. intros t. rewrite elem_of_union, elem_of_dom, elem_of_list_to_set, Hids', (Hdom t). done. }
      unfold move_entity. unfold mbind at 1, M_bind at 1, getS at 1. unfold mbind at 1, M_bind at 1. rewrite (linked_eia _ _ _ _ Hlk). simpl.
      unfold mbind at 1, M_bind at 1, arch_index_by_page, vidx. rewrite Hp2a. simpl. unfold mbind at 1, M_bind at 1, on_ac, zoom, ac_move_entity. unfold mbind at 1, M_bind at 1.
      rewrite (reserve_refused b) by done. by rewrite set_ac_same.
  - destruct (with_arch c vals.*1) as (a & Hw & Hwf & Hids); [by destruct vals|done|]. unfold mbind at 1, M_bind at 1. rewrite Hw. simpl.
    unfold mbind at 1, M_bind at 1, on_ac, zoom, ac_add_entity. unfold mbind at 1, M_bind at 1. rewrite (reserve_refused a); [by rewrite set_ac_same|done..|].
    apply Href; [done|]. intros t. rewrite Hids, elem_of_union, dom_empty_L, elem_of_list_to_set. clear. set_solver.
Qed.
Lemma refused_remove s I L D e T m : comp_state c s I L D → tidy c (st_ac s) → e ∈ L → D !! e_id e = Some m → m ≠ ∅ →
  (∃ t, is_Some (m !! t) ∧ t ∉ T) →
  refuses_types c (dom m ∖ list_to_set T) → remove_components c e T s = RPanic s.
Proof using Hc.
  intros Hs Ht HL HD Hne Hsome Href. pose proof (cs_inv _ _ _ _ _ Hs) as Hi. pose proof (ci_ac _ _ _ _ Hi) as Hai. pose proof Hc as [Hbs _ _].
  destruct (cs_row _ _ _ _ _ _ Hs HL) as (m0 & HD0 & Hlt & Hrow). assert (m0 = m) as -> by congruence. clear HD0.
  destruct Hrow as [(p & k & Hlk & Hl & Hhas & _)|(Hbit & Hhas & ->)]; [|done].
  unfold remove_components. unfold mbind at 1, M_bind at 1, getS at 1. unfold mbind at 1, M_bind at 1, is_valid_with_archetype.
  rewrite (cs_alive _ _ _ _ _ _ Hs Hlt), bool_decide_true by done. simpl. rewrite Hhas. simpl.
  destruct (loc_page _ _ _ _ _ _ Hai Hl) as (pg & i & a & ly & _ & Hp2a & Ha & Hly & _ & Hwf & _).
  pose proof (loc_dom _ _ _ _ _ _ _ _ Hai Hl Hp2a Ha) as Hdom.
  unfold mbind at 1, M_bind at 1. rewrite (linked_eia _ _ _ _ Hlk). simpl. unfold mbind at 1, M_bind at 1, arch_index_by_page, vidx. rewrite Hp2a. simpl.
  unfold mbind at 1, M_bind at 1, vget_unchecked. rewrite Ha. simpl.
  destruct (exclude_arch c a T Hwf) as (Hids' & [(_ & Hnew & Hwf')|(Hall & _)]).
  2:{ destruct Hsome as (t & H1 & H2). destruct H2. apply Hall. by apply Hdom. }
  unfold mbind at 1, M_bind at 1. rewrite Hnew. simpl. set (b := sort_cts _) in *. clearbody b. assert (refuses c b) as Hrb.
  { apply Href; [done|]. intros t. rewrite elem_of_difference, elem_of_dom, elem_of_list_to_set, Hids', (Hdom t). done. }
  unfold mbind at 1, M_bind at 1. unfold move_entity. unfold mbind at 1, M_bind at 1, getS at 1. unfold mbind at 1, M_bind at 1. rewrite (linked_eia _ _ _ _ Hlk). simpl.
  unfold mbind at 1, M_bind at 1, arch_index_by_page, vidx. rewrite Hp2a. simpl. unfold mbind at 1, M_bind at 1, on_ac, zoom, ac_move_entity. unfold mbind at 1, M_bind at 1.
  rewrite (reserve_refused b) by done. by rewrite set_ac_same.
Qed.
End refused.

(** ** The history without panics *)
Definition lost (F : list entity) (id : N) : Prop := ∃ f, f ∈ F ∧ e_id f = id.
Record tells (tr : list (op * outcome)) (tr' : trace) (F : list entity) : Prop := Tells {
  tl_expl : explains tr tr' F;
  tl_issued : ∀ e, e ∈ issued tr' ↔ e ∈ issued (answered tr) ∨ e ∈ F;
  tl_disj : ∀ e, e ∈ F → e ∉ issued (answered tr);
  tl_comps : ∀ e x, e ∉ F → comps tr' e x → comps (answered tr) e x;
  tl_types : ∀ e, e ∉ F → types tr' e = types (answered tr) e;
  tl_alive : ∀ e, e ∉ F → alive_in tr' e ↔ alive_in (answered tr) e;
  tl_lost : ∀ e, e ∈ F → alive_in tr' e ∧ types tr' e = Some ∅;
  tl_members : ∀ g, members tr' g = members (answered tr) g;
  tl_length : (length (issued tr') ≤ creations tr)%nat;
}.
Lemma creations_snoc tr o x : creations (tr ++ [(o, x)]) = (creations tr + if creating o then 1 else 0)%nat.
Proof. unfold creations. rewrite List.filter_app, app_length. simpl. by destruct (creating o). Qed.
Lemma tells_nil : tells [] [] [].
Proof.
  split; try done.
  - constructor.
  - intros e. split; [by left|]. by intros [?|?].
  - intros e H. by apply elem_of_nil in H.
  - intros e H. by apply elem_of_nil in H.
Qed.
Lemma tells_nothing tr tr' F o : tells tr tr' F → creating o = false → tells (tr ++ [(o, Panicked)]) tr' F.
Proof.
  intros [] Hcr. split; try (rewrite answered_panicked); try done; [by constructor|].
  rewrite creations_snoc. lia.
Qed.
Lemma tells_returned c o s s' tr tr' F r : tells tr tr' F → own (answered tr) o → step c o s = ROk s' r → NoDup (issued (tr' ++ [(o, r)])) →
  tells (tr ++ [(o, Returned r)]) (tr' ++ [(o, r)]) F.
Proof.
  intros Ht Hown Hst Hnd. pose proof Ht as [He Hi Hd Hc Hty Ha Hl Hm Hn].
  assert (∀ f, f ∈ F → f ∉ handles o) as Hf. { intros f Hf Ho. by apply (Hd f Hf), Hown. }
  assert (∀ f, f ∈ F → r ≠ Some f) as Hr.
  { intros f Hf' ->. rewrite issued_snoc in Hnd. apply NoDup_app in Hnd as (_ & Hnd & _). apply (Hnd f); [|by left]. apply Hi. by right. }
  split; rewrite ?answered_returned; setoid_rewrite answered_returned || idtac.
  - by constructor.
  - intros e. rewrite !issued_snoc, !elem_of_app, Hi. tauto.
  - intros e HeF. rewrite issued_snoc, elem_of_app. intros [H|H]; [by eapply Hd|]. destruct r as [e'|]; [|by apply elem_of_nil in H].
    apply elem_of_list_singleton in H as ->. by eapply Hr.
  - intros e x HeF Hx. apply comps_snoc_inv in Hx as (x0 & H0 & Hx). econstructor; [by apply Hc|done].
  - intros e HeF. by rewrite !types_snoc, Hty.
  - intros e HeF. rewrite !alive_snoc, Ha by done. done.
  - intros e HeF. rewrite alive_snoc, types_snoc. destruct (Hl e HeF) as [H1 H2]. split.
    + right. split; [done|]. intros ->. apply (Hf e HeF). by left.
    + specialize (Hf e HeF). specialize (Hr e HeF). rewrite H2. destruct o; simpl in *; rewrite ?decide_False; try done; intros ->; apply Hf; by left.
  - intros g. by rewrite !members_snoc, Hm.
  - rewrite issued_snoc, app_length, creations_snoc. assert (creating o = false → r = None).
    { clear -Hst. intros Hcr. destruct o; try done; simpl in Hst; unfold no_out in Hst; by apply bind_ok in Hst as (? & ? & _ & [= _ <-]). }
    destruct (creating o); [|rewrite H by done]; destruct r; simpl; lia.
Qed.
Lemma tells_made tr tr' F a e : tells tr tr' F → NoDup (issued (tr' ++ [(OCreate, Some e)])) →
  tells (tr ++ [(OCreateWith a, Panicked)]) (tr' ++ [(OCreate, Some e)]) (F ++ [e]).
Proof.
  intros Ht Hnd. pose proof Ht as [He Hi Hd Hc Hty Ha Hl Hm Hn].
  assert (e ∉ issued tr') as Hne. { rewrite issued_snoc in Hnd. apply NoDup_app in Hnd as (_ & Hnd & _). intros H. apply (Hnd e); [done|by left]. }
  split; rewrite ?answered_panicked.
  - by constructor.
  - intros x. rewrite issued_snoc, !elem_of_app, Hi. tauto.
  - intros x [Hx|Hx%elem_of_list_singleton]%elem_of_app; [by apply Hd|]. subst x. intros H. apply Hne, Hi. by left.
  - intros x m [HF Hx]%not_elem_of_app Hcs. rewrite elem_of_list_singleton in Hx. apply comps_snoc_inv in Hcs as (x0 & H0 & Hs).
    simpl in Hs. rewrite decide_False in Hs by congruence. subst m. by apply Hc.
  - intros x [HF Hx]%not_elem_of_app. rewrite elem_of_list_singleton in Hx. rewrite types_snoc. simpl. rewrite decide_False by congruence. by apply Hty.
  - intros x [HF Hx]%not_elem_of_app. rewrite elem_of_list_singleton in Hx. rewrite alive_snoc, Ha by done. split; [|by right].
    intros [[= ->]|[H _]]; done.
  - intros x Hx. rewrite alive_snoc, types_snoc. simpl. destruct (decide (Some e = Some x)) as [Heq|Hneq]; [by split; [left|]|].
    apply elem_of_app in Hx as [Hx|Hx%elem_of_list_singleton]; [|congruence]. destruct (Hl x Hx) as [H1 H2]. split; [by right|done].
  - intros g. rewrite members_snoc. simpl. apply Hm.
  - rewrite issued_snoc, app_length, creations_snoc. simpl. lia.
Qed.

Section told.
Context (c : cfg) (cap : N) (Hc : cfg_ok c) (Hmd : c_mode c = Debug).
(** A call with room, or a refused one. *)
Definition gives_up (o : op) (s : store) : Prop :=
  match o with
  | OCreateWith a => ∃ s1 e, register_new_entity c s = ROk s1 e ∧ step c o s = RPanic s1
  | _ => step c o s = RPanic s ∧ creating o = false
  end.
Lemma room_cases tr s o : hrun c cap tr s → orders_proper tr → args_ok c o → droom c tr o →
  (creating o = true → N.of_nat (length (issued tr)) < 2 ^ 32 - 1) → room c tr o ∨ gives_up o s.
Proof using Hc Hmd.
  intros Hr Hp Ha Hro Hn. pose proof (hrun_tidy c Hc Hmd _ _ _ Hr) as Htidy. destruct (hrun_state c Hc Hmd _ _ _ Hr) as (D & Hs & Hcs).
  pose proof (hrun_run _ _ _ _ Hr) as Hrun. pose proof Hc as [Hbs _ _].
  destruct o as [|a|e|e vals|e T|e vals|q f|t e|t e|g e|g e to|g e to|g e]; simpl in Hro; try by left.
  - destruct Hro as [Hf|Href]; [by left|right]. simpl.
    pose proof (run_tags_inv c Hbs _ _ _ Hrun) as Ht. destruct (run_orders c cap Hbs Hmd _ _ Hrun Hp) as [Hmem Ho].
    destruct (register_returns c Hc Hmd _ _ _ _ Hrun Hs Ht (ex_intro _ _ Ho) (Hn eq_refl)) as (s1 & e & Hre).
    destruct (register_comp c Hmd _ _ _ _ _ _ Hs Hre) as (Hi1 & _ & _ & Hac). exists s1, e. split; [done|].
    unfold create_entity_with_archetype. unfold mbind at 1, M_bind at 1. unfold mbind at 1, M_bind at 1. rewrite Hre.
    unfold mbind at 1, M_bind at 1, on_ac, zoom, ac_add_entity. unfold mbind at 1, M_bind at 1. rewrite (reserve_refused c a); [by rewrite set_ac_same| |by apply Hi1|done|done].
    by rewrite Hac.
  - pose proof (Hcs e) as Hx. unfold cview in Hx. destruct (decide (e ∈ live tr)) as [HL|HL].
    2:{ left. intros m Hm. apply comps_types in Hx, Hm. rewrite <- Hx in Hm. done. }
    destruct (cs_row _ _ _ _ _ _ Hs HL) as (m0 & HD & _). rewrite HD in Hx. destruct (Hro m0 Hx) as [Hf|Href].
    + left. intros m Hm. assert (dom m = dom m0) as ->; [|done]. apply comps_types in Hx, Hm. rewrite <- Hx in Hm. by injection Hm.
    + right. split; [|done]. simpl. unfold no_out, mbind at 1, M_bind at 1. destruct Ha as (H1 & H2 & _). by rewrite (refused_add c Hc _ _ _ _ _ _ _ Hs Htidy HL HD H1 H2 Href).
  - pose proof (Hcs e) as Hx. unfold cview in Hx. destruct (decide (e ∈ live tr)) as [HL|HL].
    2:{ left. intros m Hm. apply comps_types in Hx, Hm. rewrite <- Hx in Hm. done. }
    destruct (cs_row _ _ _ _ _ _ Hs HL) as (m0 & HD & _). rewrite HD in Hx.
    assert (∀ m, comps tr e (Some m) → dom m = dom m0) as Hdom. { intros m Hm. apply comps_types in Hx, Hm. rewrite <- Hx in Hm. by injection Hm. }
    destruct (decide (dom m0 ∖ list_to_set T = (∅ : gset tid))) as [Hem|Hem].
    { left. intros m Hm a (_ & Hne & Heq) Hids. rewrite (Hdom m Hm), Hem in Hids. destruct Hne. destruct (arch_ids a) as [|t l]; [done|].
      exfalso. apply (not_elem_of_empty (C := gset tid) t), Hids. by left. }
    destruct (Hro m0 Hx) as [Hf|Href].
    + left. intros m Hm. by rewrite Hdom.
    + right. split; [|done]. simpl. unfold no_out, mbind at 1, M_bind at 1. apply set_choose_L in Hem as [t Ht]. apply elem_of_difference in Ht as [Ht1 Ht2].
      rewrite elem_of_list_to_set in Ht2. rewrite (refused_remove c Hc _ _ _ _ _ _ _ Hs Htidy HL HD); [done| | |done].
      * intros ->. by rewrite dom_empty_L in Ht1.
      * exists t. split; [by apply elem_of_dom|done].
Qed.

Lemma tells_asks tr tr' F o : tells tr tr' F → own (answered tr) o → asks tr' o = asks (answered tr) o.
Proof using.
  intros Ht Hown. destruct o as [| | |e ?|e ?| | | | | | | |]; try done; simpl; rewrite (tl_types _ _ _ Ht); try done;
    intros HF; apply (tl_disj _ _ _ Ht _ HF); apply Hown; by left.
Qed.
Lemma tells_own tr tr' F o : tells tr tr' F → own (answered tr) o → own tr' o.
Proof using. intros Ht Hown e He. apply (tl_issued _ _ _ Ht). left. by apply Hown. Qed.
Lemma tells_room tr tr' F o : tells tr tr' F → own (answered tr) o → droom c (answered tr) o → droom c tr' o.
Proof using.
  intros Ht Hown Hro. destruct o as [| | |e ?|e ?| | | | | | | |]; try done; simpl in *; intros m Hm; apply Hro; apply (tl_comps _ _ _ Ht); try done;
    intros HF; apply (tl_disj _ _ _ Ht _ HF); apply Hown; by left.
Qed.
Lemma tells_room' tr tr' F o : tells tr tr' F → own (answered tr) o → room c (answered tr) o → room c tr' o.
Proof using.
  intros Ht Hown Hro. destruct o as [| | |e ?|e ?| | | | | | | |]; try done; simpl in *; intros m Hm; apply Hro; apply (tl_comps _ _ _ Ht); try done;
    intros HF; apply (tl_disj _ _ _ Ht _ HF); apply Hown; by left.
Qed.
Lemma tells_order tr tr' F o : tells tr tr' F → own (answered tr) o → order_use_ok (answered tr) o → order_use_ok tr' o.
Proof using.
  intros Ht Hown Huse. destruct o as [| | |e ?|e ?| | | | |g e|g e to|g e to|g e]; try done; simpl in *; rewrite ?(tl_members _ _ _ Ht), (tl_alive _ _ _ Ht); try done;
    intros HF; apply (tl_disj _ _ _ Ht _ HF); apply Hown; by left.
Qed.
Lemma lost_dead tr tr' F s s0 e : tells tr tr' F → run c cap tr' s0 → alike (lost F) s s0 → e ∈ issued (answered tr) → is_alive c s e = POk true → ¬ lost F (e_id e).
Proof using Hmd.
  intros Ht Hr Hal He Hlive (f & Hf & Hid). rewrite (alike_alive _ _ _ _ _ Hal) in Hlive.
  assert (e ∈ issued tr') as He' by (apply (tl_issued _ _ _ Ht); by left).
  destruct (is_alive_exact c cap Hmd _ _ e Hr (own_lt c Hmd _ _ _ _ Hr He')) as (b & Hb & Hiff). rewrite Hb in Hlive. injection Hlive as ->.
  destruct (tl_lost _ _ _ Ht f Hf) as [Hfl _]. pose proof (live_ids _ _ Hmd _ _ Hr) as [Huniq _].
  assert (f = e) as -> by (apply Huniq; [done|by apply Hiff|done]). by apply (tl_disj _ _ _ Ht e).
Qed.
Lemma lost_step tr tr' F s s0 o : tells tr tr' F → run c cap tr' s0 → alike (lost F) s s0 → own (answered tr) o →
  (∀ e, o = ODestroy e → alive_in (answered tr) e) → same (lost F) (step c o s) (step c o s0).
Proof using Hmd.
  intros Ht Hr Hal Hown Hd. apply same_step; [done| |].
  - intros e He. eapply lost_dead; try done. by apply Hown.
  - intros e ->. assert (e ∈ issued (answered tr)) as Hi by (apply Hown; by left). eapply lost_dead; try done.
    rewrite (alike_alive _ _ _ _ _ Hal). assert (e ∈ issued tr') as He' by (apply (tl_issued _ _ _ Ht); by left).
    destruct (is_alive_exact c cap Hmd _ _ e Hr (own_lt c Hmd _ _ _ _ Hr He')) as (b & Hb & Hiff). rewrite Hb. f_equal. apply Hiff.
    apply (tl_alive _ _ _ Ht); [|by apply Hd]. intros HF. by apply (tl_disj _ _ _ Ht e).
Qed.
Lemma alike_lost F e s s0 s2 : alike (lost F) s s0 → disable_archetype (e_id e) s0 = ROk s2 () → alike (lost (F ++ [e])) s s2.
Proof using.
  intros (v & -> & Hl & Hb) H. unfold disable_archetype, mbind, M_bind, getS, lift, modS in H. simpl in H.
  destruct (bv_off (st_has s0) (e_id e)) as [w| |] eqn:E; try done. injection H as <-. apply bv_off_ok in E as [L B].
  exists v. split; [by destruct s0|]. simpl. split; [lia|]. intros i Hi. rewrite B, Hb.
  - rewrite bool_decide_false; [done|]. intros ->. apply Hi. exists e. split; [|done]. apply elem_of_app. right. by left.
  - intros (f & Hf & Hid). apply Hi. exists f. split; [|done]. apply elem_of_app. by left.
Qed.
Lemma told tr s : dcrun c cap tr s → ∃ tr' F s0, tells tr tr' F ∧ hrun c cap tr' s0 ∧ alike (lost F) s s0 ∧ orders_proper tr'.
Proof using Hc Hmd.
  induction 1 as [s H|tr s o x s' Hr IH Hh Ha Hro Hown Hd Hcr Huse Hends].
  - exists [], [], s. split_and!; [apply tells_nil|by constructor| |].
    + exists (st_has s). split; [by destruct s|done].
    + intros tr1 ? ? ? Heq. by destruct tr1.
  - destruct IH as (tr' & F & s0 & Ht & Hr0 & Hal & Hp). pose proof (hrun_run _ _ _ _ Hr0) as Hrun. pose proof Hc as [Hbs _ _].
    pose proof (lost_step _ _ _ _ _ _ Ht Hrun Hal Hown Hd) as Hsame.
    rewrite (alike_ac _ _ _ Hal), <- (tells_asks _ _ _ _ Ht Hown) in Hh. apply (tells_room _ _ _ _ Ht Hown) in Hro.
    pose proof (tl_length _ _ _ Ht) as Hlen. pose proof (tells_own _ _ _ _ Ht Hown) as Hown'.
    assert (creating o = true → N.of_nat (length (issued tr')) < 2 ^ 32 - 1) as Hn by (intros E; specialize (Hcr E); lia).
    assert (∀ e, o = ODestroy e → alive_in tr' e) as Hd'.
    { intros e ->. apply (tl_alive _ _ _ Ht); [|by apply Hd]. intros HF. apply (tl_disj _ _ _ Ht e HF). apply Hown. by left. }
    destruct (room_cases _ _ _ Hr0 Hp Ha Hro Hn) as [Hroom|Hgive].
    + destruct x as [r|]; simpl in Hends; rewrite Hends in Hsame; destruct (step c o s0) as [s1 r1|s1|] eqn:E; try done.
      * destruct Hsame as [Hal' <-]. assert (hrun c cap (tr' ++ [(o, r)]) s1) as Hr1 by by econstructor.
        exists (tr' ++ [(o, r)]), F, s1. split_and!; try done.
        -- eapply tells_returned; try done. by apply (handles_nodup c cap Hmd _ _ (hrun_run _ _ _ _ Hr1)).
        -- apply proper_snoc'; [done|]. eapply tells_order; try done. by eapply Huse.
      * simpl in Hsame. assert (s1 = s0 ∧ creating o = false) as [-> Hcf].
        { destruct o as [|a|e|e vals|e T|e vals|q f|t e|t e|g e|g e to|g e to|g e];
            try (split; [refine (component_panic_clean c Hc Hmd _ _ _ _ _ Hr0 Hh Ha Hroom _ E); exact I|done]); try (split; [refine (order_panic_clean c Hbs _ _ _ _ _ Hmd Hrun Hp _ E); exact I|done]);
            try (exfalso; refine (tag_panic_clean c Hbs _ _ _ _ _ Hrun _ E); exact I); exfalso;
            match type of E with step c ?o s0 = _ => destruct (step_returns c Hc Hmd _ _ _ o Hr0 Hh Ha Hroom Hp I Hown') as (? & ? & ?); [|congruence] end; simpl; auto. }
        exists tr', F, s0. split_and!; try done. by apply tells_nothing.
    + destruct x as [r|]; simpl in Hends; rewrite Hends in Hsame; destruct (step c o s0) as [s1 r1|s1|] eqn:E; try done.
      { unfold gives_up in Hgive. destruct o; try (destruct Hgive as [Hgive _]; congruence). destruct Hgive as (? & ? & _ & Hgive). congruence. }
      simpl in Hsame. assert ((s1 = s0 ∧ creating o = false) ∨ ∃ a e, o = OCreateWith a ∧ register_new_entity c s0 = ROk s1 e) as [[-> Hcf]|(a & e & -> & Hre)].
      { destruct o as [|a|e|e vals|e T|e vals|q f|t e|t e|g e|g e to|g e to|g e]; simpl in Hgive, E;
          try (destruct Hgive as [Hgive ?]; left; split; [congruence|done]).
        destruct Hgive as (s2 & e & Hre & Hgive). right. exists a, e. split; [done|]. rewrite E in Hgive. by injection Hgive as ->. }
      * exists tr', F, s0. split_and!; try done. by apply tells_nothing.
      * destruct (hrun_state c Hc Hmd _ _ _ Hr0) as (D & Hs & _). destruct (register_comp c Hmd _ _ _ _ _ _ Hs Hre) as (Hi1 & _ & Hlt & _).
        destruct (bv_upd_lt (λ w, N.land w (u32_not (bv_mask (e_id e)))) (st_has s1) (e_id e)) as [v Hv]; [eapply bv_sized_lt; [apply Hi1|done]|].
        assert (disable_archetype (e_id e) s1 = ROk (st_set_has v s1) ()) as Hdis.
        { unfold disable_archetype, mbind, M_bind, getS, lift, bv_off. by rewrite Hv. }
        assert (step c OCreate s0 = ROk (st_set_has v s1) (Some e)) as Hst.
        { simpl. unfold create_entity. unfold mbind at 1, M_bind at 1. unfold mbind at 1, M_bind at 1. rewrite Hre. unfold mbind at 1, M_bind at 1. by rewrite Hdis. }
        assert (hrun c cap (tr' ++ [(OCreate, Some e)]) (st_set_has v s1)) as Hr1 by (econstructor; try done).
        exists (tr' ++ [(OCreate, Some e)]), (F ++ [e]), (st_set_has v s1). split_and!; [|done| |].
        -- apply tells_made; [done|]. by apply (handles_nodup c cap Hmd _ _ (hrun_run _ _ _ _ Hr1)).
        -- by eapply alike_lost.
        -- by apply proper_snoc'.
Qed.

Lemma alike_observed F s s0 e x : alike (lost F) s s0 → (is_alive c s e = POk true → ¬ lost F (e_id e)) → observed c s0 e x → observed c s e x.
Proof using.
  intros Hal Hp (H1 & H2 & H3). unfold observed, read_components, get_entity_archetype in *.
  rewrite (alike_alive _ _ _ _ _ Hal), (alike_valid _ _ _ _ _ Hal Hp), (alike_page _ _ _ Hal), (alike_ac _ _ _ Hal). split; [done|]. split; [|done].
  intros T HT. rewrite (alike_refs _ _ _ _ _ _ Hal Hp). by apply H2.
Qed.
Lemma caught_values tr s e : dcrun c cap tr s → e ∈ issued (answered tr) →
  ∃ x, comps (answered tr) e x ∧ observed c s e x ∧ (is_Some x ↔ alive_in (answered tr) e).
Proof using Hc Hmd.
  intros Hr He. destruct (told _ _ Hr) as (tr' & F & s0 & Ht & Hr0 & Hal & _). pose proof (hrun_run _ _ _ _ Hr0) as Hrun.
  assert (e ∉ F) as HF. { intros HF. by apply (tl_disj _ _ _ Ht e). }
  destruct (values_persist c Hc Hmd cap tr' s0 e Hr0) as (x & Hx & Hob & Hiff); [apply (own_lt c Hmd _ _ _ _ Hrun), (tl_issued _ _ _ Ht); by left|].
  exists x. split; [by apply (tl_comps _ _ _ Ht)|]. split; [|by rewrite <- (tl_alive _ _ _ Ht)].
  eapply alike_observed; try done. by eapply lost_dead.
Qed.
Lemma observed_told tr s e m : hrun c cap tr s → observed c s e (Some m) → e ∈ issued tr ∧ types tr e = Some (dom m).
Proof using Hc Hmd.
  intros Hr Ho. destruct (hrun_state c Hc Hmd _ _ _ Hr) as (D & Hs & Hcs). destruct (proj1 (observed_D c Hc Hmd _ _ _ _ _ _ Hr Hs) Ho) as [He HD].
  pose proof (Hcs e) as Hx. unfold cview in Hx. rewrite decide_True in Hx by done. rewrite HD in Hx. apply comps_types in Hx. split; [|done]. by eapply types_issued.
Qed.
Lemma caught_query tr s q : dcrun c cap tr s → NoDup (q_types q) → q_types q ≠ [] →
  ∃ it l it1 it2, component_query c q s = POk it ∧
    yields (qiter_next_with (ec_ver (st_ec s))) it l it1 ∧ yields qiter_next it l.*2 it2 ∧ qiter_len it = length l ∧
    NoDup l.*1 ∧ disjoint_items l ∧
    (∀ e, e ∈ l.*1 ↔ e ∈ issued (answered tr) ∧ ∃ m, observed c s e (Some m) ∧ ∀ t, t ∈ q_types q → is_Some (m !! t)) ∧
    (∀ e rs, (e, rs) ∈ l → get_components_refs c s e (q_types q) = POk (Some rs) ∧
      ∃ m, observed c s e (Some m) ∧ read_ref (ac_pages (st_ac s)) <$> rs = values m (q_types q)).
Proof using Hc Hmd.
  intros Hr Hq Hne. destruct (told _ _ Hr) as (tr' & F & s0 & Ht & Hr0 & Hal & _). pose proof (hrun_run _ _ _ _ Hr0) as Hrun.
  destruct (query_exact c Hc Hmd cap tr' s0 q Hr0 Hq Hne) as (it & l & it1 & it2 & H1 & H2 & H3 & H4 & H5 & H6 & H7 & H8).
  assert (∀ e m, observed c s0 e (Some m) → (∀ t, t ∈ q_types q → is_Some (m !! t)) → e ∈ issued (answered tr)) as Hin.
  { intros e m Ho Hm. destruct (observed_told _ _ _ _ Hr0 Ho) as [Hi Hty]. apply (tl_issued _ _ _ Ht) in Hi as [Hi|HF]; [done|].
    destruct (tl_lost _ _ _ Ht e HF) as [_ Hemp]. rewrite Hemp in Hty. injection Hty as Hty. destruct (q_types q) as [|t ts]; [done|].
    destruct (Hm t) as [v Hv]; [by left|]. exfalso. apply (not_elem_of_empty (C := gset tid) t). rewrite Hty. by apply elem_of_dom_2 in Hv. }
  assert (∀ e x, e ∈ issued (answered tr) → observed c s0 e x → observed c s e x) as Hob.
  { intros e x He Ho. eapply alike_observed; try done. by eapply lost_dead. }
  exists it, l, it1, it2. rewrite (alike_query _ _ _ _ _ Hal), (alike_ec _ _ _ Hal), (alike_ac _ _ _ Hal). split_and!; try done.
  - intros e. rewrite H7. split.
    + intros (m & Ho & Hm). pose proof (Hin _ _ Ho Hm) as Hi. split; [done|]. exists m. split; [by apply Hob|done].
    + intros (Hi & m & Ho & Hm). exists m. split; [|done].
      destruct (values_persist c Hc Hmd cap tr' s0 e Hr0) as (x & _ & Hx & _); [apply (own_lt c Hmd _ _ _ _ Hrun), (tl_issued _ _ _ Ht); by left|].
      by rewrite (observed_inj _ _ _ _ _ Ho (Hob _ _ Hi Hx)).
  - intros e rs Hl. assert (e ∈ l.*1) as Hel. { apply elem_of_list_fmap. by exists (e, rs). }
    apply H7 in Hel as (m & Ho & Hm). pose proof (Hin _ _ Ho Hm) as Hi. destruct (H8 _ _ Hl) as (Hrefs & m' & Ho' & Hrd).
    split; [|exists m'; split; [by apply Hob|done]]. rewrite (alike_refs _ _ _ _ _ _ Hal); [done|]. by eapply lost_dead.
Qed.
(** Later calls. *)
Lemma caught_return tr s o : dcrun c cap tr s → healthy c (st_ac s) (asks (answered tr) o) → args_ok c o → room c (answered tr) o →
  order_use_ok (answered tr) o → own (answered tr) o → (creating o = true → N.of_nat (creations tr) < 2 ^ 32 - 1) →
  match o with
  | ODestroy e => alive_in (answered tr) e
  | ORemove e T => ∀ m, comps (answered tr) e (Some m) → m = ∅ ∨ ∃ t, is_Some (m !! t) ∧ t ∉ T
  | _ => True
  end → ∃ s' r, step c o s = ROk s' r.
Proof using Hc Hmd.
  intros Hr Hh Ha Hroom Huse Hown Hcr Hs. destruct (told _ _ Hr) as (tr' & F & s0 & Ht & Hr0 & Hal & Hp). pose proof (hrun_run _ _ _ _ Hr0) as Hrun.
  assert (∀ e, e ∈ handles o → e ∉ F) as HnF. { intros e He HF. apply (tl_disj _ _ _ Ht e HF). by apply Hown. }
  rewrite (alike_ac _ _ _ Hal), <- (tells_asks _ _ _ _ Ht Hown) in Hh. pose proof (tl_length _ _ _ Ht) as Hlen.
  destruct (step_returns c Hc Hmd _ _ _ o Hr0 Hh Ha) as (s1 & r & Hst); try done.
  - by eapply tells_room'.
  - by eapply tells_order.
  - by eapply tells_own.
  - destruct o; simpl; try done; try (specialize (Hcr eq_refl); lia).
    + apply (tl_alive _ _ _ Ht); [|done]. apply HnF. by left.
    + intros m Hm. apply Hs. apply (tl_comps _ _ _ Ht); [|done]. apply HnF. by left.
  - assert (same (lost F) (step c o s) (step c o s0)) as Hsame. { eapply lost_step; try done. by intros e ->. }
    rewrite Hst in Hsame. destruct (step c o s) as [s' r'|s'|]; try done. by eauto.
Qed.
Lemma caught_defined tr s o : dcrun c cap tr s → healthy c (st_ac s) (asks (answered tr) o) → args_ok c o → droom c (answered tr) o →
  order_use_ok (answered tr) o → own (answered tr) o → (creating o = true → N.of_nat (creations tr) < 2 ^ 32 - 1) →
  (∀ e, o = ODestroy e → alive_in (answered tr) e) → defined c o s.
Proof using Hc Hmd.
  intros Hr Hh Ha Hro Huse Hown Hcr Hd w Hub. destruct (told _ _ Hr) as (tr' & F & s0 & Ht & Hr0 & Hal & Hp). pose proof (hrun_run _ _ _ _ Hr0) as Hrun.
  rewrite (alike_ac _ _ _ Hal), <- (tells_asks _ _ _ _ Ht Hown) in Hh. pose proof (tl_length _ _ _ Ht) as Hlen. apply (tells_room _ _ _ _ Ht Hown) in Hro.
  pose proof (lost_step _ _ _ _ _ _ Ht Hrun Hal Hown Hd) as Hsame. rewrite Hub in Hsame. destruct (step c o s0) as [| |w0] eqn:E; try done.
  destruct (room_cases _ _ _ Hr0 Hp Ha Hro) as [Hroom|Hgive]; [intros Hx; specialize (Hcr Hx); lia| |].
  - eapply (own_defined c Hc Hmd _ _ _ o Hr0 Hh Ha Hroom Hp); [by eapply tells_order|by eapply tells_own|done].
  - unfold gives_up in Hgive. destruct o; try (destruct Hgive as [Hgive _]; congruence). destruct Hgive as (? & ? & _ & Hgive). congruence.
Qed.
Lemma caught_told tr s : dcrun c cap tr s → ∃ tr' F s0, explains tr tr' F ∧ hrun c cap tr' s0 ∧
  ∀ e, e ∈ issued (answered tr) → ∀ x, observed c s e x ↔ observed c s0 e x.
Proof using Hc Hmd.
  intros Hr. destruct (told _ _ Hr) as (tr' & F & s0 & Ht & Hr0 & Hal & _). pose proof (hrun_run _ _ _ _ Hr0) as Hrun.
  exists tr', F, s0. split; [apply Ht|]. split; [done|]. intros e He x.
  assert (∀ x, observed c s0 e x → observed c s e x) as Hob. { intros y Ho. eapply alike_observed; try done. by eapply lost_dead. }
  split; [|apply Hob]. intros Ho. destruct (values_persist c Hc Hmd cap tr' s0 e Hr0) as (y & _ & Hy & _).
  { apply (own_lt c Hmd _ _ _ _ Hrun), (tl_issued _ _ _ Ht). by left. }
  by rewrite (observed_inj _ _ _ _ _ Ho (Hob _ Hy)).
Qed.
End told.

