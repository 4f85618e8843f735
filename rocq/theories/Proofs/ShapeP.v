(** ShapeP.v — sizes of the entity-indexed arrays, in both build modes and whatever the arguments of the calls. *)
From Verif.Proofs Require Export StoreP.
From Verif.Proofs Require Import HandlesP.
Local Open Scope N_scope.

Definition lens (s : store) : nat * nat * nat := (length (st_page s), length (st_idx s), length (st_has s)).
(** All of them have the size the capacity calls for. *)
Record shape (s : store) : Prop := Shape {
  sh_ver : length (ec_ver (st_ec s)) = N.to_nat (ec_cap (st_ec s));
  sh_alive : bv_sized (ec_cap (st_ec s)) (ec_alive (st_ec s));
  sh_page : length (st_page s) = N.to_nat (ec_cap (st_ec s));
  sh_idx : length (st_idx s) = N.to_nat (ec_cap (st_ec s));
  sh_has : bv_sized (ec_cap (st_ec s)) (st_has s);
}.

Lemma aset_length {A} (a : arr A) i v a' : aset a i v = POk a' → length a' = length a.
Proof. unfold aset. destruct (i <? _); [|done]. intros [= <-]. apply insert_length. Qed.
Lemma bv_upd_length f v i v' : bv_upd f v i = POk v' → length v' = length v.
Proof. unfold bv_upd. destruct (nlookup _ _); [|done]. intros [= <-]. apply insert_length. Qed.

Lemma set_page_keeps id p : keeps lens (set_page_index id p).
Proof.
  intros s. unfold set_page_index, mbind, M_bind, getS, lift, modS. destruct (aset (st_page s) id p) eqn:E; [|done..].
  apply aset_length in E. unfold lens. simpl. by rewrite E.
Qed.
Lemma set_idx_keeps id p : keeps lens (set_index_in_page id p).
Proof.
  intros s. unfold set_index_in_page, mbind, M_bind, getS, lift, modS. destruct (aset (st_idx s) id p) eqn:E; [|done..].
  apply aset_length in E. unfold lens. simpl. by rewrite E.
Qed.
Lemma enable_keeps id : keeps lens (enable_archetype id).
Proof.
  intros s. unfold enable_archetype, mbind, M_bind, getS, lift, modS. destruct (bv_on (st_has s) id) eqn:E; [|done..].
  apply bv_upd_length in E. unfold lens. simpl. by rewrite E.
Qed.
Lemma disable_keeps id : keeps lens (disable_archetype id).
Proof.
  intros s. unfold disable_archetype, mbind, M_bind, getS, lift, modS. destruct (bv_off (st_has s) id) eqn:E; [|done..].
  apply bv_upd_length in E. unfold lens. simpl. by rewrite E.
Qed.
Create HintDb lens.
Global Hint Resolve set_page_keeps set_idx_keeps enable_keeps disable_keeps : lens.
Ltac kp :=
  repeat first
    [ solve [auto with lens nocore]
    | apply keeps_bind; [|intros ?]
    | apply keeps_ret | apply keeps_lift | apply keeps_panic | apply keeps_get
    | apply keeps_mod; intros ?; reflexivity
    | apply keeps_zoom; intros ? ?; reflexivity
    | match goal with |- keeps _ (match ?x with _ => _ end) => destruct x end ].
Lemma set_location_keeps id l : keeps lens (set_location id l).
Proof. unfold set_location. kp. Qed.
Lemma swap_remove_keeps l : keeps lens (swap_remove_internal l).
Proof. unfold swap_remove_internal, on_ac. kp. Qed.
Global Hint Resolve set_location_keeps swap_remove_keeps : lens.
Lemma move_keeps c e a : keeps lens (move_entity c e a).
Proof. unfold move_entity, on_ac. kp. Qed.
Global Hint Resolve move_keeps : lens.
Lemma ensure_keeps c e T : keeps lens (ensure_types c e T).
Proof. unfold ensure_types, on_ac. kp. Qed.
Global Hint Resolve ensure_keeps : lens.
Lemma rest_keeps c o : (match o with OCreate | OCreateWith _ => False | _ => True end) → keeps lens (step c o).
Proof.
  destruct o; try done; intros _; unfold step, no_out.
  - unfold destroy_entity, on_ec, on_tags, on_orders. kp.
  - unfold add_components. kp.
  - unfold remove_components. kp.
  - apply keeps_bind; [|intros ?; apply keeps_ret]. intros s. unfold set_components, mbind, M_bind, getS, lift. destruct (get_components_refs c s e vals.*1) as [[rs|]| |]; reflexivity.
  - apply keeps_bind; [|intros ?; apply keeps_ret]. intros s. unfold query_write, mbind, M_bind, getS, lift. destruct (component_query c q s) as [it| |]; try reflexivity.
    by destruct (write_loop _ _ _ _ _ _).
  - unfold_ops. kp.
  - unfold_ops. kp.
  - unfold_ops. kp.
  - unfold_ops. kp.
  - unfold_ops. kp.
  - unfold_ops. kp.
Qed.

(** The entities container. *)
Definition ec_shape (s : ec) : Prop := length (ec_ver s) = N.to_nat (ec_cap s) ∧ bv_sized (ec_cap s) (ec_alive s).
Lemma copy_prefix_length {A} (a b : list A) n a' : copy_prefix a b n = POk a' → length a' = length b.
Proof.
  unfold copy_prefix. destruct (N.leb_spec n (N.of_nat (length a))); [|done]. destruct (N.leb_spec n (N.of_nat (length b))); [|done].
  intros [= <-]. rewrite app_length, take_length, drop_length. lia.
Qed.
Lemma arealloc_length {A} (a : arr A) old new a' : length a = N.to_nat old → arealloc a old new = POk a' → length a' = N.to_nat new.
Proof.
  unfold arealloc. intros Hl. destruct (N.eqb_spec old new) as [->|]; [by intros [= <-]|]. intros H%copy_prefix_length.
  rewrite H. apply replicate_length.
Qed.
Lemma bv_realloc_sized v old new v' : bv_sized old v → bv_realloc v old new = POk v' → bv_sized new v'.
Proof.
  unfold bv_realloc, bv_sized. intros Hl. destruct (N.eqb_spec (bv_len old) (bv_len new)) as [E|].
  - intros [= <-]. by rewrite Hl, E.
  - intros H%copy_prefix_length. rewrite H. apply replicate_length.
Qed.
Lemma ec_grow_shape new s s' u : ec_shape s → ec_grow new s = ROk s' u → ec_shape s'.
Proof.
  intros [Hv Ha]. unfold ec_grow. intros (s1 & x & [-> ->]%get_ok & H)%bind_ok. destruct (new <=? ec_cap s).
  { apply ret_ok in H as [_ ->]. done. }
  apply bind_ok in H as (s1 & ver & [Hver ->]%lift_ok & H). apply bind_ok in H as (s1 & [] & ->%mod_ok & H).
  apply bind_ok in H as (s1 & al & [Hal ->]%lift_ok & H). apply bind_ok in H as (s1 & [] & ->%mod_ok & ->%mod_ok).
  split; simpl.
  - apply copy_prefix_length in Hver. rewrite Hver. apply replicate_length.
  - eapply bv_realloc_sized; [exact Ha|exact Hal].
Qed.
Lemma ec_create_shape md s s' cr : ec_shape s → ec_create md s = ROk s' cr → ec_shape s'.
Proof.
  intros Hs. unfold ec_create. intros (s1 & x & [-> ->]%get_ok & H)%bind_ok.
  apply bind_ok in H as (s1 & id & H1 & H).
  assert (ec_shape s1) as Hs1.
  { destruct (last (ec_gaps s)).
    - apply bind_ok in H1 as (s2 & [] & ->%mod_ok & [-> ->]%ret_ok). done.
    - apply bind_ok in H1 as (s2 & nf & [_ ->]%lift_ok & H1). apply bind_ok in H1 as (s2 & [] & ->%mod_ok & H1).
      apply bind_ok in H1 as (s2 & [] & Hg & [-> ->]%ret_ok). destruct (will_grow_with_id _ _).
      + eapply ec_grow_shape; [|exact Hg]. done.
      + apply ret_ok in Hg as [_ ->]. done. }
  destruct Hs1 as [Hv Ha].
  apply bind_ok in H as (s3 & x & [-> ->]%get_ok & H).
  apply bind_ok in H as (s3 & al & [Hal ->]%lift_ok & H).
  apply bind_ok in H as (s3 & [] & ->%mod_ok & H).
  apply bind_ok in H as (s3 & v & [_ ->]%lift_ok & H).
  apply bind_ok in H as (s3 & ver & [_ ->]%lift_ok & H).
  apply bind_ok in H as (s3 & vers & [Hvers ->]%lift_ok & H).
  apply bind_ok in H as (s3 & [] & ->%mod_ok & H).
  apply bind_ok in H as (s3 & x & [-> ->]%get_ok & [-> ->]%ret_ok).
  split; simpl; [by apply aset_length in Hvers as ->|]. apply bv_upd_length in Hal. unfold bv_sized in *. by rewrite Hal.
Qed.
Lemma ec_destroy_shape md e s s' u : ec_shape s → ec_destroy md e s = ROk s' u → ec_shape s'.
Proof.
  intros [Hv Ha]. unfold ec_destroy. intros (s1 & x & [-> ->]%get_ok & H)%bind_ok.
  apply bind_ok in H as (s3 & [] & [_ ->]%lift_ok & H).
  apply bind_ok in H as (s3 & [] & [_ ->]%lift_ok & H).
  apply bind_ok in H as (s3 & [] & [_ ->]%lift_ok & H).
  apply bind_ok in H as (s3 & al & [Hal ->]%lift_ok & H).
  apply bind_ok in H as (s3 & [] & ->%mod_ok & H).
  apply bind_ok in H as (s3 & l & [_ ->]%lift_ok & H). apply bv_upd_length in Hal.
  destruct (e_id e =? l); apply mod_ok in H as ->; split; simpl; try done; unfold bv_sized in *; by rewrite Hal.
Qed.

Lemma register_shape c s s' e : shape s → register_new_entity c s = ROk s' e → shape s'.
Proof.
  intros [H1 H2 H3 H4 H5] (cr & Hc & _ & _ & Hg)%register_ok. destruct (ec_create_shape _ _ _ _ (conj H1 H2) Hc) as [Hv Ha].
  apply ec_create_caps in Hc as [Hb Haf]. destruct (container_was_grow cr) eqn:E.
  - destruct Hg as (Hp & Hi & Hh & _). rewrite Hb in *. split; try done.
    + eapply arealloc_length; [exact H3|exact Hp].
    + eapply arealloc_length; [exact H4|exact Hi].
    + eapply bv_realloc_sized; [exact H5|exact Hh].
  - destruct Hg as (_ & _ & Hp & Hi & Hh). unfold container_was_grow in E. rewrite Hb, Haf in E.
    apply negb_false_iff, N.eqb_eq in E. rewrite E in *. split; unfold bv_sized in *; congruence.
Qed.
Lemma lens_shape s s' : lens s' = lens s → ec_cap (st_ec s') = ec_cap (st_ec s) → ec_shape (st_ec s') → shape s → shape s'.
Proof.
  unfold lens. intros [= Hp Hi Hh] Hc [] []. split; try done; unfold bv_sized in *; congruence.
Qed.
Lemma step_shape c o s s' r : shape s → step c o s = ROk s' r → shape s'.
Proof.
  intros Hs H. assert ((match o with OCreate | OCreateWith _ => True | _ => False end) ∨ (match o with OCreate | OCreateWith _ => False | _ => True end)) as [Ho|Ho] by (destruct o; tauto).
  - destruct o; try done; unfold step in H.
    + apply bind_ok in H as (s1 & e & H & [-> ->]%ret_ok). unfold create_entity in H.
      apply bind_ok in H as (s2 & e2 & Hr & H). apply bind_ok in H as (s3 & u & Hd & [-> ->]%ret_ok).
      pose proof (register_shape _ _ _ _ Hs Hr) as Hs2. pose proof (keeps_ok _ _ _ _ _ (disable_keeps _) Hd) as Hl.
      assert (st_ec s3 = st_ec s2) as He.
      { refine (keeps_ok _ _ _ _ _ _ Hd). unfold disable_archetype. keeps. }
      eapply lens_shape; [exact Hl|by rewrite He| |done]. rewrite He. split; apply Hs2.
    + apply bind_ok in H as (s1 & e & H & [-> ->]%ret_ok). unfold create_entity_with_archetype in H.
      apply bind_ok in H as (s2 & e2 & Hr & H). apply bind_ok in H as (s3 & l & Ha & H).
      apply bind_ok in H as (s4 & u & Hd & [-> ->]%ret_ok).
      pose proof (register_shape _ _ _ _ Hs Hr) as Hs2. pose proof (keeps_ok _ _ _ _ _ (set_location_keeps _ _) Hd) as Hl.
      assert (lens s3 = lens s2) as Hl2. { refine (keeps_ok _ _ _ _ _ _ Ha). unfold on_ac. kp. }
      assert (st_ec s3 = st_ec s2) as He2. { refine (keeps_ok _ _ _ _ _ _ Ha). unfold on_ac. keeps. }
      assert (st_ec s4 = st_ec s3) as He.
      { refine (keeps_ok _ _ _ _ _ _ Hd). unfold_ops. keeps. }
      eapply lens_shape; [rewrite Hl; exact Hl2|by rewrite He, He2| |done]. rewrite He, He2. split; apply Hs2.
  - assert (keeps lens (step c o)) as Hk by by apply rest_keeps.
    pose proof (keeps_ok _ _ _ _ _ Hk H) as Hl. apply step_ec in H.
    remember (st_ec s') as t eqn:Et. destruct H as [o cr s1 Hcr Hc|e s1 Hd|o H1 H2 H3]; [by destruct Hcr as [->|[a ->]]|..].
    + rewrite Et in Hd. eapply lens_shape; [exact Hl|by eapply ec_destroy_cap| |done]. eapply ec_destroy_shape; [|exact Hd]. split; apply Hs.
    + apply (lens_shape s s'); [exact Hl|by rewrite <- Et|rewrite <- Et; split; apply Hs|done].
Qed.
Lemma run_shape c cap tr s : run c cap tr s → shape s.
Proof.
  induction 1 as [s H|tr s o s' r _ IH H]; [|by eapply step_shape].
  unfold store_with_capacity in H. apply pbind_ok in H as ([] & _ & [= <-]). unfold alloc_filled.
  split; simpl; unfold alloc_filled; rewrite ?replicate_length; try done; apply bv_alloc_sized.
Qed.
