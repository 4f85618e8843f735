(** PredictP.v — handles are determined by the creations and destructions. *)
From Verif.Spec Require Import Predict.
From Verif.Proofs Require Import StoreP ShapeP ResourceP HandlesP ExecP.
Local Open Scope N_scope.

Record al_rel (a : allocator) (s : ec) : Prop := AlRel {
  ar_shape : ec_shape s;
  ar_free : ec_gaps s = reverse (al_free a);
  ar_next : ec_next s = al_next a;
  ar_small : al_next a < u32_size;
  ar_ver : ∀ id v, aget (ec_ver s) id = POk v → default 0 (al_ver a !! id) = v;
  ar_dom : ∀ id v, al_ver a !! id = Some v → id < ec_cap s;
}.
Lemma u32_add_mod md n x : u32_add md n 1 = POk x → x = (n + 1) mod 2 ^ 32.
Proof.
  unfold u32_add, u32_size. destruct (N.ltb_spec (n + 1) 4294967296).
  - intros [= <-]. symmetry. by apply N.mod_small.
  - destruct md; [done|]. by intros [= <-].
Qed.
Lemma u32_sub_mod md n x : n < u32_size → u32_sub md n 1 = POk x → x = (n + 2 ^ 32 - 1) mod 2 ^ 32.
Proof.
  unfold u32_sub, u32_size. intros Hn. destruct (N.leb_spec 1 n).
  - intros [= <-]. replace (n + 2 ^ 32 - 1) with (n - 1 + 1 * 2 ^ 32) by lia. rewrite N.mod_add by done. symmetry. apply N.mod_small. lia.
  - destruct md; [done|]. intros [= <-]. replace n with 0 by lia. done.
Qed.
(** Taking an id. *)
Lemma al_take_rel md id free next a s s' cr cap :
  ec_shape s → ec_gaps s = reverse free → ec_next s = next → next < u32_size →
  (∀ i v, aget (ec_ver s) i = POk v → default 0 (al_ver a !! i) = v) → (∀ i v, al_ver a !! i = Some v → i < ec_cap s) →
  ((s1 ← getS; al ← lift (bv_toggle (ec_alive s1) id); _ ← modS (ec_set_alive al); v ← lift (aget (ec_ver s1) id);
    version ← lift (u32_add md v 1); vers ← lift (aset (ec_ver s1) id version); _ ← modS (ec_set_ver vers); s2 ← getS;
    mret (Creation (Entity id version) cap (ec_cap s2))) s) = ROk s' cr →
  ec_shape s' → al_rel (al_take id free next a).1 s' ∧ cr_entity cr = (al_take id free next a).2.
Proof.
  intros [Hl Hb] Hf Hn Hsm Hv Hd H Hsh'. apply bind_ok in H as (s1 & x & [-> ->]%get_ok & H).
  apply bind_ok in H as (s1 & al & [Hal ->]%lift_ok & H). apply bind_ok in H as (s1 & [] & ->%mod_ok & H).
  apply bind_ok in H as (s1 & v & [Hg ->]%lift_ok & H). apply bind_ok in H as (s1 & w & [Hw ->]%lift_ok & H).
  apply bind_ok in H as (s1 & vs & [Hs ->]%lift_ok & H). apply bind_ok in H as (s1 & [] & ->%mod_ok & H).
  apply bind_ok in H as (s1 & x & [-> ->]%get_ok & H). apply ret_ok in H as [-> ->].
  apply u32_add_mod in Hw as ->. rewrite <- (Hv _ _ Hg) in *. set (w := (default 0 (al_ver a !! id) + 1) mod 2 ^ 32) in *.
  unfold al_take. fold w. simpl. split; [|done]. unfold aset in Hs. destruct (N.ltb_spec id (N.of_nat (length (ec_ver s)))) as [Hlt|]; [|done]. injection Hs as <-.
  split; simpl; try done.
  - intros i u Hu%aget_ok. destruct (decide (i = id)) as [->|Hne].
    + rewrite lookup_insert. rewrite list_lookup_insert in Hu by lia. simpl. congruence.
    + rewrite lookup_insert_ne by done. rewrite list_lookup_insert_ne in Hu by (intros Heq%N2Nat.inj; congruence). apply Hv. by apply aget_ok.
  - intros i u. destruct (decide (i = id)) as [->|Hne]; [intros _; lia|]. rewrite lookup_insert_ne by done. by apply Hd.
Qed.
Lemma ec_grow_cells new s s' u : ec_shape s → ec_grow new s = ROk s' u →
  ec_gaps s' = ec_gaps s ∧ ec_next s' = ec_next s ∧ ec_cap s ≤ ec_cap s' ∧
  ∀ id v, aget (ec_ver s') id = POk v → aget (ec_ver s) id = POk v ∨ v = 0 ∧ ec_cap s ≤ id.
Proof.
  intros [Hl _] H. unfold ec_grow in H. apply bind_ok in H as (s0 & x & [-> ->]%get_ok & H).
  destruct (N.leb_spec new (ec_cap s)); [inv1 H; split_and!; [done..|by left]|].
  apply bind_ok in H as (s1 & ver & [Hver ->]%lift_ok & H). apply bind_ok in H as (s1 & [] & ->%mod_ok & H).
  apply bind_ok in H as (s1 & al & [_ ->]%lift_ok & H). apply bind_ok in H as (s1 & [] & ->%mod_ok & H). apply mod_ok in H as ->.
  simpl. split_and!; [done|done|lia|]. intros id v Hv. unfold arealloc_filled, copy_prefix in Hver. destruct (_ && _) eqn:Hb; [|done]. injection Hver as <-.
  apply aget_ok in Hv. apply lookup_app_Some in Hv as [Hv|[Hge Hv]].
  - left. apply aget_ok. apply lookup_take_Some in Hv as [? _]. done.
  - right. rewrite take_length in Hge. split; [|lia]. rewrite lookup_drop in Hv. apply lookup_replicate in Hv as [Heq _]. congruence.
Qed.
Lemma al_create_rel md a s s' cr : al_rel a s → ec_create md s = ROk s' cr → al_rel (al_create a).1 s' ∧ cr_entity cr = (al_create a).2.
Proof.
  intros Hr H. pose proof (ec_create_shape _ _ _ _ (ar_shape _ _ Hr) H) as Hsh'. destruct Hr as [Hsh Hf Hn Hsm Hv Hd]. unfold ec_create in H.
  apply bind_ok in H as (s0 & x & [-> ->]%get_ok & H). apply bind_ok in H as (s1 & id & H1 & H). unfold al_create.
  destruct (al_free a) as [|g free] eqn:Ef.
  - rewrite Hf in H1. simpl in H1. apply bind_ok in H1 as (s2 & nf & [Hnf ->]%lift_ok & H1). apply bind_ok in H1 as (s2 & [] & ->%mod_ok & H1).
    apply bind_ok in H1 as (s2 & [] & Hg & [-> ->]%ret_ok). apply u32_add_mod in Hnf as ->. rewrite Hn in *.
    assert (ec_shape s2 ∧ ec_gaps s2 = ec_gaps s ∧ ec_next s2 = (al_next a + 1) mod 2 ^ 32 ∧ ec_cap s ≤ ec_cap s2 ∧
      ∀ id v, aget (ec_ver s2) id = POk v → aget (ec_ver s) id = POk v ∨ v = 0 ∧ ec_cap s ≤ id) as (Hs2 & G1 & G2 & G3 & G4).
    { destruct (will_grow_with_id s (al_next a)).
      - pose proof (ec_grow_shape _ _ _ _ (Hsh : ec_shape (ec_set_next _ s)) Hg) as Hs2.
        destruct (ec_grow_cells _ _ _ _ (Hsh : ec_shape (ec_set_next ((al_next a + 1) mod 2 ^ 32) s)) Hg) as (? & ? & ? & ?). done.
      - apply ret_ok in Hg as [_ ->]. split_and!; [done..|by left]. }
    eapply al_take_rel; [exact Hs2|by rewrite G1, Hf|exact G2|by apply N.mod_lt| | |exact H|done].
    + intros i v Hi. destruct (G4 _ _ Hi) as [Ho|[-> Hge]]; [by apply Hv|]. destruct (al_ver a !! i) eqn:E; [|done]. apply Hd in E. lia.
    + intros i v Hi%Hd. lia.
  - rewrite Hf in H1. rewrite reverse_cons, last_snoc in H1. apply bind_ok in H1 as (s2 & [] & ->%mod_ok & [-> ->]%ret_ok).
    eapply (al_take_rel _ _ _ _ _ (ec_set_gaps (vpop (reverse free ++ [g])) s)); [done| |done|done|done|done|exact H|done].
    simpl. unfold vpop. rewrite app_length. simpl. rewrite Nat.add_1_r. simpl. by rewrite take_app.
Qed.
Lemma al_destroy_rel md a s s' e u : al_rel a s → ec_destroy md e s = ROk s' u → al_rel (al_destroy (e_id e) a) s'.
Proof.
  intros Hr H. pose proof (ec_destroy_shape _ _ _ _ _ (ar_shape _ _ Hr) H) as Hsh'. destruct Hr as [Hsh Hf Hn Hsm Hv Hd]. unfold ec_destroy in H.
  apply bind_ok in H as (s0 & x & [-> ->]%get_ok & H). do 3 apply bind_ok in H as (s0 & [] & [_ ->]%lift_ok & H).
  apply bind_ok in H as (s1 & al & [Hal ->]%lift_ok & H). apply bind_ok in H as (s1 & [] & ->%mod_ok & H).
  apply bind_ok in H as (s1 & l & [Hl ->]%lift_ok & H). rewrite Hn in Hl. apply u32_sub_mod in Hl as ->; [|done]. unfold al_destroy.
  destruct (N.eqb_spec (e_id e) ((al_next a + 2 ^ 32 - 1) mod 2 ^ 32)) as [He|He]; apply mod_ok in H as ->; split; simpl; try done.
  - rewrite He. by apply N.mod_lt.
  - by rewrite Hf, reverse_cons.
Qed.
Lemma al_init_rel cap : al_rel al_init (ec_new cap).
Proof.
  split; try done.
  - split; simpl; [unfold alloc_filled; by rewrite replicate_length|]. unfold bv_sized, bv_alloc. by rewrite replicate_length.
  - intros id v H%aget_ok. simpl in H. unfold alloc_filled in H. apply lookup_replicate in H as [[= <-] _]. done.
Qed.

(** ** Histories *)
Lemma lives_snoc tr o r : lives (tr ++ [(o, r)]) = lives tr ++ match o with OCreate | OCreateWith _ => [Born] | ODestroy e => [Died (e_id e)] | _ => [] end.
Proof. unfold lives. rewrite omap_app. csimpl. by destruct o. Qed.
Lemma run_predicted c cap tr s : run c cap tr s →
  al_rel (foldl al_step (al_init, []) (lives tr)).1 (st_ec s) ∧ (foldl al_step (al_init, []) (lives tr)).2 = issued tr.
Proof.
  induction 1 as [s H|tr s o s' r Hrun [IH1 IH2] H].
  - apply store_init_ec in H as [-> _]. split; [apply al_init_rel|done].
  - rewrite lives_snoc, foldl_app, issued_snoc. destruct (foldl al_step (al_init, []) (lives tr)) as [a hs]. simpl in IH1, IH2. subst hs.
    apply step_ec in H. inversion H as [o' cr s1 Ho Hcr|e s1 Hd|o' H1 H2 H3]; subst.
    + destruct (al_create_rel _ _ _ _ _ IH1 Hcr) as [Hr He]. destruct Ho as [->|[b ->]]; simpl; rewrite He; split; done.
    + simpl. rewrite app_nil_r. split; [by eapply al_destroy_rel|done].
    + rewrite app_nil_r. destruct o; simpl; try done; exfalso; naive_solver.
Qed.

Lemma rrun_predicted {T} md (s0 : rs T) tr s : rinit s0 → rrun md s0 tr s →
  al_rel (foldl al_step (al_init, []) (rlives tr)).1 (rs_ec s) ∧ (foldl al_step (al_init, []) (rlives tr)).2 = rissued tr.
Proof.
  intros Hi. induction 1 as [|tr s o s' r Hrun [IH1 IH2] H].
  - split; [|done]. destruct Hi as [->|[cap ->]]; apply al_init_rel.
  - unfold rlives. rewrite omap_app, foldl_app. fold (rlives tr). destruct (snoc_lists tr o r) as (-> & _ & _).
    destruct (foldl al_step (al_init, []) (rlives tr)) as [a hs]. simpl in IH1, IH2. subst hs. destruct o as [v|e|e v]; simpl in H; csimpl.
    + apply bind_ok in H as (s1 & e & H & [-> ->]%ret_ok). unfold rs_create in H. apply bind_ok in H as (s2 & x & [-> ->]%get_ok & H).
      apply bind_ok in H as (s2 & cr & H1 & H). apply zoom_ok in H1 as (ec' & H1 & ->).
      destruct (al_create_rel _ _ _ _ _ IH1 H1) as [Hr He]. apply bind_ok in H as (s2 & x & [-> ->]%get_ok & H).
      apply bind_ok in H as (s2 & [] & H2 & H). assert (rs_ec s2 = ec') as H3.
      { destruct (container_was_grow cr); [|by apply ret_ok in H2 as [_ ->]]. apply bind_ok in H2 as (s3 & b & [_ ->]%lift_ok & ->%mod_ok). done. }
      apply bind_ok in H as (s3 & x & [-> ->]%get_ok & H). apply bind_ok in H as (s3 & b & [_ ->]%lift_ok & H).
      apply bind_ok in H as (s3 & [] & ->%mod_ok & [-> ->]%ret_ok). simpl. rewrite H3, <- He. done.
    + apply bind_ok in H as (s1 & v & H & [-> ->]%ret_ok). unfold rs_release in H. apply bind_ok in H as (s2 & x & [-> ->]%get_ok & H).
      apply bind_ok in H as (s2 & [] & [_ ->]%lift_ok & H). apply bind_ok in H as (s2 & [] & H1 & [_ ->]%lift_ok). apply zoom_ok in H1 as (ec' & H1 & ->).
      simpl. rewrite app_nil_r. split; [by eapply al_destroy_rel|done].
    + apply bind_ok in H as (s1 & w & H & [-> ->]%ret_ok). unfold rs_assign in H. apply bind_ok in H as (s2 & x & [-> ->]%get_ok & H).
      apply bind_ok in H as (s2 & old & [_ ->]%lift_ok & H). apply bind_ok in H as (s2 & b & [_ ->]%lift_ok & H).
      apply bind_ok in H as (s2 & [] & ->%mod_ok & [-> ->]%ret_ok). simpl. by rewrite app_nil_r.
Qed.
Lemma handles_predicted c cap tr s : run c cap tr s → issued tr = predicted (lives tr).
Proof. intros [_ <-]%run_predicted. done. Qed.
Lemma rhandles_predicted {T} md (s0 : rs T) tr s : rinit s0 → rrun md s0 tr s → rissued tr = predicted (rlives tr).
Proof. intros Hi H. by destruct (rrun_predicted _ _ _ _ Hi H) as [_ <-]. Qed.
Lemma same_lives c cap tr s c' cap' tr' s' : run c cap tr s → run c' cap' tr' s' → lives tr = lives tr' → issued tr = issued tr'.
Proof. intros H1%handles_predicted H2%handles_predicted He. by rewrite H1, H2, He. Qed.
Lemma same_lives_resource {T} md (s0 : rs T) rtr rst c cap tr s : rinit s0 → rrun md s0 rtr rst → run c cap tr s → rlives rtr = lives tr → rissued rtr = issued tr.
Proof. intros Hi H1 H2%handles_predicted He. rewrite (rhandles_predicted _ _ _ _ Hi H1), H2. by rewrite He. Qed.
