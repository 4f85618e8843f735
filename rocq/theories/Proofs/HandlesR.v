(** HandlesR.v — handles in release builds. *)
From Verif.Spec Require Export Modes.
From Verif.Proofs Require Import HandlesP ExecP ModeP.
Local Open Scope N_scope.

(** ** One id created and destroyed over and over: the version wraps around *)
Definition spin (k : nat) : list (op * option entity) :=
  flat_map (λ i, let e := Entity 0 ((N.of_nat i + 1) mod u32_size) in [(OCreate, Some e); (ODestroy e, None)]) (seq 0 k).
Definition spin_st (v : N) : store :=
  Store (EC [] 1 [Some v] [0] 0) ac_new (tags_new 1) (orders_new 1) [Some 0%nat] [Some 0%nat] [0].
Lemma u32_add_release a b : u32_add Release a b = POk ((a + b) mod u32_size).
Proof.
  unfold u32_add. destruct (N.ltb_spec (a + b) u32_size); [by rewrite N.mod_small|done].
Qed.
Lemma spin_create c v : c_mode c = Release →
  step c OCreate (spin_st v) = ROk (Store (EC [] 1 [Some ((v + 1) mod u32_size)] [1] 1) ac_new (tags_new 1) (orders_new 1) [Some 0%nat] [Some 0%nat] [0])
                                   (Some (Entity 0 ((v + 1) mod u32_size))).
Proof.
  intros Hmd. unfold step, create_entity, register_new_entity. rewrite Hmd.
  assert (ec_create Release (EC [] 1 [Some v] [0] 0) =
    ROk (EC [] 1 [Some ((v + 1) mod u32_size)] [1] 1) (Creation (Entity 0 ((v + 1) mod u32_size)) 1 1)) as H.
  { pose proof (u32_add_release v 1) as Hv. revert Hv. generalize ((v + 1) mod u32_size). intros w Hv. cbv -[u32_add N.modulo u32_size].
    change (u32_add Release 0 1) with (@POk N 1). cbv -[u32_add N.modulo u32_size]. change (1 mod u32_size) with 1.
    cbv -[u32_add]. by rewrite Hv. }
  unfold on_ec, zoom, mbind, M_bind. cbn [spin_st st_ec]. rewrite H. generalize ((v + 1) mod u32_size). reflexivity.
Qed.
Lemma spin_destroy c v : c_mode c = Release →
  step c (ODestroy (Entity 0 v)) (Store (EC [] 1 [Some v] [1] 1) ac_new (tags_new 1) (orders_new 1) [Some 0%nat] [Some 0%nat] [0])
  = ROk (spin_st v) None.
Proof. intros Hmd. unfold step, destroy_entity. rewrite Hmd. reflexivity. Qed.
Lemma spin_succ k : spin (S k) = spin k ++
  [(OCreate, Some (Entity 0 ((N.of_nat k + 1) mod u32_size))); (ODestroy (Entity 0 ((N.of_nat k + 1) mod u32_size)), None)].
Proof. unfold spin. rewrite seq_S, flat_map_app. done. Qed.
Lemma spin_run c k : c_mode c = Release → run c 1 (spin k) (spin_st (N.of_nat k mod u32_size)).
Proof.
  intros Hmd. induction k as [|k IH].
  - apply run_init. rewrite Hmd. reflexivity.
  - rewrite spin_succ. assert ((N.of_nat k mod u32_size + 1) mod u32_size = (N.of_nat k + 1) mod u32_size) as E.
    { rewrite N.add_mod_idemp_l; [done|]. done. }
    replace (N.of_nat (S k)) with (N.of_nat k + 1) by lia. rewrite <- E.
    change [?a; ?b] with ([a] ++ [b]). rewrite app_assoc. eapply run_step; [eapply run_step; [exact IH|]|].
    + by apply spin_create.
    + by apply spin_destroy.
Qed.
Lemma issued_spin k : issued (spin k) = (λ i, Entity 0 ((N.of_nat i + 1) mod u32_size)) <$> seq 0 k.
Proof.
  induction k as [|k IH]; [done|]. rewrite spin_succ, seq_S, fmap_app. unfold issued in *. rewrite omap_app, IH. done.
Qed.
(** After 2^32 rounds the first handle comes back. *)
Lemma release_reissues c : c_mode c = Release → ∃ tr s, run c 1 tr s ∧ ¬ NoDup (issued tr).
Proof.
  intros Hmd. assert (∃ n, N.of_nat n = u32_size) as [n Hn] by (exists (N.to_nat u32_size); apply N2Nat.id).
  exists (spin (S n)), (spin_st (N.of_nat (S n) mod u32_size)).
  split; [by apply spin_run|]. rewrite issued_spin. intros Hnd. assert (1 ≤ u32_size) as Hpos by done.
  assert (0%nat = n) as H; [|lia].
  eapply (NoDup_lookup _ _ _ (Entity 0 1) Hnd).
  - rewrite list_lookup_fmap, lookup_seq_lt by lia. reflexivity.
  - rewrite list_lookup_fmap, lookup_seq_lt by lia. cbn [fmap option_fmap option_map]. rewrite Nat.add_0_l, Hn. reflexivity.
Qed.

(** ** Fewer than 2^32 - 1 creations, and only live handles destroyed *)
Lemma next_issued s I L : ec_inv s I L → ec_next s ≤ N.of_nat (length I).
Proof.
  intros Hi. assert (N.of_nat <$> seq 0 (N.to_nat (ec_next s)) ⊆+ (e_id <$> I)) as H.
  { apply NoDup_submseteq; [apply NoDup_fmap_2; [apply _|apply NoDup_seq]|].
    intros x (k & -> & Hk%elem_of_seq)%elem_of_list_fmap. destruct (inv_next_used _ _ _ Hi (N.of_nat k)) as (w & Hw & Hw1); [lia|].
    destruct (inv_ver_used _ _ _ Hi _ _ Hw Hw1) as (e & He & <-). by apply elem_of_list_fmap_1. }
  apply submseteq_length in H. rewrite !fmap_length, seq_length in H. lia.
Qed.
Lemma u32_add_small md a b : a + b < u32_size → u32_add md a b = POk (a + b).
Proof. intros H%N.ltb_lt. unfold u32_add. by rewrite H. Qed.

Lemma ec_grow_vers s I L new s' u : ec_inv s I L → ec_grow new s = ROk s' u →
  ∀ id v, ver_at s' id = Some v → v = 0 ∨ ver_at s id = Some v.
Proof.
  intros Hi H id v Hv. pose proof (ec_grow_spec True new s (λ _, True) I L Hi) as Hg. rewrite H in Hg.
  destruct Hg as (Hi' & Hc & _ & _ & _ & H1 & H2). destruct (N.lt_ge_cases id (ec_cap s)) as [Hlt|Hge].
  - destruct (inv_ver_some _ _ _ Hi _ Hlt) as [w Hw]. rewrite (H1 _ _ Hw) in Hv. right. congruence.
  - left. pose proof (ver_at_lt _ _ _ _ _ Hi' Hv). rewrite H2 in Hv by lia. congruence.
Qed.
(** Creation without overflow: the build mode does not matter, and versions increase by one at most. *)
Lemma ec_create_small s I L B : ec_inv s I L → (∀ id v, ver_at s id = Some v → v ≤ B) → B + 1 < u32_size → ec_next s + 1 < u32_size →
  ec_create Release s = ec_create Debug s ∧
  ∀ s' cr, ec_create Debug s = ROk s' cr → ∀ id v, ver_at s' id = Some v → v ≤ B + 1.
Proof.
  intros Hi HB HB1 Hn.
  set (k := λ (md : mode) (id : N), (s1 ← getS;
        al ← lift (bv_toggle (ec_alive s1) id);
        _ ← modS (ec_set_alive al);
        v ← lift (aget (ec_ver s1) id);
        version ← lift (u32_add md v 1);
        vers ← lift (aset (ec_ver s1) id version);
        _ ← modS (ec_set_ver vers);
        s2 ← getS;
        mret (Creation (Entity id version) (ec_cap s) (ec_cap s2))) : M ec creation).
  assert (∀ id s1, (∀ i v, ver_at s1 i = Some v → v ≤ B) →
    k Release id s1 = k Debug id s1 ∧ ∀ s' cr, k Debug id s1 = ROk s' cr → ∀ i v, ver_at s' i = Some v → v ≤ B + 1) as Htail.
  { intros id s1 H1. unfold k, mbind, M_bind, getS, lift, modS. destruct (bv_toggle (ec_alive s1) id) as [al| |]; [|done..].
    destruct (aget (ec_ver s1) id) as [v| |] eqn:Ev; [|done..]. apply aget_ver in Ev.
    pose proof (H1 _ _ Ev). rewrite !u32_add_small by lia. split; [done|].
    destruct (aset (ec_ver s1) id (v + 1)) as [vers| |] eqn:Es; [|done..]. intros s' cr [= <- _] i w.
    unfold aset in Es. destruct (N.ltb_spec id (N.of_nat (length (ec_ver s1)))); [|done].
    injection Es as <-. unfold ver_at. cbn.
    destruct (decide (N.to_nat i = N.to_nat id)) as [Heq|Hne].
    - rewrite Heq, list_lookup_insert by lia. intros [= <-]. lia.
    - rewrite list_lookup_insert_ne by done. intros Hw. assert (w ≤ B); [|lia]. by apply (H1 i w). }
  assert (∀ md, ec_create md s = match last (ec_gaps s) with
    | Some id => k md id (ec_set_gaps (vpop (ec_gaps s)) s)
    | None => match (if will_grow_with_id s (ec_next s) then ec_grow (N.max (ec_cap s) 1 * 2) else mret tt) (ec_set_next (ec_next s + 1) s) with
              | ROk s1 _ => k md (ec_next s) s1 | RPanic s1 => RPanic s1 | RUB w => RUB w end
    end) as Hc.
  { intros md. unfold ec_create, k, mbind, M_bind, getS, lift, modS. destruct (last (ec_gaps s)); [reflexivity|].
    rewrite u32_add_small by done. by destruct (if will_grow_with_id s (ec_next s) then _ else _). }
  rewrite !Hc. clear Hc. destruct (last (ec_gaps s)) as [id|]; [by apply Htail|].
  destruct (will_grow_with_id s (ec_next s)).
  - rewrite ec_grow_next. destruct (ec_grow _ s) as [s1 u| |] eqn:Eg; [|done..].
    apply (Htail (ec_next s) (ec_set_next (ec_next s + 1) s1)). intros i v Hv.
    destruct (ec_grow_vers _ _ _ _ _ _ Hi Eg i v Hv) as [->|Hv']; [lia|by eapply HB].
  - apply (Htail (ec_next s) (ec_set_next (ec_next s + 1) s)). done.
Qed.

Lemma destroys_live_snoc tr o r : destroys_live (tr ++ [(o, r)]) ↔ destroys_live tr ∧ ∀ e, o = ODestroy e → alive_in tr e.
Proof.
  split.
  - intros H. split.
    + intros tr1 e r' tr2 ->. apply (H tr1 e r' (tr2 ++ [(o, r)])). by rewrite <- app_assoc.
    + intros e ->. by apply (H tr e r []).
  - intros [H Ho] tr1 e r' tr2 Heq. destruct tr2 as [|x tr2 _] using rev_ind.
    + apply app_inj_tail in Heq as [-> [= -> ->]]. by apply Ho.
    + rewrite app_comm_cons, app_assoc in Heq. apply app_inj_tail in Heq as [-> _]. by eapply H.
Qed.
Lemma careful_ec c cap tr s : run c cap tr s → destroys_live tr → N.of_nat (length (issued tr)) < u32_size - 1 →
  ec_inv (st_ec s) (issued tr) (live tr) ∧ ∀ id v, ver_at (st_ec s) id = Some v → v ≤ N.of_nat (length (issued tr)).
Proof.
  induction 1 as [s H|tr s o s' r Hrun IH H]; intros Hd Hl.
  - apply store_init_ec in H as [-> _]. split; [apply ec_new_inv|]. intros id v. unfold ver_at, ec_new, alloc_filled. simpl.
    destruct (replicate _ _ !! _) eqn:E; [|done]. apply lookup_replicate in E as [-> _]. by intros [= <-].
  - apply destroys_live_snoc in Hd as [Hd Ho]. rewrite issued_snoc, app_length in Hl |- *.
    destruct IH as [Hi HB]; [done|lia|]. apply step_ec in H. pose proof (next_issued _ _ _ Hi) as Hn.
    assert (ec_step Debug (st_ec s) o r (st_ec s')) as Hs.
    { destruct H as [o cr s1 Hcr Hc|e s1 Hdes|o H1 H2 H3].
      - apply ec_step_create; [done|]. destruct (c_mode c); [done|]. cbn in Hl.
        rewrite <- (proj1 (ec_create_small _ _ _ _ Hi HB ltac:(unfold u32_size in *; lia) ltac:(unfold u32_size in *; lia))). done.
      - apply ec_step_destroy. destruct (ec_destroy_live Debug _ _ _ e Hi) as (s2 & Hd1 & _); [by apply live_alive, Ho|].
        destruct (c_mode c); [done|]. pose proof (ec_destroy_agree e (st_ec s)) as Ha. rewrite Hd1 in Ha. cbn in Ha. congruence.
      - by apply ec_step_other. }
    split; [pose proof (ec_step_inv _ _ _ _ _ Hi Hs) as [Hi' _]; by rewrite issued_snoc in Hi'|].
    destruct Hs as [o cr s1 Hcr Hc|e s1 Hdes|o H1 H2 H3].
    + intros id v Hv. cbn in Hl |- *. destruct (ec_create_small _ _ _ _ Hi HB ltac:(unfold u32_size in *; lia) ltac:(unfold u32_size in *; lia)) as [_ Hv'].
      specialize (Hv' _ _ Hc _ _ Hv). lia.
    + apply (ec_destroy_debug _ _ _ _ _ _ Hi) in Hdes as (_ & _ & _ & Hver & _). intros id v. unfold ver_at. rewrite Hver.
      intros Hv. specialize (HB id v Hv). lia.
    + intros id v Hv. specialize (HB id v Hv). lia.
Qed.
Lemma careful_handles c cap tr s : run c cap tr s → destroys_live tr → N.of_nat (length (issued tr)) < u32_size - 1 →
  NoDup (issued tr) ∧ ∀ e, e_id e < entities_capacity s → ∃ b : bool, is_alive c s e = POk b ∧ (b = true ↔ alive_in tr e).
Proof.
  intros H Hd Hl. destruct (careful_ec _ _ _ _ H Hd Hl) as [Hi _]. split; [apply Hi|]. intros e He. eexists.
  split; [by apply (ec_is_alive_spec _ _ _ _ _ Hi)|]. by rewrite bool_decide_eq_true, live_alive.
Qed.

(** ** Destroying twice *)
Lemma toggle_dead s I L e s' u : ec_inv s I L → e ∉ L → ver_at s (e_id e) = Some (e_ver e) →
  ec_destroy Release e s = ROk s' u → ec_is_alive Release s' e = POk true.
Proof.
  intros Hi HL Hv H.
  pose proof (ver_at_lt _ _ _ _ _ Hi Hv) as Hcap.
  assert (bit (ec_alive s) (e_id e) = false) as Hb.
  { apply not_true_is_false. intros Hb. apply HL, (inv_live _ _ _ Hi). done. }
  unfold ec_destroy, mbind, M_bind, getS, lift, modS in H. cbn in H.
  destruct (bv_toggle (ec_alive s) (e_id e)) as [al| |] eqn:Et; [|done..].
  destruct (u32_sub Release (ec_next s) 1) as [l| |]; [|done..].
  assert (ec_alive s' = al ∧ ec_ver s' = ec_ver s) as [Ha Hve].
  { destruct (e_id e =? l); injection H as <- _; done. }
  unfold ec_is_alive, validate_version. cbn. rewrite Ha, Hve, (proj2 (aget_ver _ _ _) Hv). cbn.
  apply bv_toggle_ok in Et as [Hl Hbit].
  rewrite bv_get_lt. 2:{ rewrite Hl. eapply bv_sized_lt; [apply Hi|done]. }
  cbn. rewrite Hbit, Hb, bool_decide_true, N.eqb_refl by done. done.
Qed.
Lemma second_destroy_revives c cap tr s e s1 r1 s2 r2 : run (in_mode Debug c) cap tr s → alive_in tr e →
  step (in_mode Release c) (ODestroy e) s = ROk s1 r1 → step (in_mode Release c) (ODestroy e) s1 = ROk s2 r2 →
  is_alive (in_mode Release c) s1 e = POk false ∧ is_alive (in_mode Release c) s2 e = POk true.
Proof.
  intros Hr Ha H1 H2. pose proof (run_ec (in_mode Debug c) cap eq_refl _ _ Hr) as Hi. apply live_alive in Ha.
  apply no_out_ok in H1 as [(H1 & _)%destroy_ok _]. apply no_out_ok in H2 as [(H2 & _)%destroy_ok _]. cbn in H1, H2.
  destruct (ec_destroy_live Release _ _ _ _ Hi Ha) as (t & Ht & Hi1 & Hcap & Hver & Hb). rewrite H1 in Ht. injection Ht as Ht. rewrite <- Ht in *.
  pose proof (live_lt _ _ _ _ Hi Ha) as Hlt.
  unfold is_alive. split; [rewrite (ec_is_alive_spec _ _ _ _ _ Hi1), bool_decide_false; [done|set_solver|by rewrite Hcap]|].
  eapply toggle_dead; [exact Hi1|set_solver| |exact H2]. unfold ver_at. rewrite Hver. by apply (inv_live _ _ _ Hi).
Qed.

Definition twice : list (list entity → op) :=
  [λ _, OCreateWith (ex_arch [1]); λ _, OCreateWith (ex_arch [1]); λ hs, OAdd (h 1 hs) [(1, [1; 2; 3; 4])];
   λ hs, ODestroy (h 0 hs); λ hs, ODestroy (h 0 hs)].
Lemma twice_witness : ∃ tr s, run (ex_cfg Debug) 4 tr s ∧ issued tr !! 0%nat = Some (Entity 0 1) ∧ Entity 0 1 ∉ live tr ∧
  entities_capacity s = 4 ∧
  match step (ex_cfg Release) (ODestroy (Entity 0 1)) s with
  | ROk s1 _ => is_alive (ex_cfg Release) s1 (Entity 0 1) = POk true | _ => False end.
Proof.
  exists (end_trace (ex_cfg Debug) 4 (take 4 twice)), (end_store (ex_cfg Debug) 4 (take 4 twice)).
  split; [apply end_run; vm_compute; reflexivity|]. split; [vm_compute; reflexivity|]. split; [vm_compute; done|].
  split; vm_compute; reflexivity.
Qed.
Lemma twice_refuted : ¬ ∀ c cap tr s e s1 r1,
  cfg_ok c → run (in_mode Debug c) cap tr s → e ∈ issued tr → ¬ alive_in tr e → e_id e < entities_capacity s →
  step (in_mode Release c) (ODestroy e) s = ROk s1 r1 → is_alive (in_mode Release c) s1 e = POk false.
Proof.
  intros H. destruct twice_witness as (tr & s & Hr & Hi & Hl & Hc & Hs).
  specialize (H (ex_cfg Debug) 4 tr s (Entity 0 1)). change (in_mode Debug (ex_cfg Debug)) with (ex_cfg Debug) in H.
  change (in_mode Release (ex_cfg Debug)) with (ex_cfg Release) in H. destruct (step _ _ _) as [s1 r1| |]; [|done..].
  rewrite (H s1 r1 (ex_cfg_ok _) Hr) in Hs; [done|by eapply elem_of_list_lookup_2|by rewrite <- live_alive|rewrite Hc; done|done].
Qed.
