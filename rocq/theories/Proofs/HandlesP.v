(** HandlesP.v — handles over whole histories of a debug build. *)
From Verif.Spec Require Export Env Handles.
From Verif.Proofs Require Export StoreP.
Local Open Scope N_scope.

Lemma issued_snoc tr o r : issued (tr ++ [(o, r)]) = issued tr ++ match r with Some e => [e] | None => [] end.
Proof. unfold issued. rewrite omap_app. by destruct r. Qed.
Lemma live_snoc tr x : live (tr ++ [x]) = live_step (live tr) x.
Proof. unfold live. by rewrite foldl_app. Qed.

Lemma since_nil P Q : ¬ since P Q [].
Proof. intros (tr1 & x & tr2 & H & _). by destruct tr1. Qed.
Lemma since_snoc P Q tr x : since P Q (tr ++ [x]) ↔ P x ∨ (since P Q tr ∧ ¬ Q x).
Proof.
  split.
  - intros (tr1 & y & tr2 & Heq & HP & HQ). destruct tr2 as [|z tr2 _] using rev_ind.
    + apply app_inj_tail in Heq as [-> ->]. by left.
    + rewrite app_comm_cons, app_assoc in Heq. apply app_inj_tail in Heq as [-> <-].
      apply Forall_app in HQ as [HQ Hx]. right. split; [|by inversion Hx]. by exists tr1, y, tr2.
  - intros [HP|[(tr1 & y & tr2 & -> & HP & HQ) Hx]].
    + exists tr, x, []. split_and!; [done|done|constructor].
    + exists tr1, y, (tr2 ++ [x]). rewrite <- app_assoc. split_and!; [done|done|].
      apply Forall_app. split; [done|]. by constructor.
Qed.

Lemma live_alive tr e : e ∈ live tr ↔ alive_in tr e.
Proof.
  unfold alive_in. induction tr as [|[o r] tr IH] using rev_ind.
  - split; [set_solver|]. by intros ?%since_nil.
  - rewrite live_snoc, since_snoc, <- IH. unfold live_step. simpl. rewrite elem_of_union.
    assert (e ∈ (match r with Some e => {[e]} | None => ∅ end : gset entity) ↔ r = Some e) as ->.
    { destruct r; set_solver. }
    assert (e ∈ match o with ODestroy e0 => live tr ∖ {[e0]} | _ => live tr end ↔ e ∈ live tr ∧ o ≠ ODestroy e) as ->.
    { destruct o; try (split; [intros; split; [done|congruence]|by intros []]). set_solver. }
    naive_solver.
Qed.

Lemma ec_step_inv s o r s' tr : ec_inv s (issued tr) (live tr) → ec_step Debug s o r s' →
  ec_inv s' (issued (tr ++ [(o, r)])) (live (tr ++ [(o, r)])) ∧ ec_cap s ≤ ec_cap s'.
Proof.
  intros Hi Hs. rewrite issued_snoc, live_snoc. unfold live_step. simpl. destruct Hs as [o cr s' Ho H|e s' H|o H1 H2 H3].
  - pose proof (ec_create_spec True s _ _ Hi) as Hc. rewrite H in Hc. destruct Hc as (_ & Hi' & _ & _ & _ & _ & _ & Hcap & _).
    split; [|destruct Hcap as [->|[-> _]]; lia].
    assert (match o with ODestroy e => live tr ∖ {[e]} | _ => live tr end = live tr) as ->; [|done].
    by destruct Ho as [->|[a ->]].
  - apply (ec_destroy_debug _ _ _ _ _ _ Hi) in H as (_ & Hi' & Hcap & _).
    rewrite app_nil_r. split; [|lia]. by rewrite (right_id_L ∅ (∪)).
  - rewrite app_nil_r, (right_id_L ∅ (∪)). split; [|done]. destruct o; try done. by destruct (H3 e).
Qed.

Lemma store_init_ec md cap s : store_with_capacity md cap = POk s → st_ec s = ec_new cap ∧ (md = Debug → 0 < cap).
Proof.
  unfold store_with_capacity. intros ([] & Hd & [= <-])%pbind_ok. split; [done|]. intros ->.
  apply dassert_debug in Hd. injection Hd as Hd. by apply N.ltb_lt in Hd.
Qed.

Section debug.
Context (c : cfg) (cap : N) (Hmd : c_mode c = Debug).

Lemma run_ec tr s : run c cap tr s → ec_inv (st_ec s) (issued tr) (live tr).
Proof.
  induction 1 as [s H|tr s o s' r _ IH H].
  - apply store_init_ec in H as [-> _]. apply ec_new_inv.
  - apply step_ec in H. rewrite Hmd in H. by apply (ec_step_inv _ _ _ _ _ IH) in H as [? _].
Qed.

Lemma handles_nodup tr s : run c cap tr s → NoDup (issued tr) ∧ Forall (λ e, e_id e ≠ NULL_ID) (issued tr).
Proof.
  intros Hi%run_ec. split; [apply Hi|]. apply Forall_forall. intros e He.
  pose proof (inv_issued_null _ _ _ Hi _ He). lia.
Qed.

Lemma creation_returns tr s o s' r : run c cap tr s → step c o s = ROk s' r →
  (o = OCreate ∨ ∃ a, o = OCreateWith a) ↔ is_Some r.
Proof.
  intros _ H%step_ec. destruct H as [o cr s1 Ho _|e s1 _|o H1 H2 H3].
  - split; [by eauto|done].
  - split; [|by intros [? ?]]. naive_solver.
  - split; [|by intros [? ?]]. naive_solver.
Qed.

Lemma is_alive_exact tr s e : run c cap tr s → e_id e < entities_capacity s →
  ∃ b : bool, is_alive c s e = POk b ∧ (b = true ↔ alive_in tr e).
Proof.
  intros Hi%run_ec Hlt. eexists. split; [by apply (ec_is_alive_spec _ _ _ _ _ Hi)|].
  by rewrite bool_decide_eq_true, live_alive.
Qed.

Lemma is_alive_beyond tr s e : run c cap tr s → entities_capacity s ≤ e_id e → is_alive c s e = PPanic.
Proof.
  intros _ Hge. unfold is_alive, ec_is_alive. rewrite Hmd. simpl. unfold validate_id, entities_capacity in *.
  apply N.ltb_ge in Hge. by rewrite Hge.
Qed.

Lemma live_ids tr s : run c cap tr s →
  (∀ e1 e2, alive_in tr e1 → alive_in tr e2 → e_id e1 = e_id e2 → e1 = e2) ∧
  (∀ e, alive_in tr e → e_id e < entities_capacity s).
Proof.
  intros Hi%run_ec. split.
  - intros e1 e2 H1%live_alive H2%live_alive Heq.
    apply (inv_live _ _ _ Hi) in H1 as [_ H1], H2 as [_ H2]. rewrite Heq, H2 in H1.
    destruct e1, e2; simpl in *. congruence.
  - intros e H%live_alive. by eapply live_lt.
Qed.

Lemma capacity_mono tr s o s' r : run c cap tr s → step c o s = ROk s' r →
  entities_capacity s ≤ entities_capacity s'.
Proof.
  intros Hi%run_ec H%step_ec. rewrite Hmd in H. by apply (ec_step_inv _ _ _ _ _ Hi) in H as [_ ?].
Qed.

Lemma capacity_ge tr s : run c cap tr s → cap ≤ entities_capacity s.
Proof.
  induction 1 as [s H|tr s o s' r Hrun IH H].
  - apply store_init_ec in H as [H _]. unfold entities_capacity. by rewrite H.
  - etrans; [exact IH|]. by eapply capacity_mono.
Qed.

(** Peak population. *)
Lemma peak_from_snoc L tr x : peak_from L (tr ++ [x]) =
  N.max (peak_from L tr) (N.of_nat (size (foldl live_step L (tr ++ [x])))).
Proof.
  revert L. induction tr as [|y tr IH]; intros L; simpl; [lia|]. rewrite IH. lia.
Qed.
Lemma peak_snoc tr x : peak (tr ++ [x]) = N.max (peak tr) (N.of_nat (size (live (tr ++ [x])))).
Proof. apply peak_from_snoc. Qed.

Lemma all_used_size s I L : ec_inv s I L → ec_gaps s = [] → ec_next s ≤ N.of_nat (size L).
Proof.
  intros Hi Hg. set (f := λ k, Entity (N.of_nat k) (default 0 (ver_at s (N.of_nat k)))).
  assert (list_to_set (f <$> seq 0 (N.to_nat (ec_next s))) ⊆ L) as Hsub.
  { intros id. rewrite elem_of_list_to_set, elem_of_list_fmap. intros (k & -> & Hk%elem_of_seq).
    destruct (inv_next_used _ _ _ Hi (N.of_nat k)) as (w & Hw & _); [lia|].
    apply (inv_live _ _ _ Hi). unfold f. simpl. rewrite Hw. simpl.
    split; [|done]. apply (inv_alive _ _ _ Hi). rewrite Hg. split; [lia|apply not_elem_of_nil]. }
  apply subseteq_size in Hsub. rewrite size_list_to_set in Hsub.
  - rewrite fmap_length, seq_length in Hsub. lia.
  - apply NoDup_fmap_2; [|apply NoDup_seq]. intros ? ? [= ?]. lia.
Qed.

Lemma capacity_bound tr s : run c cap tr s → cap < u32_size → peak tr < 2147483648 →
  entities_capacity s ≤ N.max cap (2 * peak tr).
Proof.
  intros Hrun Hcap. induction Hrun as [s H|tr s o s' r Hrun IH H]; intros Hp.
  - unfold entities_capacity. apply store_init_ec in H as [-> _]. simpl. lia.
  - rewrite peak_snoc in Hp |- *. specialize (IH ltac:(lia)). unfold entities_capacity in *.
    pose proof (run_ec _ _ Hrun) as Hi. apply step_ec in H as Hs. rewrite Hmd in Hs.
    assert (0 < cap) as Hpos.
    { clear -Hrun Hmd. induction Hrun as [s H|]; [|done]. apply store_init_ec in H as [_ H]. auto. }
    pose proof (ec_step_inv _ _ _ _ _ Hi Hs) as [Hi' _].
    destruct Hs as [o cr s1 Ho Hc|e s1 Hd|o H1 H2 H3]; [|apply (ec_destroy_debug _ _ _ _ _ _ Hi) in Hd as (_ & _ & -> & _); lia|lia].
    pose proof (ec_create_spec True _ _ _ Hi) as Hc'. rewrite Hc in Hc'.
    destruct Hc' as (Hnew & Hi2 & _ & _ & _ & _ & _ & Hgrow & _).
    destruct Hgrow as [->|(-> & Hid & Has & Hg)]; [lia|].
    pose proof (all_used_size _ _ _ Hi Hg) as Hsz.
    assert (size (live tr) ≤ size (live (tr ++ [(o, Some (cr_entity cr))])))%nat.
    { apply subseteq_size. rewrite live_snoc. unfold live_step. destruct Ho as [->|[a ->]]; simpl; set_solver. }
    unfold as_u32 in Has. rewrite N.mod_small in Has by (unfold u32_size in *; lia).
    pose proof (inv_next_cap _ _ _ Hi).
    pose proof (capacity_ge _ _ Hrun). unfold entities_capacity in *. lia.
Qed.

Lemma reuse_first tr s o s' e : run c cap tr s → step c o s = ROk s' (Some e) →
  (∀ e', e' ∈ issued tr → e_id e' ≠ e_id e) →
  ∀ e', e' ∈ issued tr → ∃ e'', alive_in tr e'' ∧ e_id e'' = e_id e'.
Proof.
  intros Hi%run_ec H%step_ec Hf e' He'. rewrite Hmd in H. inversion H as [o' cr s1 Ho Hc| |]; subst.
  pose proof (ec_create_spec True _ _ _ Hi) as Hc'. rewrite Hc in Hc'.
  destruct Hc' as (_ & _ & _ & _ & _ & _ & _ & _ & Hr). specialize (Hr Hf _ He').
  destruct (inv_issued _ _ _ Hi _ He') as (v & Hv & _).
  exists (Entity (e_id e') v). split; [|done]. apply live_alive, (inv_live _ _ _ Hi). done.
Qed.

Lemma destroy_dead_rejected tr s e s' r : run c cap tr s → ¬ alive_in tr e → step c (ODestroy e) s ≠ ROk s' r.
Proof.
  intros Hi%run_ec Hd [Hok ->]%no_out_ok. apply destroy_ok in Hok as (Hok & _). rewrite Hmd in Hok.
  apply (ec_destroy_debug _ _ _ _ _ _ Hi) in Hok as [?%live_alive _]. done.
Qed.
End debug.
