(** IndepP.v — the parts of the store do not influence one another. *)
From Verif.Spec Require Import Env Independence.
From Verif.Proofs Require Import StoreP ShapeP HandlesP TagsP OrdersP ExecP EntitiesP.
Local Open Scope N_scope.

(** ** Two histories that say the same about something *)
Lemma calls_snoc f tr o r : calls f (tr ++ [(o, r)]) = calls f tr ++ match f o with Some p => [p] | None => [] end.
Proof. unfold calls. rewrite fmap_app, omap_app. csimpl. by destruct (f o). Qed.
Lemma two_runs {V} (π : store → V) f c cap :
  (∀ tr s o s' r, run c cap tr s → step c o s = ROk s' r → f o = None → π s' = π s) →
  (∀ tr s o s' r tr2 s2 o2 s2' r2 p, run c cap tr s → run c cap tr2 s2 → step c o s = ROk s' r → step c o2 s2 = ROk s2' r2 →
     f o = Some p → f o2 = Some p → π s = π s2 → π s' = π s2') →
  ∀ tr s, run c cap tr s → ∀ tr2 s2, run c cap tr2 s2 → calls f tr = calls f tr2 → π s = π s2.
Proof.
  intros H1 H2. induction 1 as [s H|tr s o s' r Hrun IH Hst]; intros tr2 s2 Hrun2.
  - induction Hrun2 as [s2 H'|tr2 s2 o2 s2' r2 Hrun2 IH2 Hst2]; [intros _; congruence|]. rewrite calls_snoc. intros He.
    destruct (f o2) eqn:E; [by destruct (calls f tr2)|]. rewrite app_nil_r in He. rewrite (H1 _ _ _ _ _ Hrun2 Hst2 E). auto.
  - rewrite calls_snoc. destruct (f o) as [p|] eqn:E; [|rewrite app_nil_r; intros He; rewrite (H1 _ _ _ _ _ Hrun Hst E); eauto].
    induction Hrun2 as [s2 H'|tr2 s2 o2 s2' r2 Hrun2 IH2 Hst2]; [intros He; by destruct (calls f tr)|]. rewrite calls_snoc. intros He.
    destruct (f o2) as [q|] eqn:E2.
    + apply app_inj_tail in He as [He ->]. eapply (H2 _ _ _ _ _ _ _ _ _ _ q Hrun Hrun2 Hst Hst2); eauto.
    + rewrite app_nil_r in He. rewrite (H1 _ _ _ _ _ Hrun2 Hst2 E2). auto.
Qed.

(** ** Handles *)
Lemma ec_quiet c o s s' r : step c o s = ROk s' r → about_handles o = None → st_ec s' = st_ec s.
Proof. intros H%step_ec He. inversion H; subst; try done. destruct H0 as [->|[a ->]]; done. Qed.
Lemma ec_same c o s s' r o2 s2 s2' r2 p : step c o s = ROk s' r → step c o2 s2 = ROk s2' r2 →
  about_handles o = Some p → about_handles o2 = Some p → st_ec s = st_ec s2 → st_ec s' = st_ec s2' ∧ r = r2.
Proof.
  intros H1%step_ec H2%step_ec E1 E2 He. rewrite He in H1.
  inversion H1 as [o' cr t1 Ho Hcr|e t1 Hd|o' N1 N2 N3]; subst; inversion H2 as [o2' cr2 t2 Ho2 Hcr2|e2 t2 Hd2|o2' M1 M2 M3]; subst.
  - rewrite Hcr in Hcr2. by injection Hcr2 as -> ->.
  - destruct Ho as [->|[a ->]]; simpl in *; congruence.
  - destruct o2; simpl in *; try congruence; naive_solver.
  - destruct Ho2 as [->|[a ->]]; simpl in *; congruence.
  - simpl in *. simplify_eq. rewrite Hd in Hd2. by injection Hd2 as ->.
  - destruct o2; simpl in *; try congruence; naive_solver.
  - destruct o; simpl in *; try congruence; naive_solver.
  - destruct o; simpl in *; try congruence; naive_solver.
  - destruct o; simpl in *; try congruence; naive_solver.
Qed.
(** What a creation does to tags and orders. *)
Lemma create_parts c o s s' r : step c o s = ROk s' r → about_handles o = Some OCreate →
  if ec_cap (st_ec s') =? ec_cap (st_ec s) then st_tags s' = st_tags s ∧ st_orders s' = st_orders s
  else tags_grow (ec_cap (st_ec s')) (st_tags s) = ROk (st_tags s') () ∧
       orders_grow (c_mode c) (ec_cap (st_ec s')) (st_orders s) = ROk (st_orders s') ().
Proof.
  intros H E. assert (∃ s1 e, register_new_entity c s = ROk s1 e ∧ ids_part s' = ids_part s1) as (s1 & e & H1 & Hi).
  { destruct o; try done; simpl in H; apply bind_ok in H as (s1 & e & H & [-> ->]%ret_ok).
    - apply create_ok in H as (s2 & H & Hi & _). eauto.
    - apply create_with_ok in H as (s2 & H & Hi). eauto. }
  injection Hi as -> -> ->. apply register_ok in H1 as (cr & Hc & _ & _ & H1). apply ec_create_caps in Hc as [Hb Ha].
  unfold container_was_grow in H1. rewrite Hb, Ha in H1.
  destruct (N.eqb_spec (ec_cap (st_ec s1)) (ec_cap (st_ec s))); simpl in H1; [naive_solver|]. split; apply H1.
Qed.

(** ** Sorted keys with values *)
Definition look {V} (c : cfg) (ks : list tid) (vs : list V) (k : tid) : option V :=
  match c_bs c ks k with BFound i => vs !! i | BMissing _ => None end.
Section look.
Context (c : cfg) (Hbs : search_ok (c_bs c)).
Lemma look_assoc {V} ks (vs : list V) k v : incr ks → look c ks vs k = Some v ↔ assocl ks vs k v.
Proof using Hbs.
  intros Hs. unfold look. destruct (search_cases _ _ k Hbs Hs) as [(i & -> & Hi)|(i & -> & _ & Hn & _)]; split.
  - by exists i.
  - intros (j & Hj & Hv). assert (i = j) as -> by (eapply NoDup_lookup; [by apply incr_nodup|done..]). done.
  - done.
  - intros Ha%assoc_dom. done.
Qed.
Lemma look_insert {V} ks (vs : list V) i k x k' : incr ks → length vs = length ks → (i ≤ length ks)%nat → incr (take i ks ++ k :: drop i ks) → k ∉ ks →
  look c (take i ks ++ k :: drop i ks) (take i vs ++ x :: drop i vs) k' = if decide (k' = k) then Some x else look c ks vs k'.
Proof using Hbs.
  intros Hs Hl Hi Hs' Hn. apply option_eq. intros v. rewrite look_assoc, assoc_insert by done. case_decide as E.
  - subst. split; [intros [[_ ->]|Ha%assoc_dom]; done|intros [= ->]; by left].
  - rewrite look_assoc by done. naive_solver.
Qed.
Lemma look_update {V} ks (vs : list V) i k x k' : incr ks → length vs = length ks → ks !! i = Some k →
  look c ks (<[i := x]> vs) k' = if decide (k' = k) then Some x else look c ks vs k'.
Proof using Hbs.
  intros Hs Hl Hi. apply option_eq. intros v. rewrite look_assoc, (assoc_update _ _ _ k) by done. case_decide as E; [naive_solver|].
  rewrite look_assoc by done. naive_solver.
Qed.
Lemma look_forall2 {V W} (R : V → W → Prop) ks vs ws k : Forall2 R vs ws → option_Forall2 R (look c ks vs k) (look c ks ws k).
Proof using. intros HR. unfold look. destruct (c_bs c ks k); [|constructor]. by apply Forall2_lookup. Qed.
Lemma look_found {V} ks (vs : list V) i k : c_bs c ks k = BFound i → look c ks vs k = vs !! i.
Proof using. unfold look. by intros ->. Qed.

(** ** Tags *)
Definition tg_ok (s : tags) : Prop := incr (tg_ids s) ∧ length (tg_bvs s) = length (tg_ids s).
Definition tlook (s : tags) (t : tid) : option bitvec := look c (tg_ids s) (tg_bvs s) t.
Lemma tags_add_look t id s s' u : tg_ok s → tags_add c t id s = ROk s' u →
  tg_ok s' ∧ tg_cap s' = tg_cap s ∧ (∀ t', t' ≠ t → tlook s' t' = tlook s t') ∧
  ∃ v, bv_on (default (bv_alloc (tg_cap s)) (tlook s t)) id = POk v ∧ tlook s' t = Some v.
Proof using Hbs.
  intros [Hs Hl] H. unfold tags_add in H. apply bind_ok in H as (s0 & x & [-> ->]%get_ok & H).
  apply bind_ok in H as (s1 & i & H1 & H). apply bind_ok in H as (s0 & x & [-> ->]%get_ok & H).
  apply bind_ok in H as (s0 & v & [Hv ->]%lift_ok & H). apply bind_ok in H as (s0 & v' & [Hon ->]%lift_ok & H). apply put_ok in H as ->.
  assert (tg_ok s1 ∧ tg_cap s1 = tg_cap s ∧ tg_ids s1 !! i = Some t ∧ ∀ t', tlook s1 t' = if decide (t' = t) then Some (default (bv_alloc (tg_cap s)) (tlook s t)) else tlook s t') as ([Hs1 Hl1] & Hc1 & Hi1 & Hlk).
  { destruct (search_cases _ _ t Hbs Hs) as [(j & Ej & Hj)|(j & Ej & Hjl & Hn & Hinc)]; rewrite Ej in H1.
    - apply ret_ok in H1 as [-> ->]. split_and!; [done..|]. intros t'. case_decide; [|done]. subst t'. unfold tlook. rewrite (look_found _ _ _ _ Ej).
      apply lookup_lt_Some in Hj. destruct (lookup_lt_is_Some_2 (tg_bvs s) j) as [w ->]; [lia|done].
    - apply bind_ok in H1 as (s0 & ids & [Hids ->]%lift_ok & H1). apply bind_ok in H1 as (s0 & [] & ->%put_ok & H1).
      apply bind_ok in H1 as (s0 & bvs & [Hbv ->]%lift_ok & H1). apply bind_ok in H1 as (s0 & [] & ->%put_ok & [-> ->]%ret_ok).
      rewrite vinsert_le in Hids by done. injection Hids as <-. rewrite vinsert_le in Hbv by lia. injection Hbv as <-. simpl. split_and!; [split; [done|] | done | | ].
      + simpl. rewrite !app_length. simpl. rewrite !take_length, !drop_length. lia.
      + rewrite lookup_app_r by (rewrite take_length; lia). rewrite take_length_le by lia. by rewrite Nat.sub_diag.
      + intros t'. unfold tlook. simpl. rewrite look_insert by done. case_decide; [|done]. unfold look. by rewrite Ej. }
  assert (tlook s1 t = Some v) as Hlt.
  { apply look_assoc; [done|]. exists i. split; [done|]. unfold vget_unchecked in Hv. destruct (tg_bvs s1 !! i); [|done]. by injection Hv as ->. }
  split_and!; simpl; [split; simpl; [done|by rewrite insert_length]|done| |].
  - intros t' Hne. unfold tlook. simpl. rewrite (look_update _ _ _ t) by done. rewrite decide_False by done. fold (tlook s1 t'). rewrite Hlk. by rewrite decide_False.
  - exists v'. rewrite Hlk, decide_True in Hlt by done. injection Hlt as ->. split; [done|]. unfold tlook. simpl. rewrite (look_update _ _ _ t) by done. by rewrite decide_True.
Qed.
Lemma tags_remove_look t id s s' u : tg_ok s → tags_remove c t id s = ROk s' u →
  tg_ok s' ∧ tg_cap s' = tg_cap s ∧ (∀ t', t' ≠ t → tlook s' t' = tlook s t') ∧
  option_Forall2 (λ v v', bv_off v id = POk v') (tlook s t) (tlook s' t).
Proof using Hbs.
  intros [Hs Hl] H. unfold tags_remove in H. apply bind_ok in H as (s0 & x & [-> ->]%get_ok & H).
  destruct (search_cases _ _ t Hbs Hs) as [(j & Ej & Hj)|(j & Ej & Hjl & Hn & Hinc)]; rewrite Ej in H.
  - apply bind_ok in H as (s0 & v & [Hv ->]%lift_ok & H). apply bind_ok in H as (s0 & v' & [Hon ->]%lift_ok & H). apply put_ok in H as ->.
    unfold vget_unchecked in Hv. destruct (tg_bvs s !! j) as [w|] eqn:E; [|done]. injection Hv as ->. unfold tlook. simpl.
    split_and!; [split; simpl; [done|by rewrite insert_length]|done| |].
    + intros t' Hne. rewrite (look_update _ _ _ t) by done. by rewrite decide_False.
    + rewrite (look_update _ _ _ t) by done. rewrite decide_True by done. rewrite (look_found _ _ _ _ Ej), E. by constructor.
  - apply ret_ok in H as [_ ->]. split_and!; [done..|]. unfold tlook, look. rewrite Ej. constructor.
Qed.
Lemma tags_all_look id s s' u : tg_ok s → tags_remove_all id s = ROk s' u →
  tg_ok s' ∧ tg_cap s' = tg_cap s ∧ ∀ t, option_Forall2 (λ v v', bv_off v id = POk v') (tlook s t) (tlook s' t).
Proof using.
  intros [Hs Hl] H. unfold tags_remove_all in H. apply bind_ok in H as (s0 & x & [-> ->]%get_ok & H).
  apply bind_ok in H as (s0 & bvs & [Hb%bvs_map_ok ->]%lift_ok & H). apply put_ok in H as ->.
  split_and!; [split; simpl; [done|]|done|]; [by rewrite <- (Forall2_length _ _ _ Hb)|]. intros t. by apply look_forall2.
Qed.
Lemma tags_grow_look new s s' u : tg_ok s → tags_grow new s = ROk s' u →
  tg_ok s' ∧ tg_cap s' = new ∧ ∀ t, option_Forall2 (λ v v', bv_realloc v (tg_cap s) new = POk v') (tlook s t) (tlook s' t).
Proof using.
  intros [Hs Hl] H. unfold tags_grow in H. apply bind_ok in H as (s0 & x & [-> ->]%get_ok & H).
  apply bind_ok in H as (s0 & bvs & [Hb%bvs_map_ok ->]%lift_ok & H). apply put_ok in H as ->.
  split_and!; [split; simpl; [done|]|done|]; [by rewrite <- (Forall2_length _ _ _ Hb)|]. intros t. by apply look_forall2.
Qed.
Lemma option_Forall2_fun {A} (f : A → pres A) x y y' : option_Forall2 (λ v v', f v = POk v') x y → option_Forall2 (λ v v', f v = POk v') x y' → y = y'.
Proof using. intros H1 H2. destruct H1; inversion H2; congruence. Qed.

Lemma run_tg_ok cap tr s : run c cap tr s → tg_ok (st_tags s).
Proof using Hbs. intros H%(run_tags_inv c Hbs). split; apply H. Qed.
Definition tpart (t : tid) (s : store) := (st_ec s, tg_cap (st_tags s), tlook (st_tags s) t).
Lemma tpart_quiet t tr cap s o s' r : run c cap tr s → step c o s = ROk s' r → about_tag t o = None → tpart t s' = tpart t s.
Proof using Hbs.
  intros Hrun%run_tg_ok H E. unfold tpart. rewrite (ec_quiet _ _ _ _ _ H) by (destruct o; simpl in *; done).
  pose proof (step_tags _ _ _ _ _ H) as Ht. inversion Ht as [o' Ho|e Hc Hr|t' e Hc Hr|t' e Hc Hr|o' N1 N2 N3 N4 N5]; subst.
  - destruct Ho as [->|[a ->]]; done.
  - done.
  - destruct (tags_add_look _ _ _ _ _ Hrun Hr) as (_ & -> & Hl & _). rewrite Hl; [done|]. intros ->. simpl in E. by rewrite decide_True in E.
  - destruct (tags_remove_look _ _ _ _ _ Hrun Hr) as (_ & -> & Hl & _). rewrite Hl; [done|]. intros ->. simpl in E. by rewrite decide_True in E.
  - by rewrite N5.
Qed.
Lemma tpart_same t cap tr s o s' r tr2 s2 o2 s2' r2 p : run c cap tr s → run c cap tr2 s2 → step c o s = ROk s' r → step c o2 s2 = ROk s2' r2 →
  about_tag t o = Some p → about_tag t o2 = Some p → tpart t s = tpart t s2 → tpart t s' = tpart t s2'.
Proof using Hbs.
  intros R1%run_tg_ok R2%run_tg_ok H1 H2 E1 E2 He. unfold tpart in *. injection He as He Hc Hl.
  assert ((∃ b : bool, ∃ e, o = (if b then OTagAdd else OTagDel) t e ∧ o2 = o) ∨ about_handles o = Some p ∧ about_handles o2 = Some p) as [(b & e & -> & ->)|[A1 A2]].
  { destruct o; simpl in E1; try case_decide; try done; simplify_eq; destruct o2; simpl in E2; try case_decide; simplify_eq; try (by right); left; [exists true|exists false]; eauto. }
  - assert (st_ec s' = st_ec s ∧ st_ec s2' = st_ec s2) as [-> ->].
    { split; [apply (ec_quiet _ _ _ _ _ H1)|apply (ec_quiet _ _ _ _ _ H2)]; by destruct b. }
    rewrite He. destruct b; simpl in H1, H2; apply no_out_ok in H1 as [(t1 & H1 & ->)%zoom_ok _]; apply no_out_ok in H2 as [(t2 & H2 & ->)%zoom_ok _]; simpl.
    + destruct (tags_add_look _ _ _ _ _ R1 H1) as (_ & -> & _ & v1 & V1 & ->). destruct (tags_add_look _ _ _ _ _ R2 H2) as (_ & -> & _ & v2 & V2 & ->).
      rewrite Hc, Hl in V1. rewrite Hc. congruence.
    + destruct (tags_remove_look _ _ _ _ _ R1 H1) as (_ & -> & _ & V1). destruct (tags_remove_look _ _ _ _ _ R2 H2) as (_ & -> & _ & V2).
      rewrite Hl in V1. rewrite Hc. by rewrite (option_Forall2_fun _ _ _ _ V1 V2).
  - destruct (ec_same _ _ _ _ _ _ _ _ _ _ H1 H2 A1 A2 He) as [He' _]. destruct p; try (by destruct o; simpl in A1; congruence).
    + pose proof (create_parts _ _ _ _ _ H1 A1) as P1. pose proof (create_parts _ _ _ _ _ H2 A2) as P2. rewrite He, He' in P1. rewrite He'.
      destruct (_ =? _); [destruct P1 as [-> _], P2 as [-> _]; by rewrite Hc, Hl|]. destruct P1 as [P1 _], P2 as [P2 _].
      destruct (tags_grow_look _ _ _ _ R1 P1) as (_ & -> & V1). destruct (tags_grow_look _ _ _ _ R2 P2) as (_ & -> & V2).
      specialize (V1 t). specialize (V2 t). rewrite Hc, Hl in V1. by rewrite (option_Forall2_fun _ _ _ _ V1 V2).
    + assert (o = ODestroy e ∧ o2 = ODestroy e) as [-> ->] by (clear -A1 A2; destruct o; simpl in A1; try congruence; destruct o2; simpl in A2; split; congruence). simpl in H1, H2.
      apply no_out_ok in H1 as [(_ & H1 & _)%destroy_ok _]. apply no_out_ok in H2 as [(_ & H2 & _)%destroy_ok _]. rewrite He'.
      destruct (tags_all_look _ _ _ _ R1 H1) as (_ & -> & V1). destruct (tags_all_look _ _ _ _ R2 H2) as (_ & -> & V2).
      specialize (V1 t). specialize (V2 t). rewrite Hl in V1. rewrite Hc. by rewrite (option_Forall2_fun _ _ _ _ V1 V2).
Qed.
Lemma tags_independent cap tr s tr2 s2 t : run c cap tr s → run c cap tr2 s2 → calls (about_tag t) tr = calls (about_tag t) tr2 → tpart t s = tpart t s2.
Proof using Hbs. intros H1 H2. eapply (two_runs (tpart t) (about_tag t)); [intros; by eapply tpart_quiet|intros ??????????? R1 R2 S1 S2 A1 A2 Ep; exact (tpart_same _ _ _ _ _ _ _ _ _ _ _ _ _ R1 R2 S1 S2 A1 A2 Ep)|done|done]. Qed.
Lemma has_tag_independent cap tr s tr2 s2 t : run c cap tr s → run c cap tr2 s2 → calls (about_tag t) tr = calls (about_tag t) tr2 →
  filter_tag c s t = filter_tag c s2 t ∧ ∀ e, has_tag c s t e = has_tag c s2 t e ∧ is_alive c s e = is_alive c s2 e.
Proof using Hbs.
  intros H1 H2 He. pose proof (tags_independent _ _ _ _ _ _ H1 H2 He) as Hp. injection Hp as Hec _ Hl.
  pose proof (run_tg_ok _ _ _ H1) as [S1 L1]. pose proof (run_tg_ok _ _ _ H2) as [S2 L2].
  unfold filter_tag, has_tag, has_tag_bitvec, tags_has, is_alive. rewrite Hec. unfold tlook, look in Hl. unfold vget_unchecked.
  destruct (search_cases _ _ t Hbs S1) as [(i & Ei & Hi)|(i & Ei & _)]; rewrite Ei in Hl |- *;
    destruct (search_cases _ _ t Hbs S2) as [(j & Ej & Hj)|(j & Ej & _)]; rewrite Ej in Hl |- *.
  - by rewrite Hl.
  - apply lookup_lt_Some in Hi. rewrite <- L1 in Hi. apply lookup_lt_is_Some_2 in Hi as [v Hv]. congruence.
  - apply lookup_lt_Some in Hj. rewrite <- L2 in Hj. apply lookup_lt_is_Some_2 in Hj as [v Hv]. congruence.
  - done.
Qed.

(** ** Order groups *)
Definition ogs (s : orders) (gs : list grp) : Prop := incr (og_ids s) ∧ length gs = length (og_ids s) ∧
  og_head s = g_head <$> gs ∧ og_tail s = g_tail <$> gs ∧ og_fwd s = g_fwd <$> gs ∧ og_bwd s = g_bwd <$> gs.
Definition glook (s : orders) (t : tid) : option grp := match c_bs c (og_ids s) t with BFound i => grp_at s i | BMissing _ => None end.
Lemma ogs_at s gs i : ogs s gs → grp_at s i = gs !! i.
Proof using. intros (_ & _ & H1 & H2 & H3 & H4). unfold grp_at. rewrite H1, H2, H3, H4, !list_lookup_fmap. by destruct (gs !! i) as [[]|]. Qed.
Lemma ogs_look s gs t : ogs s gs → glook s t = look c (og_ids s) gs t.
Proof using. intros H. unfold glook, look. destruct (c_bs c (og_ids s) t); [by apply ogs_at|done]. Qed.
Definition new_grp (cap : N) : grp := Grp NULL_ID NULL_ID (alloc_links cap) (alloc_links cap).
Lemma reserve_look t s gs s' i : ogs s gs → reserve_group c t s = ROk s' i → ∃ gs', ogs s' gs' ∧ og_cap s' = og_cap s ∧ og_ids s' !! i = Some t ∧
  ∀ t', glook s' t' = if decide (t' = t) then Some (default (new_grp (og_cap s)) (glook s t)) else glook s t'.
Proof using Hbs.
  intros Ho H. pose proof Ho as (Hs & Hl & H1 & H2 & H3 & H4). unfold reserve_group in H. apply bind_ok in H as (s0 & x & [-> ->]%get_ok & H).
  destruct (search_cases _ _ t Hbs Hs) as [(j & Ej & Hj)|(j & Ej & Hjl & Hn & Hinc)]; rewrite Ej in H.
  - apply ret_ok in H as [-> ->]. exists gs. split_and!; [done..|]. intros t'. case_decide; [|done]. subst t'. unfold glook. rewrite Ej, (ogs_at _ _ _ Ho).
    apply lookup_lt_Some in Hj. destruct (lookup_lt_is_Some_2 gs j) as [w ->]; [lia|done].
  - apply bind_ok in H as (s0 & ids & [Hids ->]%lift_ok & H). apply bind_ok in H as (s0 & [] & ->%put_ok & H).
    apply bind_ok in H as (s0 & fwd & [Hf ->]%lift_ok & H). apply bind_ok in H as (s0 & bwd & [Hb ->]%lift_ok & H).
    apply bind_ok in H as (s0 & hd & [Hh ->]%lift_ok & H). apply bind_ok in H as (s0 & tl & [Ht ->]%lift_ok & H).
    apply bind_ok in H as (s0 & [] & ->%put_ok & [-> ->]%ret_ok). rewrite H1 in Hh. rewrite H2 in Ht. rewrite H3 in Hf. rewrite H4 in Hb.
    rewrite vinsert_le in Hids by done. rewrite vinsert_le in Hf by (rewrite fmap_length; lia). rewrite vinsert_le in Hb by (rewrite fmap_length; lia).
    rewrite vinsert_le in Hh by (rewrite fmap_length; lia). rewrite vinsert_le in Ht by (rewrite fmap_length; lia). simplify_eq.
    exists (take j gs ++ new_grp (og_cap s) :: drop j gs).
    assert (ogs (Orders (take j (og_ids s) ++ t :: drop j (og_ids s)) (take j (g_fwd <$> gs) ++ alloc_links (og_cap s) :: drop j (g_fwd <$> gs))
      (take j (g_bwd <$> gs) ++ alloc_links (og_cap s) :: drop j (g_bwd <$> gs)) (take j (g_head <$> gs) ++ NULL_ID :: drop j (g_head <$> gs))
      (take j (g_tail <$> gs) ++ NULL_ID :: drop j (g_tail <$> gs)) (og_cap s)) (take j gs ++ new_grp (og_cap s) :: drop j gs)) as Ho'.
    { split_and!; simpl; rewrite ?insert_fmap; try done. rewrite !app_length. simpl. rewrite !take_length, !drop_length. lia. }
    split_and!; [done|done| |].
    + simpl. rewrite lookup_app_r by (rewrite take_length; lia). rewrite take_length_le by lia. by rewrite Nat.sub_diag.
    + intros t'. rewrite (ogs_look _ _ _ Ho'), (ogs_look _ _ t' Ho). simpl. rewrite look_insert by done. case_decide; [|done]. unfold glook. by rewrite Ej.
Qed.
Lemma with_look (m : M grp unit) t i s gs s' u : ogs s gs → og_ids s !! i = Some t → with_grp i m s = ROk s' u →
  ∃ g g', ogs s' (<[i := g']> gs) ∧ og_cap s' = og_cap s ∧ og_ids s' = og_ids s ∧ gs !! i = Some g ∧ m g = ROk g' u ∧
    ∀ t', glook s' t' = if decide (t' = t) then Some g' else glook s t'.
Proof using Hbs.
  intros Ho Hi H. unfold with_grp in H. rewrite (ogs_at _ _ _ Ho) in H. destruct (gs !! i) as [g|] eqn:Eg; [|done].
  apply zoom_ok in H as (g' & Hm & ->). exists g, g'. pose proof Ho as (Hs & Hl & H1 & H2 & H3 & H4).
  assert (ogs (grp_put i g' s) (<[i := g']> gs)) as Ho'.
  { split_and!; simpl; rewrite ?insert_length, ?list_fmap_insert; congruence. }
  split_and!; try done. intros t'. rewrite (ogs_look _ _ _ Ho'), (ogs_look _ _ t' Ho). simpl. by rewrite (look_update _ _ _ t).
Qed.
(** Adding, by whatever means. *)
Lemma order_look (m : M grp unit) t s gs s' u : ogs s gs → (i ← reserve_group c t; with_grp i m) s = ROk s' u →
  (∃ gs', ogs s' gs') ∧ og_cap s' = og_cap s ∧ (∀ t', t' ≠ t → glook s' t' = glook s t') ∧
  ∃ g', m (default (new_grp (og_cap s)) (glook s t)) = ROk g' u ∧ glook s' t = Some g'.
Proof using Hbs.
  intros Ho (s1 & i & H1 & H)%bind_ok. destruct (reserve_look _ _ _ _ _ Ho H1) as (gs1 & Ho1 & Hc1 & Hi & Hl1).
  destruct (with_look _ _ _ _ _ _ _ Ho1 Hi H) as (g & g' & Ho' & Hc' & _ & Hg & Hm & Hl').
  split_and!; [by eexists|congruence| |].
  - intros t' Hne. by rewrite Hl', Hl1, !decide_False.
  - exists g'. rewrite Hl', decide_True by done. split; [|done]. specialize (Hl1 t). rewrite decide_True in Hl1 by done.
    rewrite (ogs_look _ _ _ Ho1) in Hl1. assert (look c (og_ids s1) gs1 t = Some g) as Hlk.
    { apply look_assoc; [apply Ho1|]. by exists i. }
    rewrite Hlk in Hl1. injection Hl1 as <-. done.
Qed.
Lemma orders_remove_look t id s gs s' u : ogs s gs → orders_remove c t id s = ROk s' u →
  (∃ gs', ogs s' gs') ∧ og_cap s' = og_cap s ∧ (∀ t', t' ≠ t → glook s' t' = glook s t') ∧
  option_Forall2 (λ g g', grp_remove id g = ROk g' ()) (glook s t) (glook s' t).
Proof using Hbs.
  intros Ho H. destruct u. unfold orders_remove, get_group_index in H. apply bind_ok in H as (s0 & x & [-> ->]%get_ok & H).
  destruct (search_cases _ _ t Hbs (proj1 Ho)) as [(j & Ej & Hj)|(j & Ej & _)]; rewrite Ej in H.
  - destruct (with_look _ _ _ _ _ _ _ Ho Hj H) as (g & g' & Ho' & Hc' & Hids & Hg & Hm & Hl').
    split_and!; [by eexists|done| |].
    + intros t' Hne. by rewrite Hl', decide_False.
    + rewrite Hl', decide_True by done. unfold glook. rewrite Ej, (ogs_at _ _ _ Ho), Hg. by constructor.
  - apply ret_ok in H as [_ ->]. split_and!; [by eexists|done|done|]. unfold glook. rewrite Ej. constructor.
Qed.
Lemma orders_loop_look id n : ∀ k s gs s' u, ogs s gs → (k + n = length gs)%nat → orders_remove_loop (seq k n) id s = ROk s' u →
  ∃ gs', ogs s' gs' ∧ og_cap s' = og_cap s ∧ og_ids s' = og_ids s ∧ (∀ i, (i < k)%nat → gs' !! i = gs !! i) ∧
    ∀ i, (k ≤ i)%nat → option_Forall2 (λ g g', grp_remove id g = ROk g' ()) (gs !! i) (gs' !! i).
Proof using Hbs.
  induction n as [|n IH]; intros k s gs s' u Ho Hk H; simpl in H.
  - apply ret_ok in H as [_ ->]. exists gs. split_and!; [done..|]. intros i Hi. rewrite lookup_ge_None_2 by lia. constructor.
  - apply bind_ok in H as (s1 & [] & H1 & H). destruct (lookup_lt_is_Some_2 (og_ids s) k) as [t Ht]; [destruct Ho as (_ & <- & _); lia|].
    destruct (with_look _ _ _ _ _ _ _ Ho Ht H1) as (g & g' & Ho1 & Hc1 & Hids & Hg & Hm & _).
    assert (S k + n = length (<[k := g']> gs))%nat as Hk' by (rewrite insert_length; lia).
    destruct (IH (S k) _ _ _ _ Ho1 Hk' H) as (gs' & Ho' & Hc' & Hi' & Hlo & Hhi).
    exists gs'. split_and!; [done|congruence|congruence| |].
    + intros i Hi. rewrite Hlo by lia. apply list_lookup_insert_ne. lia.
    + intros i Hi. destruct (decide (i = k)) as [->|Hne].
      * rewrite Hlo by lia. rewrite list_lookup_insert by lia. rewrite Hg. by constructor.
      * specialize (Hhi i). rewrite list_lookup_insert_ne in Hhi by lia. apply Hhi. lia.
Qed.
Lemma orders_all_look id s gs s' u : ogs s gs → orders_remove_all id s = ROk s' u →
  (∃ gs', ogs s' gs') ∧ og_cap s' = og_cap s ∧ ∀ t, option_Forall2 (λ g g', grp_remove id g = ROk g' ()) (glook s t) (glook s' t).
Proof using Hbs.
  intros Ho H. unfold orders_remove_all in H. apply bind_ok in H as (s0 & x & [-> ->]%get_ok & H).
  rewrite <- (proj1 (proj2 Ho)) in H. destruct (orders_loop_look id _ 0 _ _ _ _ Ho eq_refl H) as (gs' & Ho' & Hc' & Hids & _ & Hhi).
  split_and!; [by eexists|done|]. intros t. unfold glook. rewrite Hids. destruct (c_bs c (og_ids s) t); [|constructor].
  rewrite (ogs_at _ _ _ Ho), (ogs_at _ _ _ Ho'). apply Hhi. lia.
Qed.
Lemma links_grow_all_lookup l l' old new : links_grow_all l old new = POk l' → Forall2 (λ a a', links_grow a old new = POk a') l l'.
Proof using.
  revert l'. induction l as [|a l IH]; simpl; intros l' H; [injection H as <-; constructor|].
  apply pbind_ok in H as (a' & Ha & H). apply pbind_ok in H as (r & Hr & [= <-]). constructor; [done|auto].
Qed.
Definition grp_grown (old new : N) (g g' : grp) : Prop := g_head g' = g_head g ∧ g_tail g' = g_tail g ∧
  links_grow (g_fwd g) old new = POk (g_fwd g') ∧ links_grow (g_bwd g) old new = POk (g_bwd g').
Lemma grp_grown_fun old new g g1 g2 : grp_grown old new g g1 → grp_grown old new g g2 → g1 = g2.
Proof using. destruct g1, g2. intros (? & ? & ? & ?) (? & ? & ? & ?). simpl in *. congruence. Qed.
Lemma orders_grow_look md new s gs s' u : ogs s gs → orders_grow md new s = ROk s' u →
  (∃ gs', ogs s' gs') ∧ og_cap s' = new ∧ ∀ t, option_Forall2 (grp_grown (og_cap s) new) (glook s t) (glook s' t).
Proof using Hbs.
  intros Ho H. unfold orders_grow in H. apply bind_ok in H as (s0 & x & [-> ->]%get_ok & H). apply bind_ok in H as (s0 & ? & [_ ->]%lift_ok & H).
  apply bind_ok in H as (s0 & bwd & [Hb%links_grow_all_lookup ->]%lift_ok & H). apply bind_ok in H as (s0 & fwd & [Hf%links_grow_all_lookup ->]%lift_ok & H).
  apply put_ok in H as ->. destruct Ho as (Hs & Hl & H1 & H2 & H3 & H4). rewrite H3 in Hf. rewrite H4 in Hb.
  assert (∃ gs', Forall2 (grp_grown (og_cap s) new) gs gs' ∧ g_head <$> gs' = g_head <$> gs ∧ g_tail <$> gs' = g_tail <$> gs ∧ g_fwd <$> gs' = fwd ∧ g_bwd <$> gs' = bwd) as (gs' & HF & E1 & E2 & E3 & E4).
  { clear -Hb Hf. revert fwd bwd Hb Hf. induction gs as [|g gs IH]; intros fwd bwd Hb Hf; csimpl in *.
    - apply Forall2_nil_inv_l in Hb as ->. apply Forall2_nil_inv_l in Hf as ->. by exists [].
    - apply Forall2_cons_inv_l in Hb as (b & bs & Hb & Hbs' & ->). apply Forall2_cons_inv_l in Hf as (f & fs & Hf & Hfs & ->).
      destruct (IH _ _ Hbs' Hfs) as (gs' & HF & E1 & E2 & E3 & E4). exists (Grp (g_head g) (g_tail g) f b :: gs'). csimpl.
      rewrite E1, E2, E3, E4. split_and!; try done. by constructor. }
  assert (ogs (Orders (og_ids s) fwd bwd (og_head s) (og_tail s) new) gs') as Ho'.
  { split_and!; simpl; try congruence. by rewrite <- (Forall2_length _ _ _ HF). }
  split_and!; [by eexists|done|]. intros t. rewrite (ogs_look _ gs t) by done. rewrite (ogs_look _ _ _ Ho'). simpl. by apply look_forall2.
Qed.
Lemma step_ogs s gs o s' r : ogs (st_orders s) gs → step c o s = ROk s' r → ∃ gs', ogs (st_orders s') gs'.
Proof using Hbs.
  intros Ho H%step_orders. inversion H as [o' H1 [[_ H2]|H2]|e _ H1|g e _ H1|g e to _ H1|g e to _ H1|g e _ H1|o' _ _ H1]; subst.
  - exists gs. by rewrite H2.
  - by apply (orders_grow_look _ _ _ _ _ _ Ho) in H2 as [? _].
  - by apply (orders_all_look _ _ _ _ _ Ho) in H1 as [? _].
  - by apply (order_look _ _ _ _ _ _ Ho) in H1 as [? _].
  - by apply (order_look _ _ _ _ _ _ Ho) in H1 as [? _].
  - by apply (order_look _ _ _ _ _ _ Ho) in H1 as [? _].
  - by apply (orders_remove_look _ _ _ _ _ _ Ho) in H1 as [? _].
  - exists gs. by rewrite H1.
Qed.
Lemma run_ogs cap tr s : run c cap tr s → ∃ gs, ogs (st_orders s) gs.
Proof using Hbs.
  induction 1 as [s H|tr s o s' r _ [gs IH] H]; [|by eapply step_ogs].
  unfold store_with_capacity in H. apply pbind_ok in H as ([] & _ & [= <-]). exists []. split_and!; try done. constructor.
Qed.
Definition opart (g : tid) (s : store) := (st_ec s, og_cap (st_orders s), glook (st_orders s) g).
Lemma opart_quiet g tr cap s o s' r : run c cap tr s → step c o s = ROk s' r → about_group g o = None → opart g s' = opart g s.
Proof using Hbs.
  intros [gs Ho]%run_ogs H E. unfold opart. rewrite (ec_quiet _ _ _ _ _ H) by (destruct o; simpl in *; done).
  pose proof (step_orders _ _ _ _ _ H) as Ht.
  inversion Ht as [o' H1 H2|e _ H1|g' e _ H1|g' e to _ H1|g' e to _ H1|g' e _ H1|o' _ _ H1]; subst.
  - destruct H1 as [->|[a ->]]; done.
  - done.
  - destruct (order_look _ _ _ _ _ _ Ho H1) as (_ & -> & Hl & _). rewrite Hl; [done|]. intros ->. simpl in E. by rewrite decide_True in E.
  - destruct (order_look _ _ _ _ _ _ Ho H1) as (_ & -> & Hl & _). rewrite Hl; [done|]. intros ->. simpl in E. by rewrite decide_True in E.
  - destruct (order_look _ _ _ _ _ _ Ho H1) as (_ & -> & Hl & _). rewrite Hl; [done|]. intros ->. simpl in E. by rewrite decide_True in E.
  - destruct (orders_remove_look _ _ _ _ _ _ Ho H1) as (_ & -> & Hl & _). rewrite Hl; [done|]. intros ->. simpl in E. by rewrite decide_True in E.
  - by rewrite H1.
Qed.
Lemma option_Forall2_fun' {A} (R : A → A → Prop) x y y' : (∀ a b b', R a b → R a b' → b = b') → option_Forall2 R x y → option_Forall2 R x y' → y = y'.
Proof using. intros HR H1 H2. destruct H1; inversion H2; subst; f_equal; eauto. Qed.
Lemma rem_fun id : ∀ g g1 g2, grp_remove id g = ROk g1 () → grp_remove id g = ROk g2 () → g1 = g2.
Proof using. congruence. Qed.
Lemma opart_same g cap tr s o s' r tr2 s2 o2 s2' r2 p : run c cap tr s → run c cap tr2 s2 → step c o s = ROk s' r → step c o2 s2 = ROk s2' r2 →
  about_group g o = Some p → about_group g o2 = Some p → opart g s = opart g s2 → opart g s' = opart g s2'.
Proof using Hbs.
  intros [gs1 R1]%run_ogs [gs2 R2]%run_ogs H1 H2 E1 E2 He. unfold opart in *. injection He as He Hc Hl.
  assert ((o2 = o ∧ about_handles o = None ∧ ((∃ e, o = OOrdDel g e) ∨ ∃ m, ∀ t, step c o t = no_out (on_orders (i ← reserve_group c g; with_grp i m)) t)) ∨
    about_handles o = Some p ∧ about_handles o2 = Some p) as [(-> & Hq & Hcase)|[A1 A2]].
  { destruct o; simpl in E1; try case_decide; try done; simplify_eq; destruct o2; simpl in E2; try case_decide; simplify_eq; try (by right); left; (split; [done|split; [done|]]);
      try (left; by eexists); right; eexists; intros t; reflexivity. }
  - rewrite (ec_quiet _ _ _ _ _ H1), (ec_quiet _ _ _ _ _ H2), He by done. destruct Hcase as [[e ->]|[m Hm]].
    + simpl in H1, H2. apply no_out_ok in H1 as [(t1 & H1 & ->)%zoom_ok _]; apply no_out_ok in H2 as [(t2 & H2 & ->)%zoom_ok _]; simpl.
      destruct (orders_remove_look _ _ _ _ _ _ R1 H1) as (_ & -> & _ & V1). destruct (orders_remove_look _ _ _ _ _ _ R2 H2) as (_ & -> & _ & V2).
      rewrite Hl in V1. rewrite Hc. rewrite (option_Forall2_fun' _ _ _ _ (rem_fun _) V1 V2). done.
    + rewrite Hm in H1, H2. apply no_out_ok in H1 as [(t1 & H1 & ->)%zoom_ok _]; apply no_out_ok in H2 as [(t2 & H2 & ->)%zoom_ok _]; simpl.
      destruct (order_look _ _ _ _ _ _ R1 H1) as (_ & -> & _ & v1 & V1 & ->). destruct (order_look _ _ _ _ _ _ R2 H2) as (_ & -> & _ & v2 & V2 & ->).
      rewrite Hc, Hl in V1. rewrite Hc. congruence.
  - destruct (ec_same _ _ _ _ _ _ _ _ _ _ H1 H2 A1 A2 He) as [He' _]. destruct p; try (by destruct o; simpl in A1; congruence).
    + pose proof (create_parts _ _ _ _ _ H1 A1) as P1. pose proof (create_parts _ _ _ _ _ H2 A2) as P2. rewrite He, He' in P1. rewrite He'.
      destruct (_ =? _); [destruct P1 as [_ ->], P2 as [_ ->]; by rewrite Hc, Hl|]. destruct P1 as [_ P1], P2 as [_ P2].
      destruct (orders_grow_look _ _ _ _ _ _ R1 P1) as (_ & -> & V1). destruct (orders_grow_look _ _ _ _ _ _ R2 P2) as (_ & -> & V2).
      specialize (V1 g). specialize (V2 g). rewrite Hc, Hl in V1. by rewrite (option_Forall2_fun' _ _ _ _ (grp_grown_fun _ _) V1 V2).
    + assert (o = ODestroy e ∧ o2 = ODestroy e) as [-> ->] by (clear -A1 A2; destruct o; simpl in A1; try congruence; destruct o2; simpl in A2; split; congruence). simpl in H1, H2.
      apply no_out_ok in H1 as [(_ & _ & H1)%destroy_ok _]. apply no_out_ok in H2 as [(_ & _ & H2)%destroy_ok _]. rewrite He'.
      destruct (orders_all_look _ _ _ _ _ R1 H1) as (_ & -> & V1). destruct (orders_all_look _ _ _ _ _ R2 H2) as (_ & -> & V2).
      specialize (V1 g). specialize (V2 g). rewrite Hl in V1. rewrite Hc. rewrite (option_Forall2_fun' _ _ _ _ (rem_fun _) V1 V2). done.
Qed.
Lemma orders_independent cap tr s tr2 s2 g : run c cap tr s → run c cap tr2 s2 → calls (about_group g) tr = calls (about_group g) tr2 → opart g s = opart g s2.
Proof using Hbs.
  intros H1 H2. eapply (two_runs (opart g) (about_group g)); [intros; by eapply opart_quiet|
    intros ??????????? R1 R2 S1 S2 A1 A2 Ep; exact (opart_same _ _ _ _ _ _ _ _ _ _ _ _ _ R1 R2 S1 S2 A1 A2 Ep)|done|done].
Qed.
(** The observations, told from [glook]. *)
Lemma order_obs s gs g : ogs (st_orders s) gs →
  (∀ e, next_ordered c s g e = entity_by_id_opt s (match glook (st_orders s) g with Some x => n ← aget (g_fwd x) (e_id e); mret (onull n) | None => POk None end)) ∧
  (∀ e, previous_ordered c s g e = entity_by_id_opt s (match glook (st_orders s) g with Some x => n ← aget (g_bwd x) (e_id e); mret (onull n) | None => POk None end)) ∧
  first_ordered c s g = entity_by_id_opt s (match glook (st_orders s) g with Some x => POk (onull (g_head x)) | None => POk None end) ∧
  last_ordered c s g = entity_by_id_opt s (match glook (st_orders s) g with Some x => POk (onull (g_tail x)) | None => POk None end).
Proof using Hbs.
  intros Ho. unfold next_ordered, previous_ordered, first_ordered, last_ordered, get_next_id, get_previous_id, get_head_id, get_tail_id, get_link, get_end_id, get_group_index, glook.
  pose proof Ho as (Hs & Hl & H1 & H2 & H3 & H4).
  destruct (search_cases _ _ g Hbs Hs) as [(i & -> & Hi)|(i & -> & _)]; [|done]. rewrite (ogs_at _ _ _ Ho). rewrite H1, H2, H3, H4. unfold vget_unchecked.
  rewrite !list_lookup_fmap. apply lookup_lt_Some in Hi. destruct (lookup_lt_is_Some_2 gs i) as [x ->]; [lia|]. done.
Qed.
Lemma order_independent cap tr s tr2 s2 g : run c cap tr s → run c cap tr2 s2 → calls (about_group g) tr = calls (about_group g) tr2 →
  first_ordered c s g = first_ordered c s2 g ∧ last_ordered c s g = last_ordered c s2 g ∧
  ∀ e, next_ordered c s g e = next_ordered c s2 g e ∧ previous_ordered c s g e = previous_ordered c s2 g e.
Proof using Hbs.
  intros H1 H2 He. pose proof (orders_independent _ _ _ _ _ _ H1 H2 He) as Hp. injection Hp as Hec _ Hl.
  destruct (run_ogs _ _ _ H1) as [gs1 O1]. destruct (run_ogs _ _ _ H2) as [gs2 O2].
  destruct (order_obs _ _ g O1) as (N1 & P1 & -> & ->). destruct (order_obs _ _ g O2) as (N2 & P2 & -> & ->).
  assert (∀ o, entity_by_id_opt s o = entity_by_id_opt s2 o) as Hopt by (intros o; unfold entity_by_id_opt, entity_by_id; by rewrite Hec).
  rewrite Hl. split_and!; [apply Hopt|apply Hopt|]. intros e. rewrite N1, P1, N2, P2, Hl. split; apply Hopt.
Qed.
End look.

(** ** Components *)
Definition cpart (s : store) := (st_ec s, st_ac s, st_page s, st_idx s, st_has s).
(** Two computations from states with equal components, if both return. *)
Definition rsame {A} (r1 r2 : res store A) : Prop :=
  match r1, r2 with ROk s a, ROk t b => cpart s = cpart t ∧ a = b | _, _ => True end.
Definition csame {A} (m1 m2 : M store A) : Prop := ∀ s t, cpart s = cpart t → rsame (m1 s) (m2 t).
Lemma csame_bind {A B} (m1 m2 : M store A) (k1 k2 : A → M store B) : csame m1 m2 → (∀ a, csame (k1 a) (k2 a)) → csame (m1 ≫= k1) (m2 ≫= k2).
Proof.
  intros Hm Hk s t E. specialize (Hm s t E). unfold mbind, M_bind. unfold rsame in *. destruct (m1 s) as [s1 a| |], (m2 t) as [t1 b| |]; try done.
  - destruct Hm as [E' ->]. apply (Hk b _ _ E').
  - by destruct (k1 a s1).
  - by destruct (k1 a s1).
Qed.
Lemma csame_get {B} (k1 k2 : store → M store B) : (∀ s t, cpart s = cpart t → csame (k1 s) (k2 t)) → csame (getS ≫= k1) (getS ≫= k2).
Proof. intros Hk s t E. unfold mbind, M_bind, getS. by apply Hk. Qed.
Lemma csame_ret {A} (a b : A) : a = b → csame (mret a) (mret b).
Proof. intros -> s t E. done. Qed.
Lemma csame_lift {A} (p q : pres A) : p = q → csame (lift p) (lift q).
Proof. intros -> s t E. unfold lift. by destruct q. Qed.
Lemma csame_mod f g : (∀ s t, cpart s = cpart t → cpart (f s) = cpart (g t)) → csame (modS f) (modS g).
Proof. intros H s t E. split; [by apply H|done]. Qed.
Lemma csame_put s t : cpart s = cpart t → csame (putS s) (putS t).
Proof. intros H s' t' E. done. Qed.
Lemma csame_ec {A} (m : M ec A) : csame (on_ec m) (on_ec m).
Proof. intros s t E. injection E as E1 E2 E3 E4 E5. unfold on_ec, zoom. rewrite E1. destruct (m (st_ec t)); try done. unfold rsame, cpart. simpl. by rewrite E2, E3, E4, E5. Qed.
Lemma csame_ac {A} (m1 m2 : M ac A) : m1 = m2 → csame (on_ac m1) (on_ac m2).
Proof. intros -> s t E. injection E as E1 E2 E3 E4 E5. unfold on_ac, zoom. rewrite E2. destruct (m2 (st_ac t)); try done. unfold rsame, cpart. simpl. by rewrite E1, E3, E4, E5. Qed.
Lemma csame_tags (m : M tags unit) : csame (on_tags m) (on_tags m).
Proof. intros s t E. unfold on_tags, zoom. destruct (m (st_tags s)) as [s1 []| |], (m (st_tags t)) as [t1 []| |]; done. Qed.
Lemma csame_orders (m : M orders unit) : csame (on_orders m) (on_orders m).
Proof. intros s t E. unfold on_orders, zoom. destruct (m (st_orders s)) as [s1 []| |], (m (st_orders t)) as [t1 []| |]; done. Qed.

(** Reading functions use only the components. *)
Section reads.
Context (c : cfg) (s t : store) (E : cpart s = cpart t).
Lemma alive_part e : is_alive c s e = is_alive c t e.
Proof using E. injection E as E1 E2 E3 E4 E5. unfold is_alive. by rewrite E1. Qed.
Lemma has_part id : has_archetype s id = has_archetype t id.
Proof using E. injection E as E1 E2 E3 E4 E5. unfold has_archetype. by rewrite E5. Qed.
Lemma eia_part id : get_eia s id = get_eia t id.
Proof using E. injection E as E1 E2 E3 E4 E5. unfold get_eia, get_page_index, get_index_in_page. by rewrite E3, E4. Qed.
Lemma valid_part e : is_valid_with_archetype c s e = is_valid_with_archetype c t e.
Proof using E. unfold is_valid_with_archetype. rewrite alive_part. destruct (is_alive c t e) as [[]| |]; try done. simpl. apply has_part. Qed.
Lemma refs_part e T : get_components_refs c s e T = get_components_refs c t e T.
Proof using E. unfold get_components_refs. rewrite valid_part. injection E as E1 E2 E3 E4 E5. unfold get_page_index, get_index_in_page. by rewrite E2, E3, E4. Qed.
Lemma read_part e T : read_components c s e T = read_components c t e T.
Proof using E. unfold read_components. rewrite refs_part. injection E as E1 E2 E3 E4 E5. by rewrite E2. Qed.
Lemma arch_part e : get_entity_archetype c s e = get_entity_archetype c t e.
Proof using E. unfold get_entity_archetype. rewrite valid_part. injection E as E1 E2 E3 E4 E5. by rewrite E2, E3. Qed.
Lemma cq_part q : component_query c q s = component_query c q t.
Proof using E. injection E as E1 E2 E3 E4 E5. unfold component_query. by rewrite E2. Qed.
Lemma extend_part pi es : eq_extend c s pi es = eq_extend c t pi es.
Proof using E.
  induction es as [|e es IH]; simpl; [done|]. rewrite alive_part, IH. injection E as E1 E2 E3 E4 E5. unfold get_page_index. by rewrite E3.
Qed.
Lemma ranges_part q es fuel start : eq_ranges c q s es fuel start = eq_ranges c q t es fuel start.
Proof using E.
  revert start. induction fuel as [|fuel IH]; intros start; simpl; [done|]. destruct (es !! start) as [e|]; [|done]. unfold valid_for_query. rewrite arch_part.
  pose proof E as [= E1 E2 E3 E4 E5]. unfold get_page_index. rewrite E2, E3. destruct (get_entity_archetype c t e) as [o| |]; [|done..]. simpl.
  destruct (negb _); [apply IH|]. destruct (aget (st_page t) (e_id e)) as [pi| |]; [|done..]. simpl.
  destruct (arch_index_by_page (st_ac t) pi) as [ai| |]; [|done..]. simpl. destruct (arch_with_layout_unchecked (st_ac t) ai) as [al| |]; [|done..]. simpl.
  destruct (vget_unchecked (ac_pages (st_ac t)) pi) as [p| |]; [|done..]. simpl. destruct (q_offsets c q al.1 al.2) as [offs| |]; [|done..]. simpl.
  rewrite extend_part. destruct (eq_extend c t pi (drop (S start) es)) as [n| |]; [|done..]. simpl. by rewrite IH.
Qed.
Lemma eq_part q es : entity_query c q s es = entity_query c q t es.
Proof using E. unfold entity_query. rewrite ranges_part. injection E as E1 E2 E3 E4 E5. by rewrite E4. Qed.
Lemma oqe_part fuel m pi re n : oq_extend fuel s m pi re n = oq_extend fuel t m pi re n.
Proof using E. revert re n. induction fuel as [|fuel IH]; intros re n; simpl; [done|]. rewrite eia_part. destruct (n =? NULL_ID); [done|]. destruct (get_eia t n); try done. destruct (_ || _); [done|]. destruct (aget m n); try done. Qed.
Lemma oqm_part q n : oq_member c q s n = oq_member c q t n.
Proof using E. unfold oq_member. rewrite eia_part. injection E as E1 E2 E3 E4 E5. by rewrite E2. Qed.
Lemma oqr_part fuel q m n : oq_ranges fuel c q s m n = oq_ranges fuel c q t m n.
Proof using E.
  revert n. induction fuel as [|fuel IH]; intros n; simpl; [done|]. destruct (n =? NULL_ID); [done|]. rewrite oqm_part.
  destruct (oq_member c q t n) as [[[l v]|]| |]; try done; destruct (aget m n); try done. rewrite oqe_part. destruct (oq_extend fuel t m _ _ _) as [[[stop n']| |]|]; try done. simpl. by rewrite IH.
Qed.
End reads.
Ltac csame :=
  repeat (cbv beta; match goal with
    | |- csame (getS ≫= _) _ => apply csame_get; let s := fresh "s" in let t := fresh "t" in let E := fresh "E" in intros s t E;
      rewrite ?(alive_part _ _ _ E), ?(has_part _ _ E), ?(eia_part _ _ E), ?(valid_part _ _ _ E), ?(refs_part _ _ _ E), ?(cq_part _ _ _ E);
      let E1 := fresh "E1" in let E2 := fresh "E2" in let E3 := fresh "E3" in let E4 := fresh "E4" in let E5 := fresh "E5" in
      pose proof E as [= E1 E2 E3 E4 E5]; unfold entities_capacity; rewrite ?E1, ?E2, ?E3, ?E4, ?E5
    | |- csame (_ ≫= _) _ => apply csame_bind; [|intros ?]
    | |- csame (mret _) _ => apply csame_ret; reflexivity
    | |- csame (lift _) _ => apply csame_lift; reflexivity
    | |- csame (on_ec _) _ => apply csame_ec
    | |- csame (on_ac _) _ => apply csame_ac; reflexivity
    | |- csame (on_tags _) _ => apply csame_tags
    | |- csame (on_orders _) _ => apply csame_orders
    | |- csame (modS _) _ => apply csame_mod; let E := fresh "E" in intros ? ? E; clear -E; injection E as ? ? ? ? ?; unfold cpart; simpl; congruence
    | |- csame (putS _) _ => apply csame_put; unfold cpart; simpl; congruence
    | |- csame (match ?x with _ => _ end) _ => destruct x
    | H : csame ?m ?m |- csame ?m ?m => exact H
    end).
Lemma set_page_csame id p : csame (set_page_index id p) (set_page_index id p).
Proof. unfold set_page_index. csame. Qed.
Lemma set_idx_csame id p : csame (set_index_in_page id p) (set_index_in_page id p).
Proof. unfold set_index_in_page. csame. Qed.
Lemma enable_csame id : csame (enable_archetype id) (enable_archetype id).
Proof. unfold enable_archetype. csame. Qed.
Lemma disable_csame id : csame (disable_archetype id) (disable_archetype id).
Proof. unfold disable_archetype. csame. Qed.
Ltac csame' := csame; try match goal with
    | |- csame (set_page_index _ _) _ => apply set_page_csame
    | |- csame (set_index_in_page _ _) _ => apply set_idx_csame
    | |- csame (enable_archetype _) _ => apply enable_csame
    | |- csame (disable_archetype _) _ => apply disable_csame
    end.
Lemma location_csame id l : csame (set_location id l) (set_location id l).
Proof. unfold set_location. csame'. Qed.
Lemma swap_csame l : csame (swap_remove_internal l) (swap_remove_internal l).
Proof. unfold swap_remove_internal. csame'. Qed.
Lemma register_csame c : csame (register_new_entity c) (register_new_entity c).
Proof. unfold register_new_entity, grow_entities. csame'. Qed.
Lemma move_csame c e a : csame (move_entity c e a) (move_entity c e a).
Proof. pose proof swap_csame as Hs. unfold move_entity. csame'; apply Hs. Qed.
Lemma ensure_csame c e T : csame (ensure_types c e T) (ensure_types c e T).
Proof. unfold ensure_types. csame'; first [apply move_csame|apply location_csame]. Qed.
Lemma step_csame c o p : about_components o = Some p → csame (step c o) (step c o).
Proof.
  intros E. destruct o; try done; simpl; unfold no_out.
  - unfold create_entity. csame'. apply register_csame.
  - unfold create_entity_with_archetype. csame'; first [apply register_csame|apply location_csame].
  - unfold destroy_entity. csame'. apply swap_csame.
  - unfold add_components. csame'. apply ensure_csame.
  - unfold remove_components. csame'. apply move_csame.
  - unfold set_components. csame'.
  - unfold query_write. csame'.
Qed.
Lemma cpart_quiet c o s s' r : step c o s = ROk s' r → about_components o = None → cpart s' = cpart s.
Proof.
  intros H E. destruct o; try done; simpl in H; apply no_out_ok in H as [(w & _ & ->)%zoom_ok _]; done.
Qed.
Lemma components_independent c cap tr s tr2 s2 : run c cap tr s → run c cap tr2 s2 → calls about_components tr = calls about_components tr2 → cpart s = cpart s2.
Proof.
  intros H1 H2. eapply (two_runs cpart about_components); [intros; by eapply cpart_quiet| |done|done].
  intros t1 u1 o u1' r t2 u2 o2 u2' r2 p _ _ S1 S2 A1 A2 E. assert (o2 = o) as -> by (destruct o; try done; destruct o2; simpl in *; congruence).
  pose proof (step_csame c o p A1 _ _ E) as Hs. rewrite S1, S2 in Hs. apply Hs.
Qed.
Lemma component_independent c cap tr s tr2 s2 : run c cap tr s → run c cap tr2 s2 → calls about_components tr = calls about_components tr2 →
  (∀ e T, read_components c s e T = read_components c s2 e T) ∧ (∀ e, get_entity_archetype c s e = get_entity_archetype c s2 e) ∧
  (∀ q, component_query c q s = component_query c q s2) ∧ (∀ q es, entity_query c q s es = entity_query c q s2 es) ∧
  (∀ r, read_ref (ac_pages (st_ac s)) r = read_ref (ac_pages (st_ac s2)) r) ∧ (∀ e, is_alive c s e = is_alive c s2 e).
Proof.
  intros H1 H2 He. pose proof (components_independent _ _ _ _ _ _ H1 H2 He) as E. split_and!; intros.
  - by apply read_part. - by apply arch_part. - by apply cq_part. - by apply eq_part. - injection E as _ E _ _ _. by rewrite E. - by apply alive_part.
Qed.
Lemma ordered_independent c cap tr s tr2 s2 g : search_ok (c_bs c) → run c cap tr s → run c cap tr2 s2 → calls about_components tr = calls about_components tr2 →
  calls (about_group g) tr = calls (about_group g) tr2 → ∀ fuel q, ordered_query fuel c q s g = ordered_query fuel c q s2 g.
Proof.
  intros Hbs H1 H2 He Hg fuel q. pose proof (components_independent _ _ _ _ _ _ H1 H2 He) as E.
  pose proof (orders_independent c Hbs _ _ _ _ _ _ H1 H2 Hg) as Hp. injection Hp as _ _ Hl.
  assert (∀ tr s, run c cap tr s → ordered_query fuel c q s g = match glook c (st_orders s) g with
    | None => Some (POk (OIter [] [] 0 0 0 0))
    | Some x => r ← oq_ranges fuel c q s (g_fwd x) (g_head x);
      match r with
      | POk rs => Some (POk (OIter rs.*1 rs.*2 0 0 0 (sum_list ((λ x, (x.1.2 - x.1.1)%nat) <$> rs))))
      | PPanic => Some PPanic
      | PUB w => Some (PUB w)
      end
    end) as Ho.
  { intros tr' s' H'. destruct (run_ogs c Hbs _ _ _ H') as [gs O]. pose proof O as (Hs & Hln & O1 & O2 & O3 & O4). unfold ordered_query, get_group_index, glook.
    destruct (search_cases _ _ g Hbs Hs) as [(i & -> & Hi)|(i & -> & _)]; [|done]. rewrite (ogs_at _ _ _ O). rewrite O1, O3. unfold vget_unchecked.
    rewrite !list_lookup_fmap. apply lookup_lt_Some in Hi. destruct (lookup_lt_is_Some_2 gs i) as [x ->]; [lia|]. done. }
  rewrite (Ho _ _ H1), (Ho _ _ H2), Hl. destruct (glook c (st_orders s2) g); [|done]. by rewrite (oqr_part _ _ _ E).
Qed.
Lemma cfg_tags_independent c cap tr s tr2 s2 t : cfg_ok c → run c cap tr s → run c cap tr2 s2 → calls (about_tag t) tr = calls (about_tag t) tr2 →
  filter_tag c s t = filter_tag c s2 t ∧ ∀ e, has_tag c s t e = has_tag c s2 t e ∧ is_alive c s e = is_alive c s2 e.
Proof. intros Hc. eapply has_tag_independent, Hc. Qed.
Lemma cfg_order_independent c cap tr s tr2 s2 g : cfg_ok c → run c cap tr s → run c cap tr2 s2 → calls (about_group g) tr = calls (about_group g) tr2 →
  first_ordered c s g = first_ordered c s2 g ∧ last_ordered c s g = last_ordered c s2 g ∧
  ∀ e, next_ordered c s g e = next_ordered c s2 g e ∧ previous_ordered c s g e = previous_ordered c s2 g e.
Proof. intros Hc. eapply order_independent, Hc. Qed.
Lemma cfg_ordered_independent c cap tr s tr2 s2 g : cfg_ok c → run c cap tr s → run c cap tr2 s2 → calls about_components tr = calls about_components tr2 →
  calls (about_group g) tr = calls (about_group g) tr2 → ∀ fuel q, ordered_query fuel c q s g = ordered_query fuel c q s2 g.
Proof. intros Hc. eapply ordered_independent, Hc. Qed.
