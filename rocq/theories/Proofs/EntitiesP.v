(** EntitiesP.v — the entities container: invariant and effect of its operations in debug builds. *)
From Verif.Model Require Export Entities.
From Verif.Proofs Require Export Wp BitVecP.
Local Open Scope N_scope.

(** Version stored for an id. *)
Definition ver_at (s : ec) (id : N) : option N :=
  match ec_ver s !! N.to_nat id with Some (Some v) => Some v | _ => None end.

(** [ec_inv s I L]: the container is consistent, [I] being the handles issued so far and [L] the live ones. *)
Record ec_inv (s : ec) (I : list entity) (L : gset entity) : Prop := ECInv {
  inv_ver_len : length (ec_ver s) = N.to_nat (ec_cap s);
  inv_ver_some : ∀ id, id < ec_cap s → is_Some (ver_at s id);
  inv_alive_len : bv_sized (ec_cap s) (ec_alive s);
  inv_next_cap : ec_next s ≤ ec_cap s;
  inv_next_u32 : ec_next s < u32_size;
  inv_gaps_nodup : NoDup (ec_gaps s);
  inv_gaps_lt : ∀ g, g ∈ ec_gaps s → g < ec_next s;
  inv_alive : ∀ id, bit (ec_alive s) id = true ↔ id < ec_next s ∧ id ∉ ec_gaps s;
  inv_live : ∀ e, e ∈ L ↔ bit (ec_alive s) (e_id e) = true ∧ ver_at s (e_id e) = Some (e_ver e);
  inv_issued : ∀ e, e ∈ I → ∃ v, ver_at s (e_id e) = Some v ∧ 1 ≤ e_ver e ≤ v;
  inv_issued_nodup : NoDup I;
  inv_ver_used : ∀ id v, ver_at s id = Some v → 1 ≤ v → ∃ e, e ∈ I ∧ e_id e = id;
  inv_used_below : ∀ i j v, ver_at s i = Some v → 1 ≤ v → j < i → ∃ w, ver_at s j = Some w ∧ 1 ≤ w;
  inv_next_used : ∀ i, i < ec_next s → ∃ w, ver_at s i = Some w ∧ 1 ≤ w;
  inv_issued_null : ∀ e, e ∈ I → e_id e < NULL_ID;
  inv_live_issued : ∀ e, e ∈ L → e ∈ I;
}.

Lemma ver_at_lt s I L id v : ec_inv s I L → ver_at s id = Some v → id < ec_cap s.
Proof.
  intros Hi. unfold ver_at. destruct (ec_ver s !! N.to_nat id) eqn:E; [|done].
  apply lookup_lt_Some in E. rewrite (inv_ver_len _ _ _ Hi) in E. lia.
Qed.
Lemma aget_ver s id v : aget (ec_ver s) id = POk v ↔ ver_at s id = Some v.
Proof. rewrite aget_ok. unfold ver_at. destruct (_ !! _) as [[]|]; naive_solver. Qed.

Lemma ec_new_inv cap : ec_inv (ec_new cap) [] ∅.
Proof.
  unfold ec_new. split; simpl; try set_solver; try lia.
  - unfold alloc_filled. by rewrite replicate_length.
  - intros id Hid. unfold ver_at, alloc_filled. simpl. rewrite lookup_replicate_2 by lia. eauto.
  - apply bv_alloc_sized.
  - constructor.
  - intros id. rewrite bit_alloc. split; [done|]. lia.
  - intros e. rewrite bit_alloc. set_solver.
  - constructor.
  - intros id v. unfold ver_at, alloc_filled. simpl.
    destruct (replicate _ _ !! _) eqn:E; [|done]. apply lookup_replicate in E as [-> _]. intros [= <-]. lia.
  - intros i j v. unfold ver_at, alloc_filled. simpl.
    destruct (replicate _ _ !! _) eqn:E; [|done]. apply lookup_replicate in E as [-> _]. intros [= <-]. lia.
Qed.

Lemma live_lt s I L e : ec_inv s I L → e ∈ L → e_id e < ec_cap s.
Proof. intros Hi [_ H]%(inv_live _ _ _ Hi). by eapply ver_at_lt. Qed.

(** is_alive is exact for ids below the capacity. *)
Lemma ec_is_alive_spec md s I L e : ec_inv s I L → e_id e < ec_cap s →
  ec_is_alive md s e = POk (bool_decide (e ∈ L)).
Proof.
  intros Hi Hlt. unfold ec_is_alive, validate_version, validate_id.
  assert ((e_id e <? ec_cap s) = true) as -> by by apply N.ltb_lt.
  destruct (inv_ver_some _ _ _ Hi _ Hlt) as [v Hv].
  rewrite (proj2 (aget_ver s (e_id e) v)) by done.
  rewrite (bv_get_lt (ec_alive s) (e_id e)) by (eapply bv_sized_lt; [apply Hi|done]).
  assert (bool_decide (e ∈ L) = (v =? e_ver e) && bit (ec_alive s) (e_id e)) as ->.
  { apply Bool.eq_true_iff_eq. rewrite bool_decide_eq_true, andb_true_iff, N.eqb_eq.
    rewrite (inv_live _ _ _ Hi), Hv. naive_solver. }
  by destruct md.
Qed.

(** In debug builds is_alive panics for ids beyond the capacity. *)
Lemma ec_is_alive_debug_ok s I L e b : ec_inv s I L →
  ec_is_alive Debug s e = POk b → e_id e < ec_cap s ∧ b = bool_decide (e ∈ L).
Proof.
  intros Hi H. pose proof H as H'. unfold ec_is_alive in H. inv1 H.
  rewrite dassert_debug in H0. injection H0 as H0. unfold validate_id in H0. apply N.ltb_lt in H0.
  split; [done|]. rewrite (ec_is_alive_spec _ _ I L) in H' by done. by injection H' as <-.
Qed.

Lemma and_iff_compat_l' (A B C : Prop) : (A → B ↔ C) → A ∧ B ↔ A ∧ C.
Proof. tauto. Qed.

(** ** grow *)
Lemma ec_grow_spec U new s P I L : ec_inv s I L →
  sat U (ec_grow new s) (λ s' _,
    ec_inv s' I L ∧ ec_cap s' = N.max (ec_cap s) new ∧ ec_gaps s' = ec_gaps s ∧ ec_next s' = ec_next s ∧
    (∀ id, bit (ec_alive s') id = bit (ec_alive s) id) ∧
    (∀ id v, ver_at s id = Some v → ver_at s' id = Some v) ∧
    (∀ id, ec_cap s ≤ id → id < new → ver_at s' id = Some 0)) P.
Proof.
  intros Hi. unfold ec_grow. wp.
  destruct (new <=? ec_cap s) eqn:E; wp.
  { apply N.leb_le in E. split; [exact Hi|]. split_and!; try done; try lia. }
  apply N.leb_gt in E. unfold arealloc_filled. rewrite copy_prefix_le.
  2:{ rewrite (inv_ver_len _ _ _ Hi). lia. }
  2:{ unfold alloc_filled. rewrite replicate_length. lia. }
  wp. destruct (bv_realloc_le (ec_alive s) (ec_cap s) new) as [al Hal]; [apply Hi|lia|].
  rewrite Hal. wp.
  apply bv_realloc_ok in Hal as [Hsz Hbit]; [|apply Hi].
  pose proof (inv_ver_len _ _ _ Hi) as Hvl.
  set (ver' := take _ _ ++ drop _ _).
  assert (∀ id, ver_at (EC (ec_gaps s) new ver' al (ec_next s)) id =
                if id <? ec_cap s then ver_at s id else if id <? new then Some 0 else None) as Hver.
  { intros id. unfold ver_at. simpl. unfold ver', alloc_filled.
    destruct (id <? ec_cap s) eqn:E1; [apply N.ltb_lt in E1|apply N.ltb_ge in E1].
    - rewrite lookup_app_l by (rewrite take_length; lia). by rewrite lookup_take by lia.
    - rewrite lookup_app_r by (rewrite take_length; lia). rewrite lookup_drop, take_length.
      destruct (id <? new) eqn:E2; [apply N.ltb_lt in E2|apply N.ltb_ge in E2].
      + rewrite lookup_replicate_2 by lia. done.
      + rewrite (proj2 (lookup_ge_None _ _)); [done|]. rewrite replicate_length. lia. }
  assert (∀ id v, ver_at s id = Some v → ver_at (EC (ec_gaps s) new ver' al (ec_next s)) id = Some v) as Hver'.
  { intros id v Hv. rewrite Hver. pose proof (ver_at_lt _ _ _ _ _ Hi Hv) as Hlt.
    apply N.ltb_lt in Hlt. by rewrite Hlt. }
  assert (∀ id v, ver_at (EC (ec_gaps s) new ver' al (ec_next s)) id = Some v → 1 ≤ v → ver_at s id = Some v) as Hver2.
  { intros id v. rewrite Hver. repeat destruct (_ <? _); try done. intros [= <-]. lia. }
  unfold ec_set_alive, ec_set_ver, ec_set_cap. simpl.
  split; [split; simpl|split_and!]; simpl; try done; try apply Hi; try lia.
  - unfold ver', alloc_filled. rewrite app_length, take_length, drop_length, replicate_length. lia.
  - intros id Hid. rewrite Hver. destruct (id <? ec_cap s) eqn:E1.
    + apply N.ltb_lt in E1. by apply Hi.
    + apply N.ltb_lt in Hid. rewrite Hid. eauto.
  - pose proof (inv_next_cap _ _ _ Hi). lia.
  - intros id. rewrite Hbit. apply Hi.
  - intros e. rewrite Hbit, (inv_live _ _ _ Hi). apply and_iff_compat_l'. intros Hb.
    split; [apply Hver'|].
    assert (e_id e < ec_cap s) as Hlt%N.ltb_lt.
    { apply (inv_alive _ _ _ Hi) in Hb as [? _]. pose proof (inv_next_cap _ _ _ Hi). lia. }
    by rewrite Hver, Hlt.
  - intros e He. destruct (inv_issued _ _ _ Hi _ He) as (v & ? & ?). eauto.
  - intros id v Hv H1. eapply (inv_ver_used _ _ _ Hi); eauto.
  - intros i j v Hv H1 Hj. destruct (inv_used_below _ _ _ Hi i j v) as (w & ? & ?); eauto.
  - intros i Hlt. destruct (inv_next_used _ _ _ Hi i Hlt) as (w & ? & ?). eauto.
  - intros id Hge Hlt. rewrite Hver. apply N.ltb_ge in Hge. apply N.ltb_lt in Hlt. by rewrite Hge, Hlt.
Qed.

Lemma ec_grow_next new n s : ec_grow new (ec_set_next n s) =
  match ec_grow new s with
  | ROk s' u => ROk (ec_set_next n s') u
  | RPanic s' => RPanic (ec_set_next n s')
  | RUB w => RUB w
  end.
Proof.
  unfold ec_grow, mbind, M_bind, getS, lift, modS. simpl.
  destruct (new <=? ec_cap s); [done|].
  destruct (arealloc_filled _ _ _ _); [|done..]. simpl.
  by destruct (bv_realloc _ _ _).
Qed.

(** ** create *)

(** The part of creation after an id was chosen. *)
Lemma ec_create_tail s I L gaps next id v :
  ec_inv s I L →
  ver_at s id = Some v → v + 1 < u32_size →
  id < next → next ≤ ec_cap s → next < u32_size → ec_next s ≤ next →
  id ∉ gaps → NoDup gaps → (∀ g, g ∈ gaps → g < next) →
  bit (ec_alive s) id = false → id < NULL_ID →
  (∀ x, (x < next ∧ x ∉ gaps) ↔ ((x < ec_next s ∧ x ∉ ec_gaps s) ∨ x = id)) →
  (∀ x, x < next → x ≠ id → ∃ w, ver_at s x = Some w ∧ 1 ≤ w) →
  ∀ al, bv_toggle (ec_alive s) id = POk al →
  Entity id (v + 1) ∉ I ∧
  ec_inv (EC gaps (ec_cap s) (<[N.to_nat id := Some (v + 1)]> (ec_ver s)) al next)
         (I ++ [Entity id (v + 1)]) (L ∪ {[ Entity id (v + 1) ]}).
Proof.
  intros Hi Hv Hv32 Hidn Hncap Hn32 Hnn Hidg Hnd Hglt Hbit Hnull Hx Hused al Hal.
  apply bv_toggle_ok in Hal as [Hall Halb].
  pose proof (ver_at_lt _ _ _ _ _ Hi Hv) as Hidcap.
  pose proof (inv_ver_len _ _ _ Hi) as Hvl.
  set (s' := EC gaps (ec_cap s) _ al next).
  assert (∀ x, ver_at s' x = if bool_decide (x = id) then Some (v + 1) else ver_at s x) as Hver.
  { intros x. unfold ver_at, s'. simpl. case_bool_decide as Hxi.
    - subst. rewrite list_lookup_insert; [done|]. lia.
    - rewrite list_lookup_insert_ne; [done|]. intros ?%N2Nat.inj. congruence. }
  assert (Entity id (v + 1) ∉ I) as Hnew.
  { intros Hin. destruct (inv_issued _ _ _ Hi _ Hin) as (w & Hw & ?). simpl in *.
    rewrite Hv in Hw. injection Hw as <-. lia. }
  split; [done|]. split; simpl; try done.
  - by rewrite insert_length.
  - intros x Hxc. rewrite Hver. case_bool_decide; [eauto|]. by apply Hi.
  - unfold bv_sized. rewrite Hall. apply Hi.
  - intros x. rewrite Halb, Hx. rewrite <- (inv_alive _ _ _ Hi x).
    case_bool_decide; subst; simpl; [rewrite Hbit; naive_solver|]. destruct (bit _ x); naive_solver.
  - intros e. rewrite elem_of_union, elem_of_singleton, Halb, Hver. case_bool_decide as He.
    + subst id. rewrite Hbit. simpl. split.
      * intros [Hin| ->]; [|done]. apply (inv_live _ _ _ Hi) in Hin as [Hb _]. congruence.
      * intros [_ [= ->]]. right. by destruct e.
    + rewrite xorb_false_l. rewrite (inv_live _ _ _ Hi). split; [|by left].
      intros [?| ->]; [done|]. simpl in He. congruence.
  - intros e [Hin|Hin%elem_of_list_singleton]%elem_of_app.
    + destruct (inv_issued _ _ _ Hi _ Hin) as (w & Hw & ?). rewrite Hver.
      case_bool_decide as He; [|eauto]. subst id. rewrite Hv in Hw. injection Hw as <-.
      exists (v + 1). split; [done|]. lia.
    + subst e. simpl. rewrite Hver, bool_decide_true by done. exists (v + 1). split; [done|]. lia.
  - apply NoDup_app. split; [apply Hi|]. split; [|apply NoDup_singleton].
    intros x Hin ->%elem_of_list_singleton. done.
  - intros x w. rewrite Hver. case_bool_decide as He.
    + subst. intros _ _. eexists. split; [apply elem_of_app; right; by apply elem_of_list_singleton|done].
    + intros Hw H1. destruct (inv_ver_used _ _ _ Hi _ _ Hw H1) as (e & ? & ?).
      exists e. split; [apply elem_of_app; by left|done].
  - intros i j w. rewrite Hver. case_bool_decide as He.
    + subst i. intros _ _ Hj. rewrite Hver, bool_decide_false by lia. apply Hused; lia.
    + intros Hw H1 Hj. rewrite Hver. case_bool_decide; [exists (v + 1); split; [done|lia]|].
      by eapply (inv_used_below _ _ _ Hi).
  - intros i Hin. rewrite Hver. case_bool_decide; [exists (v + 1); split; [done|lia]|]. by apply Hused.
  - intros e [Hin|Hin%elem_of_list_singleton]%elem_of_app; [by apply (inv_issued_null _ _ _ Hi)|by subst].
  - intros e [Hin|Hin%elem_of_singleton]%elem_of_union; apply elem_of_app.
    + left. by apply Hi.
    + right. subst. by apply elem_of_list_singleton.
Qed.

(** What a successful creation does. *)
Definition ec_created (s : ec) (I : list entity) (L : gset entity) (s' : ec) (cr : creation) : Prop :=
  let e := cr_entity cr in
  e ∉ I ∧ ec_inv s' (I ++ [e]) (L ∪ {[ e ]}) ∧
  cr_before cr = ec_cap s ∧ cr_after cr = ec_cap s' ∧ e_id e < ec_cap s' ∧ e_id e < NULL_ID ∧
  bit (ec_alive s) (e_id e) = false ∧
  (ec_cap s' = ec_cap s ∨
   (ec_cap s' = N.max (ec_cap s) 1 * 2 ∧ e_id e = ec_next s ∧ as_u32 (ec_cap s) ≤ ec_next s ∧ ec_gaps s = [])) ∧
  ((∀ e', e' ∈ I → e_id e' ≠ e_id e) → ∀ e', e' ∈ I → bit (ec_alive s) (e_id e') = true).

Lemma ec_create_spec U s I L : ec_inv s I L →
  sat U (ec_create Debug s) (ec_created s I L) (λ _, True).
Proof.
  intros Hi. unfold ec_create. wp.
  destruct (last (ec_gaps s)) as [id|] eqn:Elast.
  - wp. simpl. pose proof (last_snoc_inv _ _ Elast) as Hgaps.
    assert (id ∈ ec_gaps s) as Hin. { rewrite Hgaps. apply elem_of_app. right. by apply elem_of_list_singleton. }
    pose proof (inv_gaps_lt _ _ _ Hi _ Hin) as Hlt.
    pose proof (inv_next_cap _ _ _ Hi) as Hnc. pose proof (inv_next_u32 _ _ _ Hi) as Hn32.
    pose proof (inv_gaps_nodup _ _ _ Hi) as Hnd. rewrite Hgaps in Hnd.
    apply NoDup_app in Hnd as (Hnd & Hdisj & _).
    assert (id ∉ vpop (ec_gaps s)) as Hnin. { intros H. eapply Hdisj; [exact H|]. by apply elem_of_list_singleton. }
    assert (id < ec_cap s) as Hcap by lia.
    assert (bit (ec_alive s) id = false) as Hbit.
    { apply not_true_is_false. intros [_ Hn]%(inv_alive _ _ _ Hi). done. }
    destruct (bv_upd_lt (λ w, N.lxor w (bv_mask id)) (ec_alive s) id) as [al Hal];
      [eapply bv_sized_lt; [apply Hi|done]|].
    unfold bv_toggle. rewrite Hal. wp.
    destruct (inv_ver_some _ _ _ Hi _ Hcap) as [v Hv].
    rewrite (proj2 (aget_ver s id v)) by done. wp.
    unfold u32_add. destruct (v + 1 <? u32_size) eqn:E32; [|done].
    apply N.ltb_lt in E32. wp.
    rewrite aset_lt by (rewrite (inv_ver_len _ _ _ Hi); lia). wp.
    unfold ec_created. cbn.
    destruct (ec_create_tail s I L (vpop (ec_gaps s)) (ec_next s) id v) with (al := al) as [Hn Hinv]; try done; try lia.
    + intros g Hg. apply (inv_gaps_lt _ _ _ Hi). rewrite Hgaps. apply elem_of_app. by left.
    + unfold NULL_ID, u32_size in *. lia.
    + intros x. assert (x ∈ ec_gaps s ↔ x ∈ vpop (ec_gaps s) ∨ x = id) as ->.
      { rewrite Hgaps at 1. by rewrite elem_of_app, elem_of_list_singleton. }
      split; [|intros [[? ?]| ->]; naive_solver].
      intros [? ?]. destruct (decide (x = id)); naive_solver.
    + intros x Hx _. by apply (inv_next_used _ _ _ Hi).
    + split_and!; try done; try lia.
      * unfold NULL_ID, u32_size in *. lia.
      * intros Hfresh. destruct (inv_next_used _ _ _ Hi _ Hlt) as (w & Hw & Hw1).
        destruct (inv_ver_used _ _ _ Hi _ _ Hw Hw1) as (e & He & Heid). by destruct (Hfresh e).
  - apply last_None in Elast as Hgaps.
    pose proof (inv_next_cap _ _ _ Hi) as Hnc. pose proof (inv_next_u32 _ _ _ Hi) as Hn32.
    set (id := ec_next s).
    assert (bit (ec_alive s) id = false) as Hbit.
    { apply not_true_is_false. intros [Hn _]%(inv_alive _ _ _ Hi). unfold id in Hn. lia. }
    assert ((∀ e', e' ∈ I → e_id e' ≠ id) → ∀ e', e' ∈ I → bit (ec_alive s) (e_id e') = true) as Hreuse.
    { intros Hfresh e He. apply (inv_alive _ _ _ Hi). rewrite Hgaps. split; [|apply not_elem_of_nil].
      fold id. destruct (N.lt_trichotomy (e_id e) id) as [?|[?|Hgt]]; [done|by destruct (Hfresh e)|].
      destruct (inv_issued _ _ _ Hi _ He) as (w & Hw & Hw1).
      destruct (inv_used_below _ _ _ Hi (e_id e) id w) as (w' & Hw' & Hw1'); [done|lia|done|].
      destruct (inv_ver_used _ _ _ Hi _ _ Hw' Hw1') as (e' & He' & Heid). by destruct (Hfresh e'). }
    wp. unfold u32_add at 1. destruct (id + 1 <? u32_size) eqn:E1; [|done]. wp.
    apply N.ltb_lt in E1.
    assert (id < NULL_ID) as Hnull by (unfold NULL_ID, u32_size in *; lia).
    (* the state after a possible growth *)
    assert (∀ s1, ec_inv s1 I L → ec_gaps s1 = ec_gaps s → ec_next s1 = ec_next s → id < ec_cap s1 →
      (∀ x, bit (ec_alive s1) x = bit (ec_alive s) x) →
      (ec_cap s1 = ec_cap s ∨
         (ec_cap s1 = N.max (ec_cap s) 1 * 2 ∧ as_u32 (ec_cap s) ≤ ec_next s)) →
      sat U ((s1 ← getS;
        al ← lift (bv_toggle (ec_alive s1) id);
        _ ← modS (ec_set_alive al);
        v ← lift (aget (ec_ver s1) id);
        version ← lift (u32_add Debug v 1);
        vers ← lift (aset (ec_ver s1) id version);
        _ ← modS (ec_set_ver vers);
        s2 ← getS;
        mret (Creation (Entity id version) (ec_cap s) (ec_cap s2))) (ec_set_next (id + 1) s1))
        (ec_created s I L) (λ _, True)) as Htail.
    { intros s1 Hi1 Hg1 Hn1 Hcap1 Hb1 Hgr. wp.
      destruct (bv_upd_lt (λ w, N.lxor w (bv_mask id)) (ec_alive s1) id) as [al Hal];
        [eapply bv_sized_lt; [apply Hi1|done]|].
      unfold bv_toggle. cbn [ec_set_next ec_set_alive ec_set_ver ec_alive ec_ver ec_cap ec_gaps ec_next]. rewrite Hal. wp.
      destruct (inv_ver_some _ _ _ Hi1 _ Hcap1) as [v Hv].
      rewrite (proj2 (aget_ver s1 id v)) by done. wp.
      unfold u32_add. destruct (v + 1 <? u32_size) eqn:E32; [|done].
      apply N.ltb_lt in E32. wp.
      rewrite aset_lt by (rewrite (inv_ver_len _ _ _ Hi1); lia). wp.
      unfold ec_created. cbn.
      destruct (ec_create_tail s1 I L (ec_gaps s1) (id + 1) id v) with (al := al) as [Hn Hinv]; try done; try lia.
      + rewrite Hg1, Hgaps. apply not_elem_of_nil.
      + apply Hi1.
      + intros g Hg. rewrite Hg1, Hgaps in Hg. by apply not_elem_of_nil in Hg.
      + by rewrite Hb1.
      + intros x. rewrite Hg1, Hgaps, Hn1. fold id. pose proof (not_elem_of_nil x). split.
        * intros [? _]. destruct (decide (x = id)); [by right|]. left. split; [lia|done].
        * intros [[? ?]| ->]; (split; [lia|done]).
      + intros x Hx Hne. apply (inv_next_used _ _ _ Hi1). rewrite Hn1. fold id. lia.
      + split_and!; try done. destruct Hgr as [?|[? ?]]; [by left|right]. by split_and!. }
    destruct (will_grow_with_id s id) eqn:Ew.
    + apply N.leb_le in Ew. rewrite ec_grow_next.
      pose proof (ec_grow_spec U (N.max (ec_cap s) 1 * 2) s (λ _, True) I L Hi) as Hg.
      destruct (ec_grow _ s) as [s1 u|s1|w]; [|done|done].
      destruct Hg as (Hi1 & Hc1 & Hg1 & Hn1 & Hb1 & _).
      unfold sat at 1. wp1. cbv beta. apply (Htail s1); try done; [unfold id; rewrite Hc1; lia|].
      right. split; [rewrite Hc1; lia|done].
    + do 2 wp1. cbv beta. apply (Htail s); try done; [|by left].
      unfold will_grow_with_id in Ew. apply N.leb_gt in Ew. unfold as_u32 in Ew.
      pose proof (N.mod_le (ec_cap s) u32_size). unfold u32_size in *. lia.
Qed.

(** ** destroy *)
Definition ec_destroyed (s : ec) (I : list entity) (L : gset entity) (e : entity) (s' : ec) : Prop :=
  ec_inv s' I (L ∖ {[ e ]}) ∧ ec_cap s' = ec_cap s ∧ ec_ver s' = ec_ver s ∧
  ∀ j, bit (ec_alive s') j = negb (bool_decide (j = e_id e)) && bit (ec_alive s) j.

Lemma ec_destroy_live md s I L e : ec_inv s I L → e ∈ L →
  ∃ s', ec_destroy md e s = ROk s' () ∧ ec_destroyed s I L e s'.
Proof.
  intros Hi HL. pose proof (live_lt _ _ _ _ Hi HL) as Hcap.
  pose proof (proj1 (inv_live _ _ _ Hi e) HL) as [Hbit Hver].
  pose proof (proj1 (inv_alive _ _ _ Hi _) Hbit) as [Hlt Hng].
  unfold ec_destroy, mbind, M_bind, getS, lift, modS.
  assert (dassertP md (POk (validate_id s (e_id e))) = POk ()) as ->.
  { apply dassert_ok. intros _. unfold validate_id. by apply N.ltb_lt in Hcap as ->. }
  assert (dassertP md (validate_version s e) = POk ()) as ->.
  { apply dassert_ok. intros _. unfold validate_version. rewrite (proj2 (aget_ver _ _ _) Hver).
    cbn. by rewrite N.eqb_refl. }
  assert (dassertP md (ec_is_alive md s e) = POk ()) as ->.
  { apply dassert_ok. intros _. rewrite (ec_is_alive_spec _ _ I L) by done. by rewrite bool_decide_true. }
  destruct (bv_upd_lt (λ w, N.lxor w (bv_mask (e_id e))) (ec_alive s) (e_id e)) as [al Hal];
    [eapply bv_sized_lt; [apply Hi|done]|].
  unfold bv_toggle. rewrite Hal. change (bv_toggle (ec_alive s) (e_id e) = POk al) in Hal.
  apply bv_toggle_ok in Hal as [Hall Halb].
  unfold u32_sub. assert ((1 <=? ec_next s) = true) as -> by (apply N.leb_le; lia).
  assert (∀ j, bit al j = negb (bool_decide (j = e_id e)) && bit (ec_alive s) j) as Hal'.
  { intros j. rewrite Halb. case_bool_decide; subst; simpl; [by rewrite Hbit|]. by destruct (bit _ j). }
  assert (∀ gaps next, ec_inv s I L →
    next ≤ ec_next s → NoDup gaps → (∀ g, g ∈ gaps → g < next) →
    (∀ x, x < next ∧ x ∉ gaps ↔ (x ≠ e_id e ∧ x < ec_next s ∧ x ∉ ec_gaps s)) →
    ec_inv (EC gaps (ec_cap s) (ec_ver s) al next) I (L ∖ {[e]})) as Hinv.
  { intros gaps next _ Hn Hnd Hg Hx.
    pose proof (inv_next_cap _ _ _ Hi). pose proof (inv_next_u32 _ _ _ Hi).
    split; simpl; try apply Hi; try done; try lia.
    - unfold bv_sized. rewrite Hall. apply Hi.
    - intros x. rewrite Hal', Hx, andb_true_iff, negb_true_iff, bool_decide_eq_false, (inv_alive _ _ _ Hi). done.
    - intros e'. rewrite elem_of_difference, elem_of_singleton, Hal', (inv_live _ _ _ Hi).
      change (ver_at (EC gaps (ec_cap s) (ec_ver s) al next) (e_id e')) with (ver_at s (e_id e')).
      rewrite andb_true_iff, negb_true_iff, bool_decide_eq_false. split.
      + intros [[? Hv'] Hne]. split_and!; try done. intros Heq. rewrite Heq, Hver in Hv'.
        apply Hne. destruct e, e'; simpl in *. congruence.
      + intros [[? ?] ?]. split_and!; try done. intros ->. done.
    - intros i Hlt'. apply (inv_next_used _ _ _ Hi). lia.
    - intros e' [? _]%elem_of_difference. by apply Hi. }
  destruct (e_id e =? ec_next s - 1) eqn:E.
  - apply N.eqb_eq in E. eexists. split; [reflexivity|]. split_and!; try done.
    apply (Hinv (ec_gaps s) (e_id e)); try done.
    + lia.
    + apply Hi.
    + intros g Hg. pose proof (inv_gaps_lt _ _ _ Hi _ Hg). assert (g ≠ e_id e) by (intros ->; done). lia.
    + intros x. split; [intros [? ?]; split_and!; try done; lia|]. intros (? & ? & ?). split; [lia|done].
  - apply N.eqb_neq in E. eexists. split; [reflexivity|]. split_and!; try done.
    apply (Hinv (ec_gaps s ++ [e_id e]) (ec_next s)); try done.
    + apply NoDup_app. split; [apply Hi|]. split; [|apply NoDup_singleton].
      intros x Hx ->%elem_of_list_singleton. done.
    + intros g [?|Hg%elem_of_list_singleton]%elem_of_app; [by apply Hi|]. by subst.
    + intros x. rewrite not_elem_of_app, elem_of_list_singleton. naive_solver.
Qed.

Lemma ec_destroy_dead s I L e : ec_inv s I L → e ∉ L → ec_destroy Debug e s = RPanic s.
Proof.
  intros Hi HL. unfold ec_destroy, mbind, M_bind, getS, lift. simpl.
  unfold validate_id. destruct (e_id e <? ec_cap s) eqn:Ec; simpl; [|done].
  apply N.ltb_lt in Ec.
  assert (ec_is_alive Debug s e = POk false) as Ha.
  { rewrite (ec_is_alive_spec _ _ I L) by done. by rewrite bool_decide_false. }
  unfold validate_version. destruct (inv_ver_some _ _ _ Hi _ Ec) as [v Hv].
  rewrite (proj2 (aget_ver _ _ _) Hv). simpl. destruct (v =? e_ver e); [|done]. simpl.
  by rewrite Ha.
Qed.

Lemma ec_destroy_debug s I L e s' u : ec_inv s I L →
  ec_destroy Debug e s = ROk s' u → e ∈ L ∧ ec_destroyed s I L e s'.
Proof.
  intros Hi H. destruct (decide (e ∈ L)) as [HL|HL].
  - split; [done|]. destruct (ec_destroy_live Debug _ _ _ _ Hi HL) as (s2 & Heq & Hd).
    rewrite H in Heq. by injection Heq as <- _.
  - rewrite (ec_destroy_dead _ _ _ _ Hi HL) in H. done.
Qed.

(** Capacities reported by creation. *)
Lemma ec_create_caps md s s' cr : ec_create md s = ROk s' cr → cr_before cr = ec_cap s ∧ cr_after cr = ec_cap s'.
Proof.
  unfold ec_create. intros (s1 & x & [-> ->]%get_ok & H)%bind_ok.
  apply bind_ok in H as (s2 & id & _ & H).
  apply bind_ok in H as (s3 & x & [-> ->]%get_ok & H).
  apply bind_ok in H as (s3 & al & [_ ->]%lift_ok & H).
  apply bind_ok in H as (s3 & [] & ->%mod_ok & H).
  apply bind_ok in H as (s3 & v & [_ ->]%lift_ok & H).
  apply bind_ok in H as (s3 & ver & [_ ->]%lift_ok & H).
  apply bind_ok in H as (s3 & vers & [_ ->]%lift_ok & H).
  apply bind_ok in H as (s3 & [] & ->%mod_ok & H).
  apply bind_ok in H as (s3 & x & [-> ->]%get_ok & [-> ->]%ret_ok). done.
Qed.
Lemma ec_destroy_cap md e s s' u : ec_destroy md e s = ROk s' u → ec_cap s' = ec_cap s.
Proof.
  unfold ec_destroy. intros (s1 & x & [-> ->]%get_ok & H)%bind_ok.
  apply bind_ok in H as (s3 & [] & [_ ->]%lift_ok & H).
  apply bind_ok in H as (s3 & [] & [_ ->]%lift_ok & H).
  apply bind_ok in H as (s3 & [] & [_ ->]%lift_ok & H).
  apply bind_ok in H as (s3 & al & [_ ->]%lift_ok & H).
  apply bind_ok in H as (s3 & [] & ->%mod_ok & H).
  apply bind_ok in H as (s3 & l & [_ ->]%lift_ok & H).
  destruct (e_id e =? l); apply mod_ok in H as ->; done.
Qed.
