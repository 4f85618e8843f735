(** EntQ.v — entity queries. *)
From Verif.Proofs Require Export QueryX.
Local Open Scope N_scope.

(** ** Page indices stay initialised *)
Definition pinit (a : arr nat) (id : N) : Prop := ∃ p, aget a id = POk p.
Definition pmono (s s' : store) : Prop := ∀ id, pinit (st_page s) id → pinit (st_page s') id.
Definition mono {A} (m : M store A) : Prop := ∀ s s' a, m s = ROk s' a → pmono s s'.
Lemma mono_bind {A B} (m : M store A) (k : A → M store B) : mono m → (∀ a, mono (k a)) → mono (m ≫= k).
Proof. intros H1 H2 s s' b (s1 & a & E1 & E2)%bind_ok id Hi. eapply H2, H1; done. Qed.
Lemma mono_keeps {A} (m : M store A) : keeps st_page m → mono m.
Proof. intros H s s' a E id Hi. by rewrite (keeps_ok _ _ _ _ _ H E). Qed.
Lemma mono_set_page id p : mono (set_page_index id p).
Proof.
  intros s s' [] H id' [p' Hp]. unfold set_page_index in H. apply bind_ok in H as (s1 & x & [-> ->]%get_ok & H).
  apply bind_ok in H as (s2 & a & [Ha ->]%lift_ok & H). injection H as <-. simpl. unfold aset in Ha.
  destruct (N.ltb_spec id (N.of_nat (length (st_page s)))); [|done]. injection Ha as <-. apply aget_ok in Hp.
  destruct (decide (id = id')) as [->|Hn].
  - exists p. apply aget_ok. apply list_lookup_insert. lia.
  - exists p'. apply aget_ok. rewrite list_lookup_insert_ne by lia. done.
Qed.
Ltac mono := repeat first
  [ apply mono_set_page | apply mono_bind; [|intros ?]
  | match goal with |- mono (match ?x with _ => _ end) => destruct x end
  | apply mono_keeps; unfold_ops; keeps; done ].
Lemma mono_add c e vals : mono (add_components c e vals).
Proof. unfold add_components, ensure_types, move_entity, set_location, swap_remove_internal. mono. Qed.
Lemma mono_remove c e T : mono (remove_components c e T).
Proof. unfold remove_components, move_entity, swap_remove_internal. mono. Qed.
Lemma mono_create_with id l : mono (set_location id l).
Proof. unfold set_location. mono. Qed.
Lemma mono_destroy c e : mono (destroy_entity c e).
Proof. unfold destroy_entity, swap_remove_internal. mono. Qed.
Lemma mono_set c e vals : mono (set_components c e vals).
Proof.
  apply mono_keeps. intros s. unfold set_components, mbind, M_bind, getS, lift.
  destruct (get_components_refs c s e vals.*1) as [[rs|]| |]; reflexivity.
Qed.
Lemma mono_write c q f : mono (query_write c q f).
Proof.
  apply mono_keeps. intros s. unfold query_write, mbind, M_bind, getS, lift.
  destruct (component_query c q s) as [it| |]; try reflexivity. by destruct (write_loop _ _ _ _ _ _).
Qed.

Section e.
Context (c : cfg) (Hc : cfg_ok c) (Hmd : c_mode c = Debug).

Lemma mono_register s s' e I L D : comp_state c s I L D → register_new_entity c s = ROk s' e → pmono s s'.
Proof using.
  clear Hc Hmd. intros Hs H. pose proof (register_caps _ _ _ _ H) as Hcaps. intros id [p Hp].
  destruct Hcaps as [(_ & _ & _ & -> & _ & _)|(Hp1 & _ & _ & _)]; [by exists p|]. exists p. apply aget_ok in Hp. apply aget_ok.
  pose proof (ci_page _ _ _ _ (cs_inv _ _ _ _ _ Hs)) as Hl.
  unfold arealloc in Hp1. destruct (N.eqb_spec (ec_cap (st_ec s)) (ec_cap (st_ec s'))) as [_|Hn]; [congruence|].
  apply copy_prefix_ok in Hp1 as (H1 & H2 & ->). pose proof (lookup_lt_Some _ _ _ Hp).
  rewrite lookup_app_l by (rewrite take_length; lia). by rewrite lookup_take by lia.
Qed.
Lemma step_pmono s s' o r I L D : comp_state c s I L D → step c o s = ROk s' r → pmono s s'.
Proof using.
  clear Hc Hmd. intros Hs H. destruct o; simpl in H; try apply no_out_ok in H as [H _].
  - apply bind_ok in H as (s1 & e & H & [_ ->]%ret_ok). unfold create_entity in H. apply bind_ok in H as (s2 & e2 & H1 & H).
    apply bind_ok in H as (s3 & [] & H2 & [_ ->]%ret_ok). intros id Hid.
    assert (mono (disable_archetype (e_id e2))) as Hm by (apply mono_keeps; unfold_ops; keeps; done).
    eapply Hm; [exact H2|]. eapply mono_register; done.
  - apply bind_ok in H as (s1 & e & H & [_ ->]%ret_ok). unfold create_entity_with_archetype in H. apply bind_ok in H as (s2 & e2 & H1 & H).
    assert (mono (l ← on_ac (ac_add_entity c (e_id e2) a); _ ← set_location (e_id e2) l; mret e2)) as Hm.
    { unfold set_location. mono. }
    intros id Hid. eapply Hm; [exact H|]. by eapply mono_register.
  - by eapply mono_destroy.
  - by eapply mono_add.
  - by eapply mono_remove.
  - by eapply mono_set.
  - by eapply mono_write.
  - apply (keeps_ok but_tags) in H; [|apply tag_keeps]. injection H as _ _ _ Hp _ _. intros id. by rewrite Hp.
  - apply (keeps_ok but_tags) in H; [|apply tag_keeps]. injection H as _ _ _ Hp _ _. intros id. by rewrite Hp.
  - apply (keeps_ok but_orders) in H; [|apply (order_keeps c g e e)]. injection H as _ _ _ Hp _ _. intros id. by rewrite Hp.
  - apply (keeps_ok but_orders) in H; [|apply order_keeps]. injection H as _ _ _ Hp _ _. intros id. by rewrite Hp.
  - apply (keeps_ok but_orders) in H; [|apply order_keeps]. injection H as _ _ _ Hp _ _. intros id. by rewrite Hp.
  - apply (keeps_ok but_orders) in H; [|apply (order_keeps c g e e)]. injection H as _ _ _ Hp _ _. intros id. by rewrite Hp.
Qed.

(** ** Having had components *)
Lemma comps_issued tr e x : comps tr e x → x = None ∨ e ∈ issued tr.
Proof using.
  clear. induction 1 as [e|tr e x o r x' _ IH Hst]; [by left|]. rewrite issued_snoc. rewrite elem_of_app.
  destruct o; simpl in Hst.
  1,2: destruct (decide (r = Some e)) as [->|]; [right; right; by left|]; subst; naive_solver.
  1,2,3,4: subst; destruct (decide _); destruct IH as [->|?]; naive_solver.
  all: subst; destruct IH as [->|?]; naive_solver.
Qed.
Lemma had_snoc tr x e : had_components (tr ++ [x]) e → had_components tr e ∨ ∃ m, comps (tr ++ [x]) e (Some m) ∧ m ≠ ∅.
Proof using.
  clear. intros (tr1 & tr2 & m & Heq & Hcs & Hne). destruct tr2 as [|y tr2 _] using rev_ind.
  - rewrite app_nil_r in Heq. subst. right. eauto.
  - rewrite app_assoc in Heq. apply app_inj_tail in Heq as [-> _]. left. by exists tr1, tr2, m.
Qed.
Lemma had_issued tr e : had_components tr e → e ∈ issued tr.
Proof using.
  clear. intros (tr1 & tr2 & m & -> & Hcs & _). unfold issued. rewrite omap_app. apply elem_of_app. left. by destruct (comps_issued _ _ _ Hcs).
Qed.
Lemma comps_empty tr e m m' : comps tr e (Some m) → comps tr e (Some m') → m ≠ ∅ → m' ≠ ∅.
Proof using.
  clear. intros H1%comps_types H2%comps_types Hne ->. rewrite <- H2 in H1. injection H1 as H1. apply Hne.
  apply dom_empty_inv_L. by rewrite H1, dom_empty_L.
Qed.
Lemma put_nonempty vals (m : gmap tid (list cell)) : m ≠ ∅ → put vals m ≠ ∅.
Proof using.
  clear. intros Hne H. apply Hne. apply dom_empty_inv_L. assert (dom (put vals m) = (∅ : gset tid)) as Hd by (by rewrite H, dom_empty_L).
  rewrite put_dom in Hd. set_solver.
Qed.
Lemma had_nonempty cap tr s e m : hrun c cap tr s → had_components tr e → comps tr e (Some m) → m ≠ ∅.
Proof using Hc Hmd.
  intros Hr. revert e m. induction Hr as [s H|tr s o s' r Hr IH Hh Ha Hro H]; intros e m Hhad Hm.
  - by inversion Hm; destruct tr.
  - pose proof (hrun_step c cap tr s o s' r Hr Hh Ha Hro H) as Hr'. apply had_snoc in Hhad as [Hhad|(m0 & Hm0 & Hne)]; [|exact (comps_empty _ _ _ _ Hm0 Hm Hne)].
    inversion Hm as [|tr0 e0 x o0 r0 x' Hx Hst Heq]. apply app_inj_tail in Heq as [-> [= -> ->]]. subst.
    assert (r ≠ Some e) as Hnew.
    { intros ->. destruct (handles_nodup c cap Hmd _ _ (hrun_run _ _ _ _ Hr')) as [Hnd _]. rewrite issued_snoc in Hnd.
      apply NoDup_app in Hnd as (_ & Hd & _). apply (Hd e); [by apply had_issued|by left]. }
    assert (∀ m, x = Some m → m ≠ ∅) as Hne. { intros m1 ->. by eapply IH. }
    destruct o; simpl in Hst; try (destruct (decide _) as [Hd|Hd]; [|by apply Hne]; try done); try (subst; by apply Hne).
    + destruct x as [m1|]; [|done]. injection Hst as ->. apply put_nonempty, Hne. done.
    + destruct x as [m1|]; [|done]. injection Hst as ->. subst. specialize (Hne _ eq_refl). intros Hf.
      destruct (hrun_state c Hc Hmd _ _ _ Hr) as (D & Hs & Hcs). pose proof (comps_types _ _ _ (Hcs e)) as Ht. rewrite <- (comps_types _ _ _ Hx) in Ht.
      unfold cview in Ht. destruct (decide (e ∈ live tr)) as [He|He]; [|done]. destruct (cs_row _ _ _ _ _ _ Hs He) as (m2 & HD & Hlt & _).
      rewrite HD in Ht. injection Ht as Ht. simpl in H. apply no_out_ok in H as [H _].
      assert (remove_components c e T s = RPanic s) as Hp; [|congruence].
      apply (remove_all_panics c Hc Hmd cap tr s e T m2); try done.
      * pose proof (state_observed c Hc _ _ _ _ e Hs Hlt) as Ho. unfold cview in Ho. by rewrite decide_True, HD in Ho.
      * intros ->. apply Hne. apply dom_empty_inv_L. by rewrite <- Ht, dom_empty_L.
      * intros t Hst%elem_of_dom. rewrite Ht in Hst. apply elem_of_dom in Hst. destruct (decide (t ∈ T)); [done|].
        assert (forget T m1 !! t = None) as Hn by (by rewrite Hf, lookup_empty). rewrite forget_lookup, decide_False in Hn by done. by destruct Hst as [? ?]; congruence.
    + destruct x as [m1|]; [|done]. injection Hst as ->. destruct (has_all _ _); [apply put_nonempty|]; by apply Hne.
    + destruct x as [m1|]; [|done]. injection Hst as ->. destruct (has_all _ _); [apply put_nonempty|]; by apply Hne.
Qed.
Lemma had_pinit cap tr s e : hrun c cap tr s → had_components tr e → pinit (st_page s) (e_id e).
Proof using Hc Hmd.
  intros Hr. revert e. induction Hr as [s H|tr s o s' r Hr IH Hh Ha Hro H]; intros e Hhad.
  - destruct Hhad as (tr1 & tr2 & m & Heq & Hm & _). destruct tr1; [|done]. by inversion Hm; destruct tr.
  - pose proof (hrun_step c cap tr s o s' r Hr Hh Ha Hro H) as Hr'. apply had_snoc in Hhad as [Hhad|(m0 & Hm0 & Hne)].
    + destruct (hrun_state c Hc Hmd _ _ _ Hr) as (D & Hs & _). eapply step_pmono; [done|done|]. by apply IH.
    + destruct (hrun_state c Hc Hmd _ _ _ Hr') as (D & Hs & Hcs). specialize (Hcs e). unfold cview in Hcs.
      pose proof (comps_types _ _ _ Hcs) as Ht. rewrite <- (comps_types _ _ _ Hm0) in Ht.
      destruct (decide _) as [He|He]; [|done]. destruct (cs_row _ _ _ _ _ _ Hs He) as (m2 & HD & Hlt & Hrow).
      rewrite HD in Ht. injection Ht as Ht. destruct Hrow as [(p & k & Hlk & _)|(_ & _ & ->)].
      * exists p. by apply linked_page in Hlk as [? _].
      * exfalso. apply Hne. apply dom_empty_inv_L. by rewrite <- Ht, dom_empty_L.
Qed.

(** ** The view of a page *)
Lemma loc_view s q p k id m : ac_inv c s → NoDup (q_types q) → loc s p k = Some (id, m) →
  ∃ i al pg, arch_index_by_page s p = POk i ∧ arch_with_layout_unchecked s i = POk al ∧ vget_unchecked (ac_pages s) p = POk pg ∧
    q_include c q al.1 = has_all m (q_types q) ∧
    (has_all m (q_types q) = true → ∃ offs, q_offsets c q al.1 al.2 = POk offs ∧ good_view c s q (pview_new c q p pg offs) p).
Proof using Hc.
  intros Hi Hq Hl. destruct Hc as [Hbs _ _].
  destruct (loc_page _ _ _ _ _ _ Hi Hl) as (pg & i & a & ly & Hpg & Hp2a & Ha & Hly & Hpa & Hwf & Hcol & _ & Hid & _).
  exists i, (a, ly), pg. unfold arch_index_by_page, arch_with_layout_unchecked, vidx, vget_unchecked. rewrite Hp2a, Ha, Hpg. simpl. rewrite Hly. simpl.
  pose proof (q_include_spec c q a Hbs (proj1 Hwf) Hq) as Hinc. pose proof (loc_dom _ _ _ _ _ _ _ _ Hi Hl Hp2a Ha) as Hdom.
  assert (matching q a ↔ has_all m (q_types q) = true) as Hm.
  { rewrite has_all_spec. unfold matching. by setoid_rewrite Hdom. }
  split_and!; try done.
  - destruct (q_include c q a), (has_all m (q_types q)); try done; [symmetry|]; tauto.
  - intros Hall%Hm. destruct (q_offsets_spec c q a ly Hbs (proj1 Hwf) (proj1 Hcol) Hall) as (o1 & o2 & -> & Ho & Hlo).
    exists (o1, o2). split; [done|]. eapply pview_good; try done. intros Hn. by rewrite Hn in Hid.
Qed.
Lemma view_refs s I L D q v p k e m : comp_state c s I L D → q_types q ≠ [] → good_view c (st_ac s) q v p →
  loc (st_ac s) p k = Some (e_id e, m) → e ∈ L →
  has_all m (q_types q) = true ∧ ∃ rs, ptrs_to_refs (add_to_ptrs (pv_ptrs v) k) = POk rs ∧ get_components_refs c s e (q_types q) = POk (Some rs).
Proof using Hc.
  intros Hs Hne (pg & a & ly & Hpg & Hpa & Hm & Hids & Hcnt & _ & Hrefs) Hl He. pose proof (ci_ac _ _ _ _ (cs_inv _ _ _ _ _ Hs)) as Hi.
  destruct (loc_page _ _ _ _ _ _ Hi Hl) as (pg' & i & a' & ly' & Hpg' & Hp2a & Ha & _ & Hpa' & _ & _ & _ & Hid & _).
  assert (pg' = pg) as -> by congruence. assert (a' = a ∧ ly' = ly) as [-> ->] by (split; congruence).
  assert (has_all m (q_types q) = true) as Hall.
  { apply has_all_spec. intros t Ht. by apply (loc_dom _ _ _ _ _ _ _ _ Hi Hl Hp2a Ha), Hm. }
  split; [done|]. destruct (Hrefs k) as (rs & Hrs & Hat). { rewrite Hcnt. by eapply lookup_lt_Some. }
  exists rs. split; [done|]. eapply refs_of_loc; try done. by exists a, ly.
Qed.
End e.

(** ** Iterators over ranges: [ei_]/[oi_] ranges and views, position [n] and offset [off] *)
Definition ritems (x : (nat * nat) * pview) : list (pview * nat) := (λ i, (x.2, i)) <$> seq x.1.1 (x.1.2 - x.1.1).
Definition rall (zs : list ((nat * nat) * pview)) : list (pview * nat) := concat (ritems <$> zs).
Definition rrest (zs : list ((nat * nat) * pview)) (n off : nat) : list (pview * nat) :=
  match drop n zs with
  | [] => []
  | x :: r => ((λ i, (x.2, i)) <$> seq (x.1.1 + off) (x.1.2 - (x.1.1 + off))) ++ rall r
  end.
Definition rpos (zs : list ((nat * nat) * pview)) (n off : nat) : Prop :=
  ∀ x, zs !! n = Some x → (x.1.1 + off < x.1.2)%nat.
Definition rok (zs : list ((nat * nat) * pview)) : Prop := ∀ x, x ∈ zs → (x.1.1 < x.1.2)%nat.
Lemma rrest_0 zs : rrest zs 0 0 = rall zs.
Proof. unfold rrest. rewrite drop_0. destruct zs as [|x zs]; [done|]. unfold rall. simpl. unfold ritems at 2. by rewrite Nat.add_0_r. Qed.
Lemma rpos_0 zs n : rok zs → rpos zs n 0.
Proof. intros H x Hx. rewrite Nat.add_0_r. apply H. by eapply elem_of_list_lookup_2. Qed.
Lemma rrest_step zs n off a b v : rok zs → zs !! n = Some ((a, b), v) → (a + off < b)%nat →
  let p := if Nat.leb (pred b) (a + off) then (S n, 0%nat) else (n, S off) in
  rrest zs n off = (v, (a + off)%nat) :: rrest zs p.1 p.2 ∧ rpos zs p.1 p.2.
Proof.
  intros Hok Hn Hlt p. assert (rrest zs n off = (v, (a + off)%nat) :: (((λ i, (v, i)) <$> seq (S (a + off)) (b - S (a + off))) ++ rall (drop (S n) zs))) as ->.
  { unfold rrest. rewrite (drop_S _ _ _ Hn). simpl. replace (b - (a + off))%nat with (S (b - S (a + off))) by lia. done. }
  unfold p. destruct (Nat.leb_spec (pred b) (a + off)) as [Hb|Hb]; simpl.
  - replace (b - S (a + off))%nat with 0%nat by lia. simpl. split; [|by apply rpos_0]. f_equal.
    unfold rrest. destruct (drop (S n) zs) as [|x r]; [done|]. unfold rall. simpl. unfold ritems at 1. by rewrite Nat.add_0_r.
  - split.
    + f_equal. unfold rrest. rewrite (drop_S _ _ _ Hn). simpl. replace (a + S off)%nat with (S (a + off)) by lia. done.
    + intros x Hx. assert (x = ((a, b), v)) as -> by congruence. simpl. lia.
Qed.

(** ** Entity queries *)
Lemma eiter_step zs it : ei_ranges it = zs.*1 → ei_views it = zs.*2 → rok zs → rpos zs (ei_range it) (ei_off it) →
  match rrest zs (ei_range it) (ei_off it) with
  | [] => eiter_next it = POk (None, it)
  | (v, i) :: r => ∀ e k rs, ei_entities it !! i = Some e → aget (ei_index it) (e_id e) = POk k →
      ptrs_to_refs (add_to_ptrs (pv_ptrs v) k) = POk rs →
      ∃ it', eiter_next it = POk (Some rs, it') ∧ eiter_next_with it = POk (Some (e, rs), it') ∧
        ei_ranges it' = zs.*1 ∧ ei_views it' = zs.*2 ∧ ei_entities it' = ei_entities it ∧ ei_index it' = ei_index it ∧
        rpos zs (ei_range it') (ei_off it') ∧ rrest zs (ei_range it') (ei_off it') = r
  end.
Proof.
  intros Hr Hv Hok Hpos. destruct (zs !! ei_range it) as [[[a b] v]|] eqn:E.
  - pose proof (Hpos _ E) as Hlt. simpl in Hlt. destruct (rrest_step _ _ _ _ _ _ Hok E Hlt) as [-> Hp'].
    intros e k rs He Hk Hrs. unfold eiter_next_with, eiter_next. rewrite Hr, list_lookup_fmap, E. simpl.
    unfold vget_unchecked. rewrite He. simpl. rewrite Hv, list_lookup_fmap, E. simpl. rewrite Hk. simpl.
    destruct (if Nat.leb _ _ then _ else _) as [r' o'] eqn:Ep. rewrite Hrs. simpl. rewrite He. simpl. simpl in Hp'.
    eexists. split; [done|]. split; [done|]. simpl. split_and!; done.
  - unfold rrest. rewrite drop_ge by (by apply lookup_ge_None). unfold eiter_next. by rewrite Hr, list_lookup_fmap, E.
Qed.
Lemma eiter_yields zs (f : pview * nat → entity * list cref) rest : ∀ it,
  ei_ranges it = zs.*1 → ei_views it = zs.*2 → rok zs → rpos zs (ei_range it) (ei_off it) →
  rrest zs (ei_range it) (ei_off it) = rest →
  (∀ v i, (v, i) ∈ rest → ∃ k, ei_entities it !! i = Some (f (v, i)).1 ∧ aget (ei_index it) (e_id (f (v, i)).1) = POk k ∧
     ptrs_to_refs (add_to_ptrs (pv_ptrs v) k) = POk (f (v, i)).2) →
  ∃ it', yields eiter_next_with it (f <$> rest) it' ∧ yields eiter_next it (f <$> rest).*2 it'.
Proof.
  induction rest as [|[v i] rest IH]; intros it Hr Hv Hok Hpos Hrest Hf; pose proof (eiter_step zs it Hr Hv Hok Hpos) as H; rewrite Hrest in H.
  - exists it. simpl. split; constructor; [|done]. unfold eiter_next_with. by rewrite H.
  - destruct (Hf v i) as (k & He & Hk & Hrs); [by left|]. destruct (H _ _ _ He Hk Hrs) as (it1 & Hn & Hnw & Hr1 & Hv1 & He1 & Hi1 & Hp1 & Hrest1).
    destruct (IH it1) as (it' & Hy1 & Hy2); try done.
    { intros v' i' Hx. rewrite He1, Hi1. apply Hf. by right. }
    exists it'. simpl. split; econstructor; try done. rewrite Hnw. by destruct (f (v, i)).
Qed.

Section eq.
Context (c : cfg) (Hc : cfg_ok c) (Hmd : c_mode c = Debug) (s : store) (I : list entity) (L : gset entity) (D : gmap N (gmap tid (list cell))).
Context (Hs : comp_state c s I L D) (q : access) (Hq : NoDup (q_types q)) (Hne : q_types q ≠ []).

(** What is needed of the listed handles. *)
Definition listed (e : entity) : Prop :=
  e_id e < ec_cap (st_ec s) ∧ pinit (st_page s) (e_id e) ∧ ∀ m, e ∈ L → D !! e_id e = Some m → m ≠ ∅.
Definition matches (e : entity) : bool :=
  match D !! e_id e with Some m => bool_decide (e ∈ L) && has_all m (q_types q) | None => false end.
(** A live listed handle has its row. *)
Lemma listed_row e : listed e → e ∈ L → ∃ m p k, D !! e_id e = Some m ∧ linked s (e_id e) p k ∧ loc (st_ac s) p k = Some (e_id e, m).
Proof using Hs.
  clear Hc Hmd Hq Hne. intros (_ & _ & Hm) He. destruct (cs_row _ _ _ _ _ _ Hs He) as (m & HD & _ & [(p & k & Hlk & Hl & _)|(_ & _ & ->)]); [eauto 6|].
  by destruct (Hm _ He HD).
Qed.
(** So does one that matches. *)
Lemma matches_live e : matches e = true → e ∈ L ∧ ∃ m p k, D !! e_id e = Some m ∧ has_all m (q_types q) = true ∧ linked s (e_id e) p k ∧ loc (st_ac s) p k = Some (e_id e, m).
Proof using Hs Hne.
  clear Hc Hmd Hq. unfold matches. destruct (D !! e_id e) as [m|] eqn:HD; [|done]. intros [He%bool_decide_eq_true Hall]%andb_prop. split; [done|].
  destruct (cs_row _ _ _ _ _ _ Hs He) as (m' & HD' & _ & [(p & k & Hlk & Hl & _)|(_ & _ & ->)]); rewrite HD' in HD; injection HD as <-; [eauto 8|].
  destruct (q_types q) as [|t T]; [done|]. rewrite has_all_spec in Hall. destruct (Hall t) as [x Hx]; [by left|]. by rewrite lookup_empty in Hx.
Qed.
Lemma valid_spec e : e_id e < ec_cap (st_ec s) → valid_for_query c q s e = POk (matches e).
Proof using Hc Hs Hq Hne.
  clear Hmd. intros Hlt. unfold valid_for_query. pose proof (get_archetype_wp c s I L D e Hs Hlt) as H. unfold matches.
  destruct (decide (e ∈ L)) as [He|He].
  - destruct H as (m & HD & H). rewrite HD. rewrite bool_decide_true by done. simpl. destruct (decide (m = ∅)) as [->|Hm].
    { rewrite H. simpl. f_equal. symmetry. apply not_true_is_false. rewrite has_all_spec. destruct (q_types q) as [|t T]; [done|].
      intros Hall. destruct (Hall t) as [x Hx]; [by left|]. by rewrite lookup_empty in Hx. }
    destruct H as (a & -> & Hwf & Hdom). simpl. f_equal. destruct Hc as [Hbs _ _].
    pose proof (q_include_spec c q a Hbs (proj1 Hwf) Hq) as Hinc. unfold matching in Hinc. setoid_rewrite Hdom in Hinc. rewrite <- has_all_spec in Hinc.
    destruct (q_include c q a), (has_all m (q_types q)); try done; [symmetry|]; tauto.
  - rewrite H. simpl. destruct (D !! e_id e); [|done]. by rewrite bool_decide_false by done.
Qed.
(** The handle after one that matches is listed: no other is looked at while a range is extended. *)
Definition followed (ents : list entity) : Prop :=
  ∀ i e e', ents !! i = Some e → ents !! S i = Some e' → matches e = true → listed e'.
Lemma followed_cons e ents : followed (e :: ents) → followed ents.
Proof using. clear. intros H i e1 e2 H1 H2. by apply (H (S i)). Qed.
Lemma followed_drop n ents : followed ents → followed (drop n ents).
Proof using. clear. intros H i e1 e2. rewrite !lookup_drop, Nat.add_succ_r. apply H. Qed.
Lemma extend_spec p : (∀ e, listed e → e ∈ L → get_page_index s (e_id e) = POk p → matches e = true) →
  ∀ rest e0, matches e0 = true → followed (e0 :: rest) →
  ∃ n, eq_extend c s p rest = POk n ∧ (n ≤ length rest)%nat ∧ ∀ e, e ∈ take n rest → listed e ∧ e ∈ L ∧ get_page_index s (e_id e) = POk p.
Proof using Hs.
  clear Hc Hmd Hq Hne. intros Hp. induction rest as [|e rest IH]; intros e0 Hm0 Hl; simpl.
  - exists 0%nat. split_and!; try done. intros e He. by apply elem_of_nil in He.
  - pose proof (Hl 0%nat e0 e eq_refl eq_refl Hm0) as Hle. destruct Hle as (Hlt & [p' Hp'] & Hm). unfold get_page_index in *. rewrite Hp'. simpl. rewrite (cs_alive _ _ _ _ _ _ Hs Hlt). simpl.
    destruct (bool_decide_reflect (e ∈ L)) as [He|He]; simpl; [|exists 0%nat; split_and!; [done|lia|by intros ? ?%elem_of_nil]].
    destruct (Nat.eqb_spec p p') as [<-|Hpn]; simpl; [|exists 0%nat; split_and!; [done|lia|by intros ? ?%elem_of_nil]].
    assert (listed e) as Hle by (split_and!; [done|by exists p|done]).
    destruct (IH e) as (n & -> & Hn & Hin); [by apply Hp|by eapply followed_cons|]. exists (S n). simpl. split_and!; [done|lia|].
    intros e' [->|Hx]%elem_of_cons; auto.
Qed.
Definition at_view (ents : list entity) (x : pview * nat) (e : entity) : Prop :=
  ents !! x.2 = Some e ∧ e ∈ L ∧ ∃ m p k, linked s (e_id e) p k ∧ loc (st_ac s) p k = Some (e_id e, m) ∧ good_view c (st_ac s) q x.1 p.
Lemma ranges_spec ents : (∀ e, e ∈ ents → e_id e < ec_cap (st_ec s)) → followed ents → ∀ fuel start, (length ents ≤ start + fuel)%nat →
  ∃ zs, eq_ranges c q s ents fuel start = POk zs ∧ rok zs ∧ Forall2 (at_view ents) (rall zs) (List.filter matches (drop start ents)).
Proof using Hc Hs Hq Hne.
  clear Hmd. intros Hlts Hl. pose proof (ci_ac _ _ _ _ (cs_inv _ _ _ _ _ Hs)) as Hi. induction fuel as [|fuel IH]; intros start Hlen; simpl.
  { exists []. rewrite drop_ge by lia. split_and!; [done|by intros x ?%elem_of_nil|constructor]. }
  destruct (ents !! start) as [e|] eqn:E.
  2: { exists []. apply lookup_ge_None in E. rewrite drop_ge by lia. split_and!; [done|by intros x ?%elem_of_nil|constructor]. }
  rewrite (valid_spec e (Hlts e (elem_of_list_lookup_2 _ _ _ E))). simpl. rewrite (drop_S _ _ _ E). simpl.
  destruct (matches e) eqn:Em; simpl; [|apply IH; lia].
  destruct (matches_live e Em) as (He & m & p & k & HD & Hall & Hlk & Hloc).
  destruct (linked_page _ _ _ _ Hlk) as [-> _]. simpl. destruct (loc_view c Hc _ q p k _ m Hi Hq Hloc) as (i & al & pg & -> & H2 & -> & _ & Ho). simpl.
  rewrite H2. simpl. destruct (Ho Hall) as (offs & -> & Hgv). simpl.
  assert (∀ e' k' m1, e' ∈ L → D !! e_id e' = Some m1 → linked s (e_id e') p k' → loc (st_ac s) p k' = Some (e_id e', m1) → matches e' = true) as Hsame.
  { intros e' k' m1 He'L HD1 Hlk' Hloc1. unfold matches. rewrite HD1, bool_decide_true by done. simpl.
    destruct Hgv as (pg1 & a1 & ly1 & _ & Hpa1 & Hm1 & _). destruct (loc_page _ _ _ _ _ _ Hi Hloc1) as (pg2 & i2 & a2 & ly2 & _ & Hp2a2 & Ha2 & _ & Hpa2 & _).
    assert (a2 = a1) as -> by congruence. apply has_all_spec. intros t Ht. apply (loc_dom _ _ _ _ _ _ _ _ Hi Hloc1 Hp2a2 Ha2). auto. }
  destruct (extend_spec p) with (rest := drop (S start) ents) (e0 := e) as (n & -> & Hn & Hext); [|done| |].
  { intros e' Hle' HL' Hpg'. destruct (listed_row e' Hle' HL') as (m1 & p1 & k1 & HD1 & Hlk1 & Hloc1).
    destruct (linked_page _ _ _ _ Hlk1) as [Hp1 _]. assert (p1 = p) as -> by congruence. by eapply Hsame. }
  { rewrite <- (drop_S _ _ _ E). by apply followed_drop. }
  rewrite drop_length in Hn. simpl. destruct (IH (S (start + n))) as (zs & Hzs & Hok & Hf); [lia|]. rewrite Hzs. simpl.
  eexists. split; [done|]. split.
  { intros x [->|Hx]%elem_of_cons; [simpl; lia|by apply Hok]. }
  assert (∀ j e', (j ≤ n)%nat → ents !! (start + j)%nat = Some e' → matches e' = true ∧ at_view ents (pview_new c q p pg offs, (start + j)%nat) e') as Hrun.
  { intros j e' Hj He'. assert (e' ∈ L ∧ ∃ m1 k', D !! e_id e' = Some m1 ∧ linked s (e_id e') p k' ∧ loc (st_ac s) p k' = Some (e_id e', m1)) as (He'L & m1 & k' & HD1 & Hlk' & Hloc1).
    { destruct j as [|j].
      - rewrite Nat.add_0_r in He'. assert (e' = e) as -> by congruence. eauto 8.
      - destruct (Hext e') as (Hle' & HL' & Hpg').
        { apply elem_of_take. exists j. rewrite lookup_drop. split; [|lia]. rewrite <- He'. f_equal. lia. }
        split; [done|]. destruct (listed_row e' Hle' HL') as (m1 & p1 & k1 & HD1 & Hlk1 & Hloc1).
        destruct (linked_page _ _ _ _ Hlk1) as [Hp1 _]. assert (p1 = p) as -> by congruence. eauto 8. }
    split; [by eapply Hsame|]. split; [done|]. split; [done|]. exists m1, p, k'. done. }
  unfold rall. simpl. unfold ritems at 1. cbn [fst snd].
  assert (∀ j m0, (j + m0 = S n)%nat → Forall2 (at_view ents) ((λ i, (pview_new c q p pg offs, i)) <$> seq (start + j) m0)
    (List.filter matches (take m0 (drop (start + j) ents)))) as Htake.
  { intros j m0. revert j. induction m0 as [|m0 IHm]; intros j Hj; simpl; [constructor|].
    destruct (lookup_lt_is_Some_2 ents (start + j)) as [e' He']; [pose proof (lookup_lt_Some _ _ _ E); lia|]. destruct (Hrun j e') as [Hm' Hv']; [lia|done|].
    rewrite (drop_S _ _ _ He'). simpl. rewrite Hm'. constructor; [done|]. replace (S (start + j)) with (start + S j)%nat by lia. apply IHm. lia. }
  specialize (Htake 0%nat (S n) ltac:(lia)). rewrite Nat.add_0_r in Htake. replace (S (start + n) - start)%nat with (S n) by lia.
  assert (e :: List.filter matches (drop (S start) ents) = List.filter matches (take (S n) (drop start ents)) ++ List.filter matches (drop (S (start + n)) ents)) as ->.
  { rewrite <- List.filter_app. replace (S (start + n)) with (start + S n)%nat by lia. rewrite <- drop_drop, take_drop, (drop_S _ _ _ E). simpl.
    by rewrite Em. }
  by apply Forall2_app.
Qed.

Lemma entity_query_items ents : (∀ e, e ∈ ents → e_id e < ec_cap (st_ec s)) → followed ents →
  ∃ it l it', entity_query c q s ents = POk it ∧ yields eiter_next_with it l it' ∧ yields eiter_next it l.*2 it' ∧
    l.*1 = List.filter matches ents ∧ ∀ e rs, (e, rs) ∈ l → get_components_refs c s e (q_types q) = POk (Some rs).
Proof using Hc Hs Hq Hne.
  clear Hmd. intros Hlts Hl. destruct (ranges_spec ents Hlts Hl (length ents) 0) as (zs & Hzs & Hok & Hf); [lia|]. rewrite drop_0 in Hf.
  unfold entity_query. rewrite Hzs. simpl. set (it := EIter _ _ _ _ _ _ _).
  set (f := λ x : pview * nat, let e := default entity_null (ents !! x.2) in
    (e, match get_components_refs c s e (q_types q) with POk (Some rs) => rs | _ => [] end)).
  assert (∀ x e, at_view ents x e → (f x).1 = e ∧ ents !! x.2 = Some e ∧ get_components_refs c s e (q_types q) = POk (Some (f x).2) ∧
    ∃ k, aget (st_idx s) (e_id e) = POk k ∧ ptrs_to_refs (add_to_ptrs (pv_ptrs x.1) k) = POk (f x).2) as Hx.
  { intros x e (He & HeL & m & p & k & Hlk & Hloc & Hgv). unfold f. simpl. rewrite He. simpl.
    destruct (view_refs c Hc _ _ _ _ _ _ _ _ _ _ Hs Hne Hgv Hloc HeL) as (_ & rs & Hrs & Hg). rewrite Hg. split_and!; try done.
    exists k. split; [|done]. by destruct (linked_page _ _ _ _ Hlk) as [_ ?]. }
  destruct (eiter_yields zs f (rall zs) it) as (it' & Hy1 & Hy2); try done.
  { by apply rpos_0. } { apply rrest_0. }
  { intros v i Hv. apply elem_of_list_lookup in Hv as [n Hn]. destruct (Forall2_lookup_l _ _ _ _ _ Hf Hn) as (e & _ & Hav).
    destruct (Hx _ _ Hav) as (-> & He & _ & k & Hk & Hrs). exists k. done. }
  exists it, (f <$> rall zs), it'. split_and!; try done.
  - clear -Hf Hx. induction Hf as [|x e l k Hv _ IH]; [done|]. rewrite !fmap_cons. f_equal; [by apply Hx|exact IH].
  - intros e rs (x & Heq & Hin)%elem_of_list_fmap. apply elem_of_list_lookup in Hin as [n Hn]. destruct (Forall2_lookup_l _ _ _ _ _ Hf Hn) as (e' & _ & Hav).
    destruct (Hx _ _ Hav) as (H1 & _ & H2 & _). rewrite <- Heq in H1, H2. simpl in *. by subst.
Qed.
End eq.

Lemma entity_query_followed c cap tr s q ents : cfg_ok c → c_mode c = Debug → hrun c cap tr s → NoDup (q_types q) → q_types q ≠ [] →
  (∀ e, e ∈ ents → e ∈ issued tr) →
  (∀ i e e', ents !! i = Some e → ents !! S i = Some e' → (∃ m, observed c s e (Some m) ∧ ∀ t, t ∈ q_types q → is_Some (m !! t)) → had_components tr e') →
  ∃ it l it' f, entity_query c q s ents = POk it ∧ yields eiter_next_with it l it' ∧ yields eiter_next it l.*2 it' ∧
    l.*1 = List.filter f ents ∧
    (∀ e, f e = true ↔ ∃ m, observed c s e (Some m) ∧ ∀ t, t ∈ q_types q → is_Some (m !! t)) ∧
    (∀ e rs, (e, rs) ∈ l → get_components_refs c s e (q_types q) = POk (Some rs)).
Proof.
  intros Hc Hmd Hr Hq Hne Hiss Hhad. destruct (hrun_state c Hc Hmd _ _ _ Hr) as (D & Hs & Hcs).
  assert (∀ e, matches (live tr) D q e = true ↔ ∃ m, observed c s e (Some m) ∧ ∀ t, t ∈ q_types q → is_Some (m !! t)) as Hf.
  { intros e. setoid_rewrite (observed_D c Hc Hmd _ _ _ _ _ _ Hr Hs). unfold matches. split.
    - destruct (D !! e_id e) as [m|]; [|done]. intros [He%bool_decide_eq_true Hall]%andb_prop. exists m. split; [done|]. by apply has_all_spec.
    - intros (m & [He HD] & Hall). rewrite HD, bool_decide_true by done. simpl. by apply has_all_spec. }
  destruct (entity_query_items c Hc s _ _ D Hs q Hq Hne ents) as (it & l & it' & Hit & Hy1 & Hy2 & Hl & Hrs).
  { intros e He%Hiss. destruct (inv_issued _ _ _ (cs_ec _ _ _ _ _ Hs) _ He) as (v & Hv & _). exact (ver_at_lt _ _ _ _ _ (cs_ec _ _ _ _ _ Hs) Hv). }
  { intros i e e' H1 H2 Hm. apply Hf in Hm. pose proof (Hhad _ _ _ H1 H2 Hm) as He.
    pose proof (had_pinit c Hc Hmd _ _ _ _ Hr He) as Hp. split_and!; [|done|].
    - destruct Hp as [p Hp%aget_ok%lookup_lt_Some]. rewrite (ci_page _ _ _ _ (cs_inv _ _ _ _ _ Hs)) in Hp. lia.
    - intros m HL HD. eapply (had_nonempty c Hc Hmd _ _ _ _ _ Hr He). specialize (Hcs e'). unfold cview in Hcs. by rewrite decide_True, HD in Hcs. }
  by exists it, l, it', (matches (live tr) D q).
Qed.
Lemma entity_query_exact c cap tr s q ents : cfg_ok c → c_mode c = Debug → hrun c cap tr s → NoDup (q_types q) → q_types q ≠ [] →
  (∀ e, e ∈ ents → had_components tr e) →
  ∃ it l it' f, entity_query c q s ents = POk it ∧ yields eiter_next_with it l it' ∧ yields eiter_next it l.*2 it' ∧
    l.*1 = List.filter f ents ∧
    (∀ e, f e = true ↔ ∃ m, observed c s e (Some m) ∧ ∀ t, t ∈ q_types q → is_Some (m !! t)) ∧
    (∀ e rs, (e, rs) ∈ l → get_components_refs c s e (q_types q) = POk (Some rs)).
Proof.
  intros Hc Hmd Hr Hq Hne Hhad. apply (entity_query_followed c cap tr); [done..| |].
  - intros e He%Hhad. by apply had_issued.
  - intros i e e' _ H _. apply Hhad. by eapply elem_of_list_lookup_2.
Qed.

(** An entity without components whose id had them before. *)
Definition stale_page : list (list entity → op) :=
  [λ _, OCreateWith (ex_arch [1]); λ _, OCreateWith (ex_arch [1]); λ hs, ODestroy (h 1 hs); λ _, OCreate].
Lemma entity_query_stale : ∃ c cap tr s q ents it l it' e rs,
  cfg_ok c ∧ c_mode c = Debug ∧ hrun c cap tr s ∧ NoDup (q_types q) ∧ q_types q ≠ [] ∧ entity_query c q s ents = POk it ∧
  yields eiter_next_with it l it' ∧ (e, rs) ∈ l ∧ alive_in tr e ∧ get_components_refs c s e (q_types q) = POk None.
Proof.
  pose (c := ex_cfg Debug). pose (tr := end_trace c 4 stale_page). pose (s := end_store c 4 stale_page). pose (q := Access [1] []).
  pose (ents := [Entity 0 1; Entity 1 2]).
  assert (hrun c 4 tr s) as Hr by (apply hend_run; vm_compute; reflexivity).
  assert (alive_in tr (Entity 1 2)) as Ha by (apply live_alive; vm_compute; reflexivity).
  assert (match entity_query c q s ents with POk it => match drain 9 eiter_next_with it with POk l =>
    (length l <? 9)%nat && match l with [_; (e, _)] => (e_id e =? 1) && (e_ver e =? 2) | _ => false end | _ => false end | _ => false end = true) as H.
  { vm_compute. reflexivity. }
  assert (get_components_refs c s (Entity 1 2) (q_types q) = POk None) as Hg by (vm_compute; reflexivity). clearbody s tr.
  destruct (entity_query c q s ents) as [it| |] eqn:E1; try done. destruct (drain 9 eiter_next_with it) as [l| |] eqn:E2; try done.
  apply andb_prop in H as [H1 H2]. destruct (drain_yields eiter_next_with 9 _ _ E2) as [it2 Hy]; [by apply Nat.ltb_lt|].
  destruct l as [|x [|[[id v] rs] [|]]]; try done. apply andb_prop in H2 as [H2%N.eqb_eq H3%N.eqb_eq]. simpl in *. subst.
  exists c, 4, tr, s, q, ents, it, [x; (Entity 1 2, rs)], it2, (Entity 1 2), rs.
  split_and!; [apply ex_cfg_ok|done|done|apply NoDup_singleton|done|done|done|set_solver|done|done].
Qed.
(** An entity without components whose id never had any. *)
Definition no_page : list (list entity → op) := [λ _, OCreateWith (ex_arch [1]); λ _, OCreate].
Lemma entity_query_uninit : ∃ c cap tr s q ents,
  cfg_ok c ∧ c_mode c = Debug ∧ hrun c cap tr s ∧ NoDup (q_types q) ∧ q_types q ≠ [] ∧ (∀ e, e ∈ ents → alive_in tr e) ∧
  entity_query c q s ents = PUB Uninitialised.
Proof.
  pose (c := ex_cfg Debug). pose (tr := end_trace c 1 no_page). pose (s := end_store c 1 no_page).
  exists c, 1, tr, s, (Access [1] []), [Entity 0 1; Entity 1 1].
  split_and!; [apply ex_cfg_ok|done|apply hend_run; vm_compute; reflexivity|apply NoDup_singleton|done| |vm_compute; reflexivity].
  assert (alive_in tr (Entity 0 1)) as H1 by (apply live_alive; vm_compute; reflexivity).
  assert (alive_in tr (Entity 1 1)) as H2 by (apply live_alive; vm_compute; reflexivity). clearbody tr. set_solver.
Qed.
