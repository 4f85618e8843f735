(** VisitP.v — rows in the order of entry. *)
From Verif.Spec Require Export Visits.
From Verif.Proofs Require Export MemP QueryX DiscQ.
Local Open Scope N_scope.

Section firsts.
Context {X : Type} `{EqDecision X}.
Lemma elem_of_firsts (l : list X) x : x ∈ firsts l ↔ x ∈ l.
Proof.
  induction l as [|y l IH]; simpl; [done|]. rewrite !elem_of_cons, elem_of_list_filter, IH. destruct (decide (x = y)); naive_solver.
Qed.
Lemma firsts_nodup (l : list X) : NoDup (firsts l).
Proof.
  induction l as [|y l IH]; simpl; [constructor|]. apply NoDup_cons. split; [|by apply NoDup_filter]. rewrite elem_of_list_filter. naive_solver.
Qed.
Lemma firsts_snoc (l : list X) x : firsts (l ++ [x]) = if decide (x ∈ l) then firsts l else firsts l ++ [x].
Proof.
  induction l as [|y l IH].
  - rewrite decide_False; [done|]. by intros ?%elem_of_nil.
  - rewrite <- app_comm_cons. simpl. rewrite IH. destruct (decide (x = y)) as [->|Hne].
    + rewrite (decide_True (P := y ∈ y :: l)) by (by left). case_decide; [done|]. rewrite filter_app. f_equal.
      rewrite filter_cons_False by naive_solver. by rewrite app_nil_r.
    + destruct (decide (x ∈ l)) as [Hx|Hx].
      * rewrite decide_True by (by right). done.
      * rewrite decide_False by (intros [?|?]%elem_of_cons; done). rewrite filter_app. simpl. do 2 f_equal. by rewrite filter_cons_True by done.
Qed.
End firsts.

Definition akind (a : archetype) : gset tid := list_to_set (arch_ids a).
Definition ids_at (s : ac) (p : nat) : list N := default [] (pg_ids <$> ac_pages s !! p).
Record filled (s : ac) (K : list (gset tid)) (L : list (entity * gset tid)) : Prop := Filled {
  fl_free : ac_free_archs s = [];
  fl_kinds : fmap (M:=list) akind (ac_archs s) = K;
  fl_nodup : NoDup K;
  fl_rows : ∀ i S ps, K !! i = Some S → ac_pages_of s !! i = Some ps →
    concat (ids_at s <$> ps) = fmap (M:=list) e_id (filter (λ x, x.2 = S) L).*1;
  fl_full : ∀ i ps1 p ps2 pg, ac_pages_of s !! i = Some (ps1 ++ p :: ps2) → ps2 ≠ [] → ac_pages s !! p = Some pg → has_free_space pg = false;
}.
(** What [filled] depends on. *)
Record same_rows (s s' : ac) : Prop := SameRows {
  sr_archs : ac_archs s' = ac_archs s;
  sr_pof : ac_pages_of s' = ac_pages_of s;
  sr_free : ac_free_archs s' = ac_free_archs s;
  sr_hdrs : hdrs (ac_pages s') = hdrs (ac_pages s);
}.
Lemma same_rows_refl s : same_rows s s.
Proof. done. Qed.
Lemma ids_at_same s s' p : hdrs (ac_pages s') = hdrs (ac_pages s) → ids_at s' p = ids_at s p.
Proof.
  intros H. unfold ids_at. assert (hdr <$> ac_pages s' !! p = hdr <$> ac_pages s !! p) as Hp by by rewrite <- !list_lookup_fmap, H.
  destruct (ac_pages s' !! p), (ac_pages s !! p); simpl in *; try done. by injection Hp as ->.
Qed.
Lemma filled_same s s' K L : same_rows s s' → filled s K L → filled s' K L.
Proof.
  intros [H1 H2 H3 H4] [F1 F2 F3 F4 F5]. split; rewrite ?H1, ?H2, ?H3; try done.
  - intros i S ps Hi Hps. rewrite <- (F4 _ _ _ Hi Hps). f_equal. apply list_fmap_ext. intros j p _. by apply ids_at_same.
  - intros i ps1 p ps2 pg Hps Hne Hpg. destruct (hdrs_lookup _ _ _ _ H4 Hpg) as (pg0 & Hpg0 & E1 & E2).
    rewrite <- (F5 _ _ _ _ _ Hps Hne Hpg0). unfold has_free_space, page_count. by rewrite E1, E2.
Qed.

Lemma page_add_filled c s K L e i S ps p s' l : filled s K L → K !! i = Some S → ac_pages_of s !! i = Some (ps ++ [p]) →
  p ∉ ps → (∀ j qs, j ≠ i → ac_pages_of s !! j = Some qs → p ∉ qs) →
  ac_page_add c p (e_id e) s = ROk s' l → filled s' K (L ++ [(e, S)]).
Proof.
  intros [F1 F2 F3 F4 F5] Hi Hps Hni Hno H. unfold ac_page_add in H. apply bind_ok in H as (s0 & x & [-> ->]%get_ok & H).
  apply bind_ok in H as (s1 & pg & [Hpg%vidx_ok ->]%lift_ok & H). apply bind_ok in H as (s1 & [pg' k] & [Hadd ->]%lift_ok & H).
  inv1 H. simpl. unfold page_add in Hadd. apply pbind_ok in Hadd as (u & _ & [= Hpg' _]).
  assert ((p < length (ac_pages s))%nat) as Hlt by by eapply lookup_lt_Some.
  set (s' := ac_set_pages _ _). assert (∀ q, q ≠ p → ids_at s' q = ids_at s q) as Hq.
  { intros q Hne. unfold ids_at, s'. simpl. by rewrite list_lookup_insert_ne. }
  assert (ids_at s' p = ids_at s p ++ [e_id e]) as Hp.
  { unfold ids_at, s'. simpl. rewrite list_lookup_insert by done. rewrite Hpg. simpl. by rewrite <- Hpg'. }
  assert (∀ qs : list nat, p ∉ qs → ids_at s' <$> qs = ids_at s <$> qs) as Hqs.
  { intros qs Hn. apply list_fmap_ext. intros j q Hj. apply Hq. intros ->. apply Hn. by eapply elem_of_list_lookup_2. }
  split; try done.
  - intros j S' qs Hj Hqs'. rewrite filter_app. destruct (decide (j = i)) as [->|Hne].
    + rewrite Hi in Hj. injection Hj as <-. simpl in Hqs'. rewrite Hps in Hqs'. injection Hqs' as <-.
      rewrite filter_cons_True by done. rewrite !fmap_app. simpl. rewrite <- (F4 _ _ _ Hi Hps).
      rewrite !fmap_app, !concat_app. simpl. rewrite !app_nil_r, (Hqs _ Hni), Hp, app_assoc. done.
    + assert (S' ≠ S) as HS. { intros ->. apply Hne. by eapply NoDup_lookup. }
      rewrite filter_cons_False by (simpl; congruence). rewrite filter_nil, app_nil_r. simpl in Hqs'. rewrite (Hqs qs) by by eapply Hno. by apply F4 with j.
  - intros j ps1 q ps2 pgq Hqs' Hne. assert (q ≠ p) as Hqp.
    { intros ->. destruct (decide (j = i)) as [->|Hji].
      - simpl in Hqs'. rewrite Hps in Hqs'. injection Hqs' as Heq. destruct (exists_last Hne) as (ps3 & z & Hz). subst ps2.
        rewrite app_comm_cons, app_assoc in Heq. apply app_inj_tail in Heq as [-> _]. apply Hni. set_solver.
      - eapply Hno; [exact Hji|exact Hqs'|]. set_solver. }
    simpl. rewrite list_lookup_insert_ne by done. by eapply F5.
Qed.

Lemma find_room_some pages l p : find_room pages l = POk (Some p) → ∃ l1 l2 pg, l = l1 ++ p :: l2 ∧ pages !! p = Some pg ∧ has_free_space pg = true.
Proof.
  induction l as [|q l IH]; simpl; [done|]. intros (pg & Hpg%vidx_ok & H)%pbind_ok. destruct (has_free_space pg) eqn:E.
  - injection H as ->. exists [], l, pg. done.
  - destruct (IH H) as (l1 & l2 & pg' & -> & Hp). exists (q :: l1), l2, pg'. done.
Qed.
Lemma reserve_page_filled c s K L e i S s' l : ac_inv c s → filled s K L → K !! i = Some S →
  reserve_page c (e_id e) i s = ROk s' l → filled s' K (L ++ [(e, S)]).
Proof.
  intros Hi Hf HS H. unfold reserve_page in H. apply bind_ok in H as (s0 & x & [-> ->]%get_ok & H).
  apply bind_ok in H as (s1 & ps & [Hps%vidx_ok ->]%lift_ok & H). apply bind_ok in H as (s1 & rm & [Hrm ->]%lift_ok & H). destruct rm as [p|].
  - apply find_room_some in Hrm as (l1 & l2 & pg & Hrev & Hpg & Hfree).
    assert (ps = reverse l2 ++ p :: reverse l1) as Heq.
    { rewrite <- (reverse_involutive ps), Hrev, reverse_app, reverse_cons, <- app_assoc. done. }
    destruct (decide (l1 = [])) as [->|Hne].
    2:{ rewrite Heq in Hps. rewrite (fl_full _ _ _ Hf _ _ _ _ _ Hps) in Hfree; [done| |done]. intros Hn. apply Hne.
      by rewrite <- (reverse_involutive l1), Hn. }
    change (reverse []) with (@nil nat) in Heq. subst ps. pose proof (ac_pof_nodup _ _ Hi _ _ Hps) as Hnd.
    eapply page_add_filled; [done|done|exact Hps| | |exact H].
    + apply NoDup_app in Hnd as (_ & Hnd & _). intros Hin. apply (Hnd p Hin). by left.
    + intros j qs Hj Hqs Hin. apply Hj. pose proof (ac_pof_p2a _ _ Hi _ _ _ Hqs Hin) as H1.
      assert (p ∈ reverse l2 ++ [p]) as Hin' by set_solver. pose proof (ac_pof_p2a _ _ Hi _ _ _ Hps Hin') as H2. congruence.
  - pose proof (find_room_none _ _ Hrm) as Hfull. apply bind_ok in H as (s1 & p & Hp & H).
    assert (ac_archs s1 = ac_archs s ∧ ac_pages_of s1 = ac_pages_of s ∧ ac_free_archs s1 = ac_free_archs s ∧
      (∀ q, q ≠ p → ac_pages s1 !! q = ac_pages s !! q) ∧ (∀ pg, ac_pages s1 !! p = Some pg → pg_ids pg = []) ∧
      (∀ j qs, ac_pages_of s !! j = Some qs → p ∉ qs)) as (E1 & E2 & E3 & F1 & F2 & F3).
    { destruct (last (ac_free_pages s)) as [p'|] eqn:El.
      - assert (p' ∈ ac_free_pages s) as Hin by (rewrite (last_snoc_inv _ _ El); set_solver).
        inv1 Hp. simpl. split_and!; try done.
        + intros pg Hpg. destruct (ac_free_empty _ _ Hi p' Hin) as (pg' & Hpg' & Hn). congruence.
        + intros j qs Hqs. by eapply (ac_free_unused _ _ Hi).
      - inv1 Hp. simpl. split_and!; try done.
        + intros q Hne. destruct (decide (q < length (ac_pages s))%nat); [by apply lookup_app_l|].
          rewrite lookup_app_r by lia. rewrite (lookup_ge_None_2 (ac_pages s)) by lia. apply lookup_ge_None_2. simpl. lia.
        + intros pg Hpg. rewrite lookup_app_r in Hpg by lia. rewrite Nat.sub_diag in Hpg. injection Hpg as <-. done.
        + intros j qs Hqs Hin. pose proof (ac_pof_p2a _ _ Hi _ _ _ Hqs Hin) as Hx%lookup_lt_Some. rewrite (ac_p2a_len _ _ Hi) in Hx. lia. }
    apply bind_ok in H as (s2 & x & [-> ->]%get_ok & H). apply bind_ok in H as (s2 & ly & [Hly%vidx_ok ->]%lift_ok & H).
    apply bind_ok in H as (s2 & pg & [Hpg%vidx_ok ->]%lift_ok & H). apply bind_ok in H as (s2 & [] & ->%mod_ok & H).
    apply bind_ok in H as (s2 & ps' & [Hps'%vidx_ok ->]%lift_ok & H). apply bind_ok in H as (s2 & [] & ->%mod_ok & H).
    apply bind_ok in H as (s2 & p2a & [_ ->]%lift_ok & H). apply bind_ok in H as (s2 & [] & ->%mod_ok & H).
    simpl in Hps'. rewrite E2, Hps in Hps'. injection Hps' as <-. simpl in H.
    assert ((i < length (ac_pages_of s))%nat) as Hilt by by eapply lookup_lt_Some.
    assert ((p < length (ac_pages s1))%nat) as Hplt by by eapply lookup_lt_Some.
    set (s3 := ac_set_p2a _ _) in H.
    assert (∀ q, q ≠ p → ac_pages s3 !! q = ac_pages s !! q) as Hq. { intros q Hne. unfold s3. simpl. rewrite list_lookup_insert_ne by done. by apply F1. }
    assert (ids_at s3 p = []) as Hids. { unfold ids_at, s3. simpl. rewrite list_lookup_insert by done. simpl. rewrite set_layout_ids. by apply F2. }
    assert (∀ j qs, ac_pages_of s !! j = Some qs → ids_at s3 <$> qs = ids_at s <$> qs) as Hold.
    { intros j qs Hqs. apply list_fmap_ext. intros k q Hk. unfold ids_at. rewrite Hq; [done|]. intros ->. eapply F3; [exact Hqs|]. by eapply elem_of_list_lookup_2. }
    eapply (page_add_filled c s3); [|exact HS| | | |exact H].
    + assert (ac_pages_of s3 = <[i := ps ++ [p]]> (ac_pages_of s)) as P3 by (unfold s3; simpl; by rewrite E2).
      assert (ac_free_archs s3 = ac_free_archs s ∧ ac_archs s3 = ac_archs s) as [P1 P2] by done. clearbody s3.
      destruct Hf as [G1 G2 G3 G4 G5]. split; [congruence|congruence|done|..].
      * rewrite P3. intros j S' qs Hj Hqs. apply list_lookup_insert_Some in Hqs as [(<- & <- & _)|(Hne & Hqs)].
        -- rewrite fmap_app, concat_app, (Hold _ _ Hps). simpl. rewrite Hids, !app_nil_r. by eapply G4.
        -- rewrite (Hold _ _ Hqs). by eapply G4.
      * rewrite P3. intros j ps1 q ps2 pgq Hqs Hne Hpgq. apply list_lookup_insert_Some in Hqs as [(<- & Hqs & _)|(Hne' & Hqs)].
        -- destruct (exists_last Hne) as (ps3 & z & Hz). subst ps2. rewrite app_comm_cons, app_assoc in Hqs. apply app_inj_tail in Hqs as [-> <-].
           assert (q ≠ p) as Hqp. { intros ->. eapply F3; [exact Hps|]. set_solver. }
           destruct (Hfull q) as (pg0 & Hpg0 & Hfs); [apply elem_of_reverse; set_solver|]. pose proof (Hq q Hqp) as Hx.
           rewrite Hpgq in Hx. congruence.
        -- assert (q ≠ p) as Hqp. { intros ->. eapply F3; [exact Hqs|]. set_solver. }
           pose proof (Hq q Hqp) as Hx. rewrite Hpgq in Hx. eapply G5; [exact Hqs|done|by symmetry].
    + unfold s3. simpl. rewrite E2. by rewrite list_lookup_insert.
    + by eapply F3.
    + intros j qs Hj. unfold s3. simpl. rewrite E2, list_lookup_insert_ne by done. apply F3.
Qed.

Lemma akind_same a b : StronglySorted N.lt (arch_ids a) → StronglySorted N.lt (arch_ids b) → is_same_as a b = true ↔ akind a = akind b.
Proof.
  intros Ha Hb. rewrite is_same_as_spec. split; [by unfold akind; intros ->|]. intros Heq. apply incr_ext; [done..|].
  intros t. unfold akind in Heq. by rewrite <- !(elem_of_list_to_set (C:=gset tid)), Heq.
Qed.
Lemma reserve_archetype_filled c a s K L s' i : search_ok (c_bs c) → ac_inv c s → arch_wf c a → filled s K L → (∀ e S, (e, S) ∈ L → S ∈ K) → 
  reserve_archetype c a s = ROk s' i → ∃ K', filled s' K' L ∧ K' !! i = Some (akind a) ∧ K' = (if decide (akind a ∈ K) then K else K ++ [akind a]).
Proof.
  intros Hbs Hi Hwf Hf HL H. pose proof Hf as [F1 _ F3 F4 F5].
  unfold reserve_archetype in H. apply bind_ok in H as (s0 & x & [-> ->]%get_ok & H).
  pose proof (find_arch_spec (ac_archs s) 0 a) as Hfa.
  assert (∀ j x, ac_archs s !! j = Some x → StronglySorted N.lt (arch_ids x)) as Hsort.
  { intros j y Hj. destruct (lookup_lt_is_Some_2 (ac_layouts s) j) as [ly Hly]; [rewrite (ac_lay_len _ _ Hi); by eapply lookup_lt_Some|].
    by destruct (ac_arch_ok _ _ Hi _ _ _ Hj Hly) as ((? & _) & _). }
  destruct (find_arch (ac_archs s) 0 a) as [j|].
  - destruct Hfa as (j' & y & -> & Hy & Hsame). simpl in H. apply akind_same in Hsame; [|by eapply Hsort|apply Hwf].
    assert (K !! j' = Some (akind a)) as HK by (by rewrite <- (fl_kinds _ _ _ Hf), list_lookup_fmap, Hy, <- Hsame).
    rewrite F1 in H. simpl in H. exists K. rewrite decide_True by by eapply elem_of_list_lookup_2.
    destruct (c_bs c _ _) as [n|n].
    + apply bind_ok in H as (s1 & fr & [Hv ->]%lift_ok & H). done.
    + inv1 H. done.
  - assert (akind a ∉ K) as HK.
    { rewrite <- (fl_kinds _ _ _ Hf). intros (y & Heq & Hy)%elem_of_list_fmap. pose proof (Hfa _ Hy) as Hs. apply elem_of_list_lookup in Hy as [j Hj].
      apply not_true_iff_false in Hs. apply Hs. apply akind_same; [by eapply Hsort|apply Hwf|done]. }
    apply bind_ok in H as (s1 & ly & [Hly ->]%lift_ok & H). rewrite F1 in H. simpl in H. inv1 H. pose proof (fl_kinds _ _ _ Hf) as F2. exists (K ++ [akind a]). rewrite decide_False by done.
    assert (length K = length (ac_archs s)) as HlK by (by rewrite <- F2, fmap_length).
    split_and!; [|by rewrite <- HlK, list_lookup_middle|done]. split; simpl.
    + done.
    + by rewrite fmap_app, F2.
    + apply NoDup_app. split_and!; [done| |apply NoDup_singleton]. intros S HS ->%elem_of_list_singleton. done.
    + intros j S ps Hj Hps. apply lookup_app_Some in Hps as [Hps|[Hge Hps]].
      * rewrite lookup_app_l in Hj by (rewrite HlK, <- (ac_pof_len _ _ Hi); by eapply lookup_lt_Some). by eapply F4.
      * apply list_lookup_singleton_Some in Hps as [Hz <-]. simpl. rewrite (ac_pof_len _ _ Hi) in *. replace j with (length K) in Hj by lia.
        rewrite list_lookup_middle in Hj by done. injection Hj as <-. symmetry.
        assert (filter (λ x : entity * gset tid, x.2 = akind a) L = []) as ->; [|done].
        apply elem_of_nil_inv. intros [e S] [HS HLe]%elem_of_list_filter. simpl in HS. subst S. by eapply HK, HL.
    + intros j ps1 q ps2 pg Hps Hne. apply lookup_app_Some in Hps as [Hps|[_ Hps]]; [by eapply F5|].
      apply list_lookup_singleton_Some in Hps as [_ Hps]. by destruct ps1.
Qed.

(** ** Calls *)
Lemma add_filled c e a s L s' l : cfg_ok c → ac_inv c s → healthy_for c s (list_to_set (arch_ids a)) → arch_wf c a → fits c a →
  filled s (firsts L.*2) L → ac_add_entity c (e_id e) a s = ROk s' l → filled s' (firsts (L ++ [(e, akind a)]).*2) (L ++ [(e, akind a)]).
Proof.
  intros Hc Hi Hh Hwf Hfit Hf H. pose proof Hc as [Hbs _ Hty]. unfold ac_add_entity in H. apply bind_ok in H as (s1 & i & H1 & H2).
  pose proof (sat_ok True _ _ _ _ _ (reserve_archetype_wp c a s True (λ _, True) Hty Hi (λ j Hj, proj1 (Hh j a Hj eq_refl)) Hwf Hfit) H1) as Hr. cbv beta in Hr.
  destruct (reserve_archetype_filled c a s _ _ s1 i Hbs Hi Hwf Hf) as (K & Hf1 & HK & Heq); [|done|].
  { intros e' S HS. apply elem_of_firsts, elem_of_list_fmap. by exists (e', S). }
  assert (firsts (L ++ [(e, akind a)]).*2 = K) as ->.
  { rewrite fmap_app. simpl. rewrite firsts_snoc, Heq. destruct (decide (akind a ∈ L.*2)) as [Hx|Hx].
    - rewrite decide_True; [done|by apply elem_of_firsts].
    - rewrite decide_False; [done|by rewrite elem_of_firsts]. }
  eapply reserve_page_filled; [apply Hr|done|done|done].
Qed.

Section step.
Context (c : cfg) (Hc : cfg_ok c) (Hmd : c_mode c = Debug).

Lemma ensure_filled s s' I L D e T l E : comp_state c s I L D → (∀ m, D !! e_id e = Some m → healthy_for c (st_ac s) (dom m ∪ list_to_set T)) →
  e ∈ L → T ≠ [] → NoDup T →
  (∀ m, D !! e_id e = Some m → fits_types c (dom m ∪ list_to_set T)) →
  (∀ m, D !! e_id e = Some m → m = ∅ ∨ ∀ t, t ∈ T → is_Some (m !! t)) →
  filled (st_ac s) (firsts E.*2) E → ensure_types c e T s = ROk s' l →
  let E' := E ++ (if decide (D !! e_id e = Some ∅) then [(e, list_to_set T)] else []) in
  filled (st_ac s') (firsts E'.*2) E'.
Proof using Hc.
  intros Hs Hh HL Hne Hnd Hfit Hst Hf H. pose proof (cs_inv _ _ _ _ _ Hs) as Hi. pose proof Hc as [Hbs _ _].
  destruct (cs_row _ _ _ _ _ _ Hs HL) as (m & HD & _ & Hrow). specialize (Hfit m HD). specialize (Hh m HD). specialize (Hst m HD).
  unfold ensure_types in H. apply bind_ok in H as (s0 & x & [-> ->]%get_ok & H).
  apply bind_ok in H as (s0 & has & [Hhas' ->]%lift_ok & H). rewrite HD.
  destruct Hrow as [(p & k & Hlk & Hl & Hhas & Hm)|(Hbit & Hhas & ->)]; rewrite Hhas in Hhas'; injection Hhas' as <-.
  - destruct Hst as [?|Hst]; [done|]. rewrite decide_False by congruence. simpl. rewrite app_nil_r.
    destruct (loc_page _ _ _ _ _ _ (ci_ac _ _ _ _ Hi) Hl) as (pg & i & a & ly & _ & Hp2a & Ha & _ & _ & Hwf & _).
    pose proof (loc_dom _ _ _ _ _ _ _ _ (ci_ac _ _ _ _ Hi) Hl Hp2a Ha) as Hdom.
    apply bind_ok in H as (s0 & l0 & [Hl0 ->]%lift_ok & H). rewrite (linked_eia _ _ _ _ Hlk) in Hl0. injection Hl0 as <-.
    apply bind_ok in H as (s0 & i0 & [Hi0%vidx_ok ->]%lift_ok & H). simpl in Hi0. rewrite Hp2a in Hi0. injection Hi0 as <-.
    apply bind_ok in H as (s0 & a0 & [Ha0 ->]%lift_ok & H). unfold vget_unchecked in Ha0. rewrite Ha in Ha0. injection Ha0 as <-.
    rewrite (proj2 (is_include_ids_spec c Hbs a T (proj1 Hwf) Hnd)) in H; [by inv1 H|]. intros t Ht. by apply Hdom, Hst.
  - rewrite decide_True by done. destruct (with_arch c T Hne Hnd) as (a & Hw & Hwf & Hids). apply bind_ok in H as (s0 & a0 & [Ha0 ->]%lift_ok & H). rewrite Hw in Ha0. injection Ha0 as <-.
    apply bind_ok in H as (s1 & l' & H1 & H). apply bind_ok in H as (s2 & [] & H2 & [-> ->]%ret_ok).
    assert (∀ t, t ∈ arch_ids a ↔ t ∈ dom (∅ : gmap tid (list cell)) ∪ list_to_set T) as Hb.
    { intros t. rewrite Hids, elem_of_union, elem_of_dom, elem_of_list_to_set, lookup_empty. split; [by right|]. intros [[]|]; done. }
    assert (akind a = list_to_set T) as HaT. { unfold akind. apply same_set. intros t. by rewrite Hids, elem_of_list_to_set. }
    apply zoom_ok in H1 as (t & H1 & ->). apply set_location_ok in H2 as (-> & _). simpl. rewrite <- HaT.
    eapply add_filled; [done|apply Hi|by rewrite (same_set _ _ Hb)|exact Hwf| |done|exact H1]. by apply Hfit.
Qed.

Lemma step_filled tr s o s' r D E : comp_state c s (issued tr) (live tr) D → (∀ e, comps tr e (cview (live tr) D e)) →
  health_at c s tr D o → args_ok c o → room_at c tr D o → (∀ e, o = ODestroy e → e ∈ live tr) → stays tr o → filled (st_ac s) (firsts E.*2) E →
  step c o s = ROk s' r → let E' := E ++ entry tr (o, r) in filled (st_ac s') (firsts E'.*2) E'.
Proof using Hc Hmd.
  intros Hs Hcs Hh Hargs Hroom Hdl Hst Hf H. pose proof (cs_ec _ _ _ _ _ Hs) as Hec. pose proof (cs_inv _ _ _ _ _ Hs) as Hi.
  assert (entry tr (o, r) = [] → same_rows (st_ac s) (st_ac s') → let E' := E ++ entry tr (o, r) in filled (st_ac s') (firsts E'.*2) E') as Hsame.
  { intros ->. simpl. rewrite app_nil_r. intros Hsr. by eapply filled_same. }
  assert (∀ a, a = st_ac s → same_rows (st_ac s) a) as Heq. { by intros ? ->. }
  assert (∀ e m, e ∈ live tr → D !! e_id e = Some m → types tr e = Some (dom m)) as Hty.
  { intros e m He HD. specialize (Hcs e). unfold cview in Hcs. rewrite decide_True, HD in Hcs by done. by apply comps_types in Hcs. }
  assert (∀ e, e ∉ live tr → types tr e = None) as Htn.
  { intros e He. specialize (Hcs e). unfold cview in Hcs. rewrite decide_False in Hcs by done. by apply comps_types in Hcs. }
  destruct o as [|a|e|e vals|e T|e vals|q f|t e|t e|g e|g e to|g e to|g e]; simpl in H.
  - apply bind_ok in H as (s1 & e & H & [-> ->]%ret_ok). apply create_ok in H as (s2 & H & _ & Hac & _).
    destruct (register_comp _ Hmd _ _ _ _ _ _ Hs H) as (_ & _ & _ & Hac2). apply Hsame; [done|]. apply Heq. by rewrite Hac.
  - apply bind_ok in H as (s1 & e & H & [-> ->]%ret_ok). unfold create_entity_with_archetype in H.
    apply bind_ok in H as (s2 & e' & H & Hrest). destruct (register_comp _ Hmd _ _ _ _ _ _ Hs H) as (Hi2 & Hnone & Hlt & Hac2).
    apply bind_ok in Hrest as (s3 & l & H3 & Hrest). apply bind_ok in Hrest as (s4 & [] & H4 & [Heq' ->]%ret_ok). subst e'. simpl.
    apply zoom_ok in H3 as (t & H3 & ->). apply set_location_ok in H4 as (-> & _). simpl.
    change (list_to_set (arch_ids a)) with (akind a). rewrite Hac2 in H3. eapply add_filled; [done|apply Hi|exact Hh|exact Hargs|exact Hroom|done|exact H3].
  - apply no_out_ok in H as [H ->]. unfold destroy_entity in H. apply bind_ok in H as (s1 & x & [-> ->]%get_ok & H).
    apply bind_ok in H as (s1 & has & [H1 ->]%lift_ok & H). apply bind_ok in H as (s2 & [] & H2 & H).
    assert (st_ac s' = st_ac s2) as Ea by by unfold on_ec, on_tags, on_orders in H; inv1 H. clear H. apply Hsame; [done|]. apply Heq. rewrite Ea.
    pose proof (Hdl e eq_refl) as He. destruct (cs_row _ _ _ _ _ _ Hs He) as (m & HD & _ & Hrow). simpl in Hst. rewrite (Hty _ _ He HD) in Hst.
    destruct Hst as [?|[= Hst%dom_empty_inv_L]]; [done|]. destruct Hrow as [(_ & _ & _ & _ & _ & ?)|(_ & Hhas & _)]; [done|].
    rewrite Hhas in H1. injection H1 as <-. by inv1 H2.
  - apply no_out_ok in H as [H ->]. unfold add_components in H. apply bind_ok in H as (s1 & x & [-> ->]%get_ok & H).
    apply bind_ok in H as (s1 & b & [Hb ->]%lift_ok & H). pose proof (alive_lt _ Hmd _ _ _ _ _ Hec Hb) as Hlt.
    rewrite (cs_alive _ _ _ _ _ _ Hs Hlt) in Hb. injection Hb as <-. case_bool_decide as He; simpl in H.
    2:{ inv1 H. apply Hsame; [|done]. simpl. by rewrite (Htn _ He). }
    apply bind_ok in H as (s1 & l & H1 & H). destruct Hargs as (Hne & Hnd & Hok). simpl in Hroom.
    destruct (cs_row _ _ _ _ _ _ Hs He) as (m & HD & _ & _).
    apply (ensure_filled _ _ (issued tr) (live tr) D e vals.*1 l E) in H1; [|done|by intros; apply Hh|done|by destruct vals|done|by intros; apply Hroom| |done].
    2:{ intros m' HD'. simpl in Hst. rewrite (Hty _ _ He HD') in Hst. destruct (Hst _ eq_refl) as [->%dom_empty_inv_L|Hsub]; [by left|]. right. intros t Ht.
      apply elem_of_dom, Hsub. by apply elem_of_list_to_set. }
    apply bind_ok in H as (s2 & x & [-> ->]%get_ok & H). apply bind_ok in H as (s2 & v & [_ ->]%lift_ok & H).
    apply bind_ok in H as (s2 & rs & [_ ->]%lift_ok & H). apply mod_ok in H as ->. simpl.
    assert ((if decide (types tr e = Some ∅) then [(e, list_to_set vals.*1)] else []) = if decide (D !! e_id e = Some ∅) then [(e, list_to_set vals.*1 : gset tid)] else []) as ->.
    { rewrite (Hty _ _ He HD), HD. destruct (decide (m = ∅)) as [->|Hm].
      - by rewrite !decide_True by (f_equal; by rewrite ?dom_empty_L).
      - rewrite !decide_False; [done|congruence|]. intros [= Hx%dom_empty_inv_L]. done. }
    eapply filled_same; [|exact H1]. split; try done. apply assign_hdrs.
  - apply no_out_ok in H as [H ->]. unfold remove_components in H. apply bind_ok in H as (s1 & x & [-> ->]%get_ok & H).
    apply bind_ok in H as (s1 & b & [Hb ->]%lift_ok & H). destruct b; simpl in H; [|inv1 H; by apply Hsame].
    exfalso. unfold is_valid_with_archetype in Hb. apply pbind_ok in Hb as (b & Hb & Hhas'). pose proof (alive_lt _ Hmd _ _ _ _ _ Hec Hb) as Hlt.
    rewrite (cs_alive _ _ _ _ _ _ Hs Hlt) in Hb. injection Hb as <-. case_bool_decide as He; [|done].
    destruct (cs_row _ _ _ _ _ _ Hs He) as (m & HD & _ & Hrow). simpl in Hst. rewrite (Hty _ _ He HD) in Hst.
    destruct Hst as [?|[= Hst%dom_empty_inv_L]]; [done|]. destruct Hrow as [(_ & _ & _ & _ & _ & ?)|(_ & Hhas & _)]; [done|]. congruence.
  - apply no_out_ok in H as [H ->]. apply Hsame; [done|]. unfold set_components in H. apply bind_ok in H as (s1 & x & [-> ->]%get_ok & H).
    apply bind_ok in H as (s1 & rs & [_ ->]%lift_ok & H). destruct rs as [rs|]; [|by inv1 H]. apply put_ok in H as ->. split; try done. apply assign_hdrs.
  - apply no_out_ok in H as [H ->]. apply Hsame; [done|]. unfold query_write in H. apply bind_ok in H as (s1 & x & [-> ->]%get_ok & H).
    apply bind_ok in H as (s1 & it & [_ ->]%lift_ok & H). apply bind_ok in H as (s1 & pgs & [Hw%write_loop_hdrs ->]%lift_ok & H). apply put_ok in H as ->.
    split; try done.
  - apply no_out_ok in H as [H ->]. apply Hsame; [done|]. unfold add_tag, on_tags in H. by apply zoom_ok in H as (? & _ & ->).
  - apply no_out_ok in H as [H ->]. apply Hsame; [done|]. unfold remove_tag, on_tags in H. by apply zoom_ok in H as (? & _ & ->).
  - apply no_out_ok in H as [H ->]. apply Hsame; [done|]. unfold add_order, on_orders in H. by apply zoom_ok in H as (? & _ & ->).
  - apply no_out_ok in H as [H ->]. apply Hsame; [done|]. unfold add_order_next, on_orders in H. by apply zoom_ok in H as (? & _ & ->).
  - apply no_out_ok in H as [H ->]. apply Hsame; [done|]. unfold add_order_prev, on_orders in H. by apply zoom_ok in H as (? & _ & ->).
  - apply no_out_ok in H as [H ->]. apply Hsame; [done|]. unfold remove_order, on_orders in H. by apply zoom_ok in H as (? & _ & ->).
Qed.
End step.

(** ** Histories *)
Lemma entries_after_app past tr1 tr2 : entries_after past (tr1 ++ tr2) = entries_after past tr1 ++ entries_after (past ++ tr1) tr2.
Proof.
  revert past. induction tr1 as [|x tr1 IH]; intros past; simpl; [by rewrite app_nil_r|]. rewrite IH, <- !app_assoc. done.
Qed.
Lemma entries_snoc tr x : entries (tr ++ [x]) = entries tr ++ entry tr x.
Proof. unfold entries. rewrite entries_after_app. simpl. by rewrite app_nil_r. Qed.
Lemma settled_snoc tr o r : settled (tr ++ [(o, r)]) → settled tr ∧ stays tr o.
Proof.
  intros H. split.
  - intros tr1 o' r' tr2 ->. apply (H tr1 o' r' (tr2 ++ [(o, r)])). by rewrite <- app_assoc.
  - by apply (H tr o r []).
Qed.

Section run.
Context (c : cfg) (Hc : cfg_ok c) (Hmd : c_mode c = Debug).
Lemma hrun_filled cap tr s : hrun c cap tr s → settled tr → filled (st_ac s) (firsts (entries tr).*2) (entries tr).
Proof using Hc Hmd.
  intros H. induction H as [s H|tr s o s' r Hr IH Hh Ha Hro H].
  - intros _. unfold store_with_capacity in H. apply pbind_ok in H as (u & _ & [= <-]). split; simpl; try done; constructor.
  - intros [Hset Hst]%settled_snoc. specialize (IH Hset). rewrite entries_snoc. destruct (hrun_state c Hc Hmd _ _ _ Hr) as (D & Hs & Hcs).
    eapply (step_filled c Hc Hmd); [exact Hs|done|by apply healthy_at|done|by apply room_room_at| |done|done|exact H].
    intros e ->. apply live_alive. eapply destroy_alive; [exact Hmd|by apply hrun_run|exact H].
Qed.
Lemma hrun_entries cap tr s : hrun c cap tr s → settled tr → ∀ e S, (e, S) ∈ entries tr → types tr e = Some S ∧ S ≠ ∅.
Proof using Hc Hmd.
  intros H. induction H as [s H|tr s o s' r Hr IH Hh Ha Hro H]; [by intros _ e S ?%elem_of_nil|].
  intros [Hset Hst]%settled_snoc e S. specialize (IH Hset). rewrite entries_snoc, elem_of_app.
  assert (∀ e', r = Some e' → types tr e' = None) as Hfresh.
  { intros e' ->. destruct (types tr e') as [X|] eqn:E; [|done]. exfalso. apply types_issued in E.
    destruct (handles_nodup c cap Hmd (tr ++ [(o, Some e')]) s') as [Hnd _]; [econstructor; [by apply hrun_run|done]|].
    rewrite issued_snoc in Hnd. apply NoDup_app in Hnd as (_ & Hnd & _). apply (Hnd _ E). by left. }
  assert (types (tr ++ [(o, r)]) e = types_step e (types tr e) o r) as ->. { unfold types. by rewrite foldl_app. }
  intros [HS|HS].
  - destruct (IH _ _ HS) as [Ht Hne]. rewrite Ht. split; [|done].
    destruct o; simpl in *; try done; try (case_decide; [|done]); subst.
    + by rewrite (Hfresh e eq_refl) in Ht.
    + by rewrite (Hfresh e eq_refl) in Ht.
    + rewrite Ht in Hst. destruct Hst as [?|[= ->]]; done.
    + simpl. destruct (Hst _ Ht) as [->|Hsub]; [done|]. f_equal. set_solver.
    + rewrite Ht in Hst. destruct Hst as [?|[= ->]]; done.
  - destruct o as [|a|e'|e' vals|e' T|e' vals|q f|t e'|t e'|g e'|g e' to|g e' to|g e']; simpl in HS; try by apply elem_of_nil in HS.
    + destruct r as [e'|]; [|by apply elem_of_nil in HS]. apply elem_of_list_singleton in HS as [= -> ->]. simpl. rewrite decide_True by done. split; [done|].
      destruct Ha as (_ & Hne & _). destruct a; [done|]. simpl. set_solver.
    + case_decide as Ht; [|by apply elem_of_nil in HS]. apply elem_of_list_singleton in HS as [= -> ->]. simpl. rewrite decide_True by done. rewrite Ht. simpl.
      split; [f_equal; set_solver|]. destruct Ha as (Hne & _). destruct vals; [done|]. simpl. set_solver.
Qed.
End run.

(** ** Queries *)
Lemma cq_pages_ids c q s offs ps : ∀ vs n, cq_pages c q (ac_pages s) offs ps = POk (vs, n) →
  concat (pv_ids <$> vs) = concat (ids_at s <$> ps) ∧ ∀ v, v ∈ vs → pv_count v = length (pv_ids v).
Proof.
  induction ps as [|p ps IH]; intros vs n; simpl.
  - intros [= <- <-]. split; [done|]. by intros v ?%elem_of_nil.
  - intros (pg & Hpg%vidx_ok & H)%pbind_ok. apply pbind_ok in H as ([vs' n'] & H1 & H). destruct (IH _ _ H1) as [E1 E2].
    unfold ids_at at 1. rewrite Hpg. simpl. simpl in H. unfold page_count in H. destruct (Nat.eqb_spec (length (pg_ids pg)) 0) as [Hz|Hz].
    + injection H as <- <-. apply nil_length_inv in Hz. rewrite Hz. done.
    + injection H as <- <-. rewrite fmap_cons. cbn [concat]. split; [by rewrite E1|]. intros v [->|Hv]%elem_of_cons; [done|auto].
Qed.
Definition arch_row_ids c q (s : ac) (i : nat) : list N :=
  match ac_archs s !! i, ac_pages_of s !! i with
  | Some a, Some ps => if q_include c q a then concat (ids_at s <$> ps) else []
  | _, _ => []
  end.
Lemma cq_archs_ids c q s ais : ∀ vs n, ac_inv c s → cq_archs c q s ais = POk (vs, n) →
  concat (pv_ids <$> vs) = concat (arch_row_ids c q s <$> ais) ∧ ∀ v, v ∈ vs → pv_count v = length (pv_ids v).
Proof.
  induction ais as [|i ais IH]; intros vs n Hi; simpl.
  - intros [= <- <-]. split; [done|]. by intros v ?%elem_of_nil.
  - intros ([a ly] & Ha & H)%pbind_ok. unfold arch_with_layout_unchecked in Ha. apply pbind_ok in Ha as (a' & Ha & H2). apply pbind_ok in H2 as (ly' & Hly & [= -> ->]).
    unfold vget_unchecked in Ha. destruct (ac_archs s !! i) as [a'|] eqn:Ea; [|done]. injection Ha as ->. simpl in H.
    destruct (lookup_lt_is_Some_2 (ac_pages_of s) i) as [ps Hps]; [rewrite (ac_pof_len _ _ Hi); by eapply lookup_lt_Some|].
    unfold arch_row_ids at 1. rewrite Ea, Hps. destruct (q_include c q a); simpl in H.
    + apply pbind_ok in H as (offs & _ & H). apply pbind_ok in H as (ps' & Hps'%vidx_ok & H). assert (ps' = ps) as -> by congruence.
      apply pbind_ok in H as ([v1 n1] & H1 & H). apply pbind_ok in H as ([v2 n2] & H2 & [= <- <-]).
      destruct (cq_pages_ids _ _ _ _ _ _ _ H1) as [E1 E2]. destruct (IH _ _ Hi H2) as [E3 E4]. simpl. rewrite fmap_app, concat_app, E1, E3. split; [done|].
      intros v [?|?]%elem_of_app; auto.
    + by apply (IH _ n).
Qed.

Lemma yields_ids vers it l it' : yields (qiter_next_with vers) it l it' → views_ok it →
  Some <$> (e_id <$> l.*1) = (λ x, pv_ids x.1 !! x.2) <$> qrest it.
Proof.
  induction 1 as [it it' Hn|it [e rs] it1 l it' Hn Hy IH]; intros Hok; pose proof (qiter_next_spec it Hok) as H; unfold qiter_next_with in Hn.
  - destruct (qrest it) as [|[v k] r]; [done|]. destruct H as (it2 & _ & _ & _ & _ & _ & Hx). rewrite Hx in Hn.
    destruct (ptrs_to_refs _) as [rs| |]; try done. simpl in Hn. apply pbind_ok in Hn as (id & _ & Hn). by apply pbind_ok in Hn as (w & _ & Hn).
  - destruct (qrest it) as [|[v k] r].
    + destruct H as (it2 & Hx & _). rewrite Hx in Hn. done.
    + destruct H as (it2 & Hr & Hok2 & _ & Hv & Hk & Hx). rewrite Hx in Hn. destruct (ptrs_to_refs _) as [rs'| |]; try done. simpl in Hn.
      apply pbind_ok in Hn as (id & Hid & Hn). apply pbind_ok in Hn as (w & _ & [= <- <- <-]). simpl. rewrite <- Hr. f_equal; [|exact (IH Hok2)].
      unfold piter_current_id in Hid. rewrite Hk, Hv in Hid. destruct (pv_ids v !! k); [|done]. by injection Hid as ->.
Qed.
Lemma vitems_ids v : pv_count v = length (pv_ids v) → (λ x, pv_ids x.1 !! x.2) <$> vitems v 0 = Some <$> pv_ids v.
Proof.
  intros Hn. unfold vitems. rewrite Nat.sub_0_r, Hn, <- list_fmap_compose. unfold compose. simpl. generalize (pv_ids v) as l. clear. intros l.
  induction l as [|x l IH] using rev_ind; [done|]. rewrite app_length, seq_app, !fmap_app. simpl. f_equal.
  - rewrite <- IH. apply list_fmap_ext. intros j k [-> Hk]%lookup_seq. by rewrite lookup_app_l by lia.
  - by rewrite list_lookup_middle.
Qed.
Lemma views_ids vs : (∀ v, v ∈ vs → pv_count v = length (pv_ids v)) →
  (λ x, pv_ids x.1 !! x.2) <$> concat ((λ v, vitems v 0) <$> vs) = Some <$> concat (pv_ids <$> vs).
Proof.
  induction vs as [|v vs IH]; intros H; [done|]. rewrite !fmap_cons. cbn [concat]. rewrite !fmap_app, IH by (intros; apply H; by right). by rewrite vitems_ids by (apply H; by left).
Qed.
Lemma concat_seq {A B} (f : nat → list B) (g : A → list B) (K : list A) : (∀ i x, K !! i = Some x → f i = g x) →
  concat (f <$> seq 0 (length K)) = concat (g <$> K).
Proof.
  induction K as [|x K IH] using rev_ind; intros H; [done|]. rewrite app_length, seq_app, !fmap_app, !concat_app. simpl. rewrite (H (length K) x) by by apply list_lookup_middle.
  rewrite IH; [done|]. intros i y Hy. apply H. by apply lookup_app_l_Some.
Qed.
Lemma concat_filter {A B} (P : A → Prop) `{∀ x, Decision (P x)} (g : A → list B) (K : list A) :
  concat ((λ x, if decide (P x) then g x else []) <$> K) = concat (g <$> filter P K).
Proof. induction K as [|x K IH]; [done|]. rewrite fmap_cons, filter_cons. cbn [concat]. rewrite IH. by case_decide. Qed.

Section query.
Context (c : cfg) (Hc : cfg_ok c) (Hmd : c_mode c = Debug).
Lemma visits_in_order cap tr s q : hrun c cap tr s → settled tr → NoDup (q_types q) → q_types q ≠ [] →
  ∃ it l it1, component_query c q s = POk it ∧ yields (qiter_next_with (ec_ver (st_ec s))) it l it1 ∧
    l.*1 = in_order (q_types q) (entries tr).
Proof using Hc Hmd.
  intros Hr Hset Hq Hne. destruct (hrun_state c Hc Hmd _ _ _ Hr) as (D & Hs & Hcs). pose proof Hc as [Hbs _ _].
  pose proof (ci_ac _ _ _ _ (cs_inv _ _ _ _ _ Hs)) as Hi. pose proof (hrun_filled c Hc Hmd _ _ _ Hr Hset) as Hf.
  pose proof (hrun_entries c Hc Hmd _ _ _ Hr Hset) as Hent.
  destruct (query_items c Hc _ _ _ _ _ Hs Hq Hne) as (it & l & Hit & Hok & _ & (it1 & Hy & _) & _ & Hnd & Hl & _).
  exists it, l, it1. split_and!; [done..|]. set (E := entries tr) in *.
  assert (e_id <$> l.*1 = e_id <$> in_order (q_types q) E) as Hids.
  { apply (inj (fmap (M:=list) Some)). rewrite (yields_ids _ _ _ _ Hy Hok).
    unfold component_query in Hit. apply pbind_ok in Hit as ([vs n] & Hx & [= <-]).
    assert (qrest (QIter vs (match vs with v :: _ => piter_new v | [] => piter_empty end) 0 n) = concat ((λ v, vitems v 0) <$> vs)) as ->.
    { unfold qrest. simpl. destruct vs as [|v vs']; [done|]. simpl. by rewrite drop_0. }
    destruct (cq_archs_ids _ _ _ _ _ _ Hi Hx) as [E1 E2]. rewrite (views_ids _ E2), E1. f_equal.
    rewrite <- (fmap_length akind (ac_archs (st_ac s))), (fl_kinds _ _ _ Hf).
    rewrite (concat_seq _ (λ S, if decide (list_to_set (q_types q) ⊆ S) then e_id <$> (filter (λ x, x.2 = S) E).*1 else [])).
    - rewrite (concat_filter (λ S, list_to_set (q_types q) ⊆ S) (λ S, e_id <$> (filter (λ x, x.2 = S) E).*1)). unfold in_order.
      generalize (filter (λ S, list_to_set (q_types q) ⊆ S) (firsts E.*2)). intros K. induction K as [|S K IH]; [done|]. rewrite !fmap_cons. cbn [concat]. by rewrite fmap_app, IH.
    - intros i S HS. assert (∃ a, ac_archs (st_ac s) !! i = Some a ∧ akind a = S) as (a & Ha & Hak).
      { rewrite <- (fl_kinds _ _ _ Hf), list_lookup_fmap in HS. apply fmap_Some in HS as (a & ? & ->). eauto. }
      destruct (lookup_lt_is_Some_2 (ac_pages_of (st_ac s)) i) as [ps Hps]; [rewrite (ac_pof_len _ _ Hi); by eapply lookup_lt_Some|].
      destruct (lookup_lt_is_Some_2 (ac_layouts (st_ac s)) i) as [ly Hly]; [rewrite (ac_lay_len _ _ Hi); by eapply lookup_lt_Some|].
      destruct (ac_arch_ok _ _ Hi _ _ _ Ha Hly) as ((Hinc & _) & _).
      unfold arch_row_ids. rewrite Ha, Hps, (fl_rows _ _ _ Hf _ _ _ HS Hps).
      pose proof (q_include_spec c q a Hbs Hinc Hq) as Hqi. unfold matching in Hqi.
      destruct (decide (list_to_set (q_types q) ⊆ S)) as [Hsub|Hsub].
      + rewrite (proj2 Hqi); [done|]. intros t Ht. apply (elem_of_list_to_set (C:=gset tid)). fold (akind a). rewrite Hak. apply Hsub. by apply elem_of_list_to_set.
      + destruct (q_include c q a); [|done]. destruct Hsub. intros t Ht. rewrite elem_of_list_to_set in Ht. rewrite <- Hak. unfold akind. apply elem_of_list_to_set. by apply Hqi. }
  assert (∀ e, e ∈ l.*1 → e ∈ live tr) as H1.
  { intros e ([e' rs] & -> & He)%elem_of_list_fmap. by apply Hl in He as [? _]. }
  assert (∀ e, e ∈ in_order (q_types q) E → e ∈ live tr) as H2.
  { intros e He. unfold in_order in He. apply elem_of_list_In, in_concat in He as (k & Hk & He). apply elem_of_list_In in Hk, He.
    apply elem_of_list_fmap in Hk as (S & -> & _). apply elem_of_list_fmap in He as ([e' S'] & -> & He). apply elem_of_list_filter in He as [_ He].
    destruct (Hent _ _ He) as [Ht _]. simpl. destruct (decide (e' ∈ live tr)) as [|Hn]; [done|]. exfalso.
    specialize (Hcs e'). unfold cview in Hcs. rewrite decide_False in Hcs by done. apply comps_types in Hcs. simpl in Hcs. congruence. }
  clear -Hids H1 H2 Hs. revert H1 H2 Hids. generalize (in_order (q_types q) E) as l2. generalize l.*1 as l1. clear -Hs.
  induction l1 as [|x l1 IH]; intros [|y l2] H1 H2; try done. simpl. intros [= Hxy Hrest]. f_equal.
  - eapply same_ids; [exact (cs_ec _ _ _ _ _ Hs)|apply H1; by left|apply H2; by left|done].
  - apply IH; [intros; apply H1; by right|intros; apply H2; by right|done].
Qed.
End query.

(** In both builds; with the values of C60. *)
Lemma both_visits c cap tr s q : cfg_ok c → drun (healthy c) c cap tr s → settled tr → NoDup (q_types q) → q_types q ≠ [] →
  ∃ it l it1, component_query c q s = POk it ∧ yields (qiter_next_with (ec_ver (st_ec s))) it l it1 ∧
    l.*1 = in_order (q_types q) (entries tr) ∧
    ∀ e rs, (e, rs) ∈ l → ∃ m, observed c s e (Some m) ∧ read_ref (ac_pages (st_ac s)) <$> rs = values m (q_types q).
Proof.
  intros Hc Hd Hset Hq Hne. destruct (both_component_query c Hc _ _ _ _ Hd Hq Hne) as (it & l & it1 & _ & Hit & Hy & _ & _ & _ & _ & _ & Hv).
  apply (drun_debug _ _ _ _ Hc) in Hd as [Hr _].
  destruct (visits_in_order _ (cfg_ok_mode Debug c Hc) eq_refl _ _ _ _ Hr Hset Hq Hne) as (it' & l' & it1' & Hit' & Hy' & Ho).
  rewrite component_query_own, Hit in Hit'. injection Hit' as <-. destruct (yields_fun _ _ _ _ _ _ Hy Hy') as [<- _].
  exists it, l, it1. split_and!; try done. intros e rs He. by apply Hv.
Qed.

(** A check of [settled]. *)
Definition staysb (past : trace) (o : op) : bool :=
  match o with
  | ODestroy e | ORemove e _ => bool_decide (types past e = None) || bool_decide (types past e = Some ∅)
  | OAdd e vals => match types past e with Some T => bool_decide (T = ∅) || bool_decide ((list_to_set vals.*1 : gset tid) ⊆ T) | None => true end
  | _ => true
  end.
Fixpoint settledb (past tr : trace) : bool :=
  match tr with
  | [] => true
  | x :: r => staysb past x.1 && settledb (past ++ [x]) r
  end.
Lemma staysb_ok past o : staysb past o = true → stays past o.
Proof.
  destruct o as [|a|e|e vals|e T|e vals|q f|t e|t e|g e|g e to|g e to|g e]; simpl; try done; try by rewrite orb_true_iff, !bool_decide_eq_true.
  destruct (types past e) as [T|]; [|done]. rewrite orb_true_iff, !bool_decide_eq_true. intros H S [= <-]. exact H.
Qed.
Lemma settledb_ok tr : settledb [] tr = true → settled tr.
Proof.
  intros H tr1 o r tr2 ->. apply (staysb_ok tr1). rewrite <- (app_nil_l tr1). revert H. generalize (@nil (op * option entity)) as past.
  induction tr1 as [|x tr1 IH]; intros past; simpl; [rewrite app_nil_r|]; intros [H1 H2]%andb_true_iff; [done|].
  replace (past ++ x :: tr1) with ((past ++ [x]) ++ tr1) by by rewrite <- app_assoc. by apply IH.
Qed.
