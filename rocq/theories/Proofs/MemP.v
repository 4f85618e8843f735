(** MemP.v — the number of pages is bounded by the peak population. *)
From Verif.Spec Require Export Memory.
From Verif.Proofs Require Export UsageP HandlesP DiscP.
Local Open Scope N_scope.

(** ** Headers of pages: ids and capacity *)
Definition hdr (pg : page) : list N * N := (pg_ids pg, pg_vcap pg).
Notation hdrs ps := (hdr <$> (ps : list page)).
Lemma insert_hdrs (ps : list page) p pg pg' : ps !! p = Some pg → hdr pg' = hdr pg → hdrs (<[p := pg']> ps) = hdrs ps.
Proof. intros Hp Heq. rewrite list_fmap_insert, Heq. apply list_insert_id. by rewrite list_lookup_fmap, Hp. Qed.
Lemma write_ref_hdrs ps r v : hdrs (write_ref ps r v) = hdrs ps.
Proof. unfold write_ref. destruct (ps !! r_page r) as [pg|] eqn:E; [|done]. by apply (insert_hdrs _ _ pg). Qed.
Lemma assign_hdrs rs vs : ∀ ps, hdrs (assign_to_refs ps rs vs) = hdrs ps.
Proof. revert vs. induction rs as [|r rs IH]; intros [|v vs] ps; simpl; try done. rewrite IH. apply write_ref_hdrs. Qed.
Lemma copy_common_hdrs sp dp si di sa da sl dl pairs : ∀ ps ps', copy_common ps sp dp si di sa da sl dl pairs = POk ps' → hdrs ps' = hdrs ps.
Proof.
  induction pairs as [|[x y] r IH]; intros ps ps'; simpl; [by intros [= <-]|]. repeat (case_match; try done).
  intros (ps1 & Hcp & Hrest)%pbind_ok. rewrite (IH _ _ Hrest). unfold pages_copy in Hcp. repeat (case_match; try done);
    apply pbind_ok in Hcp as (m & _ & [= <-]); by eapply insert_hdrs.
Qed.
Lemma copy_data_hdrs ps sp dp si di sa da sl dl ps' : copy_component_data ps sp dp si di sa da sl dl = POk ps' → hdrs ps' = hdrs ps.
Proof. unfold copy_component_data. destruct (arch_union sa da). apply copy_common_hdrs. Qed.
Lemma write_loop_hdrs n q vers f : ∀ ps it ps', write_loop n q vers f ps it = POk ps' → hdrs ps' = hdrs ps.
Proof.
  induction n as [|n IH]; intros ps it ps'; simpl; [by intros [= <-]|]. intros ([x it'] & _ & H)%pbind_ok. simpl in H.
  destruct x as [[e refs]|]; [|by injection H as <-]. rewrite (IH _ _ _ H). apply assign_hdrs.
Qed.

(** ** Pages that hold entities *)
Definition occupied_at (s : ac) (p : nat) : Prop := pg_ids <$> ac_pages s !! p ≠ Some [].
Global Instance occupied_at_dec s p : Decision (occupied_at s p).
Proof. unfold occupied_at. apply _. Defined.
Definition occ (s : ac) : list nat := filter (occupied_at s) (seq 0 (length (ac_pages s))).
Definition n0 (s : ac) : nat := match ac_pages_of s !! 0%nat with Some ps => length ps | None => 0 end.
Lemma elem_of_occ s p : p ∈ occ s ↔ ∃ pg, ac_pages s !! p = Some pg ∧ pg_ids pg ≠ [].
Proof.
  unfold occ, occupied_at. rewrite elem_of_list_filter, elem_of_seq. split.
  - intros [H [_ Hlt]]. destruct (lookup_lt_is_Some_2 (ac_pages s) p) as [pg Hpg]; [simpl in Hlt; lia|]. exists pg. rewrite Hpg in H. simpl in H.
    split; [done|]. congruence.
  - intros (pg & Hpg & Hne). rewrite Hpg. simpl. split; [congruence|]. apply lookup_lt_Some in Hpg. lia.
Qed.
Lemma occ_nodup s : NoDup (occ s).
Proof. apply NoDup_filter, NoDup_seq. Qed.
Lemma nodup_le {A} (l k : list A) : NoDup l → (∀ x, x ∈ l → x ∈ k) → (length l ≤ length k)%nat.
Proof. intros Hnd Hin. by apply submseteq_length, NoDup_submseteq. Qed.

(** Every page with entities has a live entity of its own. *)
Lemma occ_live c s I L D : comp_state c s I L D → (length (occ (st_ac s)) ≤ size L)%nat.
Proof.
  intros Hs. pose proof (cs_inv _ _ _ _ _ Hs) as Hci. pose proof (ci_ac _ _ _ _ Hci) as Hi.
  assert (∀ p, p ∈ occ (st_ac s) → ∃ e, e ∈ L ∧ ∃ k, linked s (e_id e) p k) as Hp.
  { intros p (pg & Hpg & Hne)%elem_of_occ. destruct (pg_ids pg) as [|id l] eqn:El; [done|].
    destruct (proj1 (loc_is_Some c (st_ac s) p 0 pg Hi Hpg)) as [[id' m] Hl]; [rewrite El; simpl; lia|].
    destruct (ci_rows _ _ _ _ Hci _ _ _ _ Hl) as [HD Hlk]; [done|]. destruct (proj1 (cs_dom _ _ _ _ _ Hs id')) as (e & He & <-); [by eexists|].
    eauto. }
  assert (∃ es : list entity, length es = length (occ (st_ac s)) ∧ NoDup es ∧ ∀ e, e ∈ es → e ∈ L) as (es & <- & Hnd & Hin).
  { assert (∀ ps, NoDup ps → (∀ p, p ∈ ps → p ∈ occ (st_ac s)) →
      ∃ es : list entity, length es = length ps ∧ NoDup es ∧ ∀ e, e ∈ es → e ∈ L ∧ ∃ p k, p ∈ ps ∧ linked s (e_id e) p k) as Hall.
    { induction ps as [|p ps IH]; intros Hn Hsub.
      - exists []. split_and!; [done|constructor|by intros e ?%elem_of_nil].
      - apply NoDup_cons in Hn as [Hni Hn]. destruct IH as (es & H1 & H2 & H3); [done|intros; apply Hsub; by right|].
        destruct (Hp p) as (e & He & k & Hlk); [apply Hsub; by left|]. exists (e :: es). split_and!.
        + simpl. by rewrite H1.
        + apply NoDup_cons. split; [|done]. intros Hes. destruct (H3 _ Hes) as (_ & p' & k' & Hp' & Hlk').
          destruct (linked_fun _ _ _ _ _ _ Hlk Hlk') as [-> _]. done.
        + intros e' [->|He']%elem_of_cons.
          * split; [done|]. exists p, k. split; [by left|done].
          * destruct (H3 _ He') as (? & p' & k' & ? & ?). split; [done|]. exists p', k'. split; [by right|done]. }
    destruct (Hall (occ (st_ac s)) (occ_nodup _) ltac:(done)) as (es & H1 & H2 & H3). exists es. split_and!; [done..|]. intros e He. by apply H3. }
  assert (length es = length (elements (list_to_set es : gset entity))) as ->.
  { apply Permutation_length. symmetry. by apply elements_list_to_set. }
  change (length (elements _)) with (size (list_to_set es : gset entity)). apply subseteq_size. intros e He. apply Hin. by apply elem_of_list_to_set in He.
Qed.

(** Every page is free or belongs to an archetype; only the first archetype keeps empty pages. *)
Record packed (s : ac) : Prop := Packed {
  pk_cover : ∀ p, (p < length (ac_pages s))%nat → p ∈ ac_free_pages s ∨ ∃ i ps, ac_pages_of s !! i = Some ps ∧ p ∈ ps;
  pk_full : ∀ i ps p pg, i ≠ 0%nat → ac_pages_of s !! i = Some ps → p ∈ ps → ac_pages s !! p = Some pg → pg_ids pg ≠ [];
  pk_vcap : ∀ i ps p pg, ac_pages_of s !! i = Some ps → p ∈ ps → ac_pages s !! p = Some pg → 1 ≤ pg_vcap pg;
}.
Record paged (s s' : ac) : Prop := Paged {
  pd_packed : packed s';
  pd_n0 : (n0 s' ≤ n0 s `max` S (length (occ s)))%nat;
  pd_len : (length (ac_pages s') ≤ length (ac_pages s) `max` S (length (occ s) + n0 s))%nat;
}.
Lemma paged_refl s : packed s → paged s s.
Proof. intros H. split; [done|lia..]. Qed.
Lemma paged_then s s1 s2 : paged s s1 → packed s2 → (n0 s2 ≤ n0 s1)%nat → (length (ac_pages s2) ≤ length (ac_pages s1))%nat → paged s s2.
Proof. intros [H1 H2 H3] Hp Hn Hl. split; [done|lia..]. Qed.
Lemma hdrs_lookup (ps ps' : list page) p pg' : hdrs ps' = hdrs ps → ps' !! p = Some pg' → ∃ pg, ps !! p = Some pg ∧ pg_ids pg = pg_ids pg' ∧ pg_vcap pg = pg_vcap pg'.
Proof.
  intros Hh Hp. assert (hdrs ps' !! p = Some (hdr pg')) as H by by rewrite list_lookup_fmap, Hp.
  rewrite Hh, list_lookup_fmap in H. destruct (ps !! p) as [pg|]; [|done]. exists pg. injection H as H1 H2. done.
Qed.
Lemma packed_same s s' : packed s → ac_pages_of s' = ac_pages_of s → ac_free_pages s' = ac_free_pages s → hdrs (ac_pages s') = hdrs (ac_pages s) →
  packed s'.
Proof.
  intros [H1 H2 H3] E1 E2 E3. split.
  - intros p Hp. rewrite E1, E2. apply H1. by rewrite <- (fmap_length hdr (ac_pages s)), <- E3, fmap_length.
  - intros i ps p pg Hi. rewrite E1. intros Hps Hin Hpg. destruct (hdrs_lookup _ _ _ _ E3 Hpg) as (pg0 & Hpg0 & <- & _). by eapply H2.
  - intros i ps p pg. rewrite E1. intros Hps Hin Hpg. destruct (hdrs_lookup _ _ _ _ E3 Hpg) as (pg0 & Hpg0 & _ & <-). by eapply H3.
Qed.
Lemma n0_same s s' : ac_pages_of s' = ac_pages_of s → n0 s' = n0 s.
Proof. unfold n0. by intros ->. Qed.
Lemma hdrs_len (ps ps' : list page) : hdrs ps' = hdrs ps → length ps' = length ps.
Proof. intros H. by rewrite <- (fmap_length hdr ps'), H, fmap_length. Qed.

Lemma vidx_ok {A} (l : list A) i x : vidx l i = POk x → l !! i = Some x.
Proof. unfold vidx. destruct (l !! i); [by intros [= ->]|done]. Qed.

(** ** Adding a row *)
Lemma page_add_packed c p id s s' l : ac_page_add c p id s = ROk s' l →
  (∀ i ps q pg, i ≠ 0%nat → ac_pages_of s !! i = Some ps → q ∈ ps → ac_pages s !! q = Some pg → q = p ∨ pg_ids pg ≠ []) →
  (∀ q, (q < length (ac_pages s))%nat → q ∈ ac_free_pages s ∨ ∃ i ps, ac_pages_of s !! i = Some ps ∧ q ∈ ps) →
  (∀ i ps q pg, ac_pages_of s !! i = Some ps → q ∈ ps → ac_pages s !! q = Some pg → 1 ≤ pg_vcap pg) → grow_ok (c_grow c) →
  packed s' ∧ ac_pages_of s' = ac_pages_of s ∧ length (ac_pages s') = length (ac_pages s).
Proof.
  intros H Hfull Hcov Hv Hgr. unfold ac_page_add in H. apply bind_ok in H as (s0 & x & [-> ->]%get_ok & H).
  apply bind_ok in H as (s1 & pg & [Hpg%vidx_ok ->]%lift_ok & H). apply bind_ok in H as (s1 & [pg' k] & [Hadd ->]%lift_ok & H).
  inv1 H. simpl. rewrite insert_length. split_and!; [|done..]. unfold page_add in Hadd. apply pbind_ok in Hadd as (u & _ & [= <- _]).
  split; simpl.
  - intros q. rewrite insert_length. apply Hcov.
  - intros i ps q pgq Hi Hps Hq. rewrite list_lookup_insert_Some. intros [(-> & <- & _)|(Hne & Hpgq)]; simpl.
    + intros Hnil. by apply app_eq_nil in Hnil as [_ ?].
    + destruct (Hfull _ _ _ _ Hi Hps Hq Hpgq); [congruence|done].
  - intros i ps q pgq Hps Hq. rewrite list_lookup_insert_Some. intros [(-> & <- & _)|(Hne & Hpgq)]; simpl; [|by eapply Hv].
    pose proof (Hv _ _ _ _ Hps Hq Hpg) as H1. unfold has_free_space. destruct (N.ltb_spec (N.of_nat (page_count pg)) (pg_vcap pg)); [done|].
    pose proof (Hgr (pg_vcap pg) (N.of_nat (page_count pg) + 1)). lia.
Qed.

Lemma find_room_none pages l : find_room pages l = POk None → ∀ p, p ∈ l → ∃ pg, pages !! p = Some pg ∧ has_free_space pg = false.
Proof.
  induction l as [|q l IH]; simpl; intros H p Hp; [by apply elem_of_nil in Hp|]. apply pbind_ok in H as (pg & Hpg%vidx_ok & H).
  destruct (has_free_space pg) eqn:E; [done|]. apply elem_of_cons in Hp as [->|Hp]; [eauto|by apply IH].
Qed.
Lemma full_occ s i ps : packed s → ac_pages_of s !! i = Some ps → find_room (ac_pages s) (reverse ps) = POk None → ∀ p, p ∈ ps → p ∈ occ s.
Proof.
  intros Hk Hps Hf p Hp. destruct (find_room_none _ _ Hf p) as (pg & Hpg & Hfs); [by apply elem_of_reverse|].
  apply elem_of_occ. exists pg. split; [done|]. intros Hnil. pose proof (pk_vcap _ Hk _ _ _ _ Hps Hp Hpg).
  unfold has_free_space, page_count in Hfs. rewrite Hnil in Hfs. simpl in Hfs. apply N.ltb_ge in Hfs. lia.
Qed.
Lemma no_free_len s : packed s → ac_free_pages s = [] → (length (ac_pages s) ≤ length (occ s) + n0 s)%nat.
Proof.
  intros Hk Hf. unfold n0. rewrite <- (seq_length (length (ac_pages s)) 0) at 1.
  set (ps0 := default [] (ac_pages_of s !! 0%nat)).
  assert (match ac_pages_of s !! 0%nat with Some ps => length ps | None => 0%nat end = length ps0) as ->.
  { unfold ps0. by destruct (ac_pages_of s !! 0%nat). }
  rewrite <- app_length. apply nodup_le; [apply NoDup_seq|]. intros p [_ Hp]%elem_of_seq. simpl in Hp.
  destruct (pk_cover _ Hk _ Hp) as [Hin|(i & ps & Hps & Hin)]; [rewrite Hf in Hin; by apply elem_of_nil in Hin|].
  destruct (lookup_lt_is_Some_2 _ _ Hp) as [pg Hpg]. apply elem_of_app. destruct (decide (i = 0%nat)) as [->|Hi].
  - right. unfold ps0. by rewrite Hps.
  - left. apply elem_of_occ. exists pg. split; [done|]. by eapply (pk_full _ Hk).
Qed.

Lemma reserve_page_paged c id i s s' l : grow_ok (c_grow c) → ac_inv c s → packed s → reserve_page c id i s = ROk s' l → paged s s'.
Proof.
  intros Hgr Hi Hk H. unfold reserve_page in H. apply bind_ok in H as (s0 & x & [-> ->]%get_ok & H).
  apply bind_ok in H as (s1 & ps & [Hps%vidx_ok ->]%lift_ok & H). apply bind_ok in H as (s1 & rm & [Hrm ->]%lift_ok & H). destruct rm as [p|].
  - apply page_add_packed in H as (H1 & H2 & H3); [|intros; right; by eapply (pk_full _ Hk)|apply Hk|apply Hk|done].
    apply (paged_then s s); [by apply paged_refl|done|by rewrite (n0_same _ _ H2)|lia].
  - pose proof (full_occ _ _ _ Hk Hps Hrm) as Hfull. apply bind_ok in H as (s1 & p & Hp & H).
    assert (ac_layouts s1 = ac_layouts s ∧ ac_archs s1 = ac_archs s ∧ ac_pages_of s1 = ac_pages_of s ∧
      (∀ q, q ∈ ac_free_pages s → q ∈ ac_free_pages s1 ∨ q = p) ∧
      (∀ q, (q < length (ac_pages s1))%nat → (q < length (ac_pages s))%nat ∨ q = p) ∧
      (∀ q pg, q ≠ p → ac_pages s1 !! q = Some pg → ac_pages s !! q = Some pg) ∧
      (∀ pg, ac_pages s1 !! p = Some pg → pg_ids pg = []) ∧
      (length (ac_pages s1) ≤ length (ac_pages s) `max` S (length (occ s) + n0 s))%nat) as (E1 & E1' & E2 & F1 & F2 & F3 & F4 & F5).
    { destruct (last (ac_free_pages s)) as [p'|] eqn:El.
      - inv1 Hp. simpl. split_and!; try done; [..|lia].
        + intros q Hq. rewrite (last_snoc_inv _ _ El), elem_of_app, elem_of_list_singleton in Hq. done.
        + auto.
        + intros pg Hpg. destruct (ac_free_empty _ _ Hi p') as (pg' & Hpg' & Hn); [|congruence].
          rewrite (last_snoc_inv _ _ El), elem_of_app, elem_of_list_singleton. auto.
      - apply last_None in El. inv1 Hp. simpl. split_and!; try done.
        + rewrite El. by intros q ?%elem_of_nil.
        + intros q. rewrite app_length. simpl. lia.
        + intros q pg Hne Hpg. apply lookup_app_Some in Hpg as [?|[Hge Hpg]]; [done|]. apply list_lookup_singleton_Some in Hpg as [Hz _]. lia.
        + intros pg Hpg. rewrite lookup_app_r in Hpg by lia. rewrite Nat.sub_diag in Hpg. injection Hpg as <-. done.
        + rewrite app_length. simpl. pose proof (no_free_len _ Hk El). lia. }
    apply bind_ok in H as (s2 & x & [-> ->]%get_ok & H). apply bind_ok in H as (s2 & ly & [Hly%vidx_ok ->]%lift_ok & H).
    apply bind_ok in H as (s2 & pg & [Hpg%vidx_ok ->]%lift_ok & H). apply bind_ok in H as (s2 & [] & ->%mod_ok & H).
    apply bind_ok in H as (s2 & ps' & [Hps'%vidx_ok ->]%lift_ok & H). apply bind_ok in H as (s2 & [] & ->%mod_ok & H).
    apply bind_ok in H as (s2 & p2a & [_ ->]%lift_ok & H). apply bind_ok in H as (s2 & [] & ->%mod_ok & H).
    simpl in Hps'. rewrite E2, Hps in Hps'. injection Hps' as <-.
    assert (1 ≤ ly_cap ly) as Hcap.
    { rewrite E1 in Hly. destruct (lookup_lt_is_Some_2 (ac_archs s) i) as [a Ha]; [rewrite <- (ac_lay_len _ _ Hi); by eapply lookup_lt_Some|].
      by destruct (ac_arch_ok _ _ Hi _ _ _ Ha Hly) as (_ & _ & ?). }
    assert ((i < length (ac_pages_of s))%nat) as Hilt by by eapply lookup_lt_Some.
    apply page_add_packed in H as (H1 & H2 & H3); [| | | |done].
    + split; [done| |].
      * unfold n0 at 1. rewrite H2. simpl. rewrite E2. destruct (decide (i = 0%nat)) as [->|Hne].
        -- rewrite list_lookup_insert by done. rewrite app_length. simpl. pose proof (nodup_le ps (occ s) (ac_pof_nodup _ _ Hi _ _ Hps) Hfull). lia.
        -- rewrite list_lookup_insert_ne by done. unfold n0. lia.
      * rewrite H3. simpl. rewrite insert_length. done.
    + simpl. intros j qs q pgq Hj Hqs Hq Hpgq. rewrite E2 in Hqs. destruct (decide (q = p)) as [|Hqp]; [by left|]. right.
      rewrite list_lookup_insert_ne in Hpgq by done. apply F3 in Hpgq; [|done].
      apply list_lookup_insert_Some in Hqs as [(<- & <- & _)|(Hji & Hqs)]; [|by eapply (pk_full _ Hk)].
      apply elem_of_app in Hq as [Hq|Hq%elem_of_list_singleton]; [|done]. by eapply (pk_full _ Hk).
    + simpl. intros q. rewrite insert_length. intros Hq. rewrite E2.
      assert (q ∈ ac_free_pages s1 ∨ q = p ∨ ∃ j qs, ac_pages_of s !! j = Some qs ∧ q ∈ qs) as [Hfr|[->|(j & qs & Hqs & Hin)]].
      { destruct (F2 _ Hq) as [Hlt| ->]; [|by right; left]. destruct (pk_cover _ Hk _ Hlt) as [Hfr|?]; [|by auto]. destruct (F1 _ Hfr); auto. }
      * by left.
      * right. exists i, (ps ++ [p]). rewrite list_lookup_insert by done. split; [done|]. apply elem_of_app. right. by left.
      * right. destruct (decide (j = i)) as [->|Hj].
        -- exists i, (ps ++ [p]). rewrite list_lookup_insert by done. split; [done|]. apply elem_of_app. left. congruence.
        -- exists j, qs. by rewrite list_lookup_insert_ne.
    + simpl. intros j qs q pgq Hqs Hq Hpgq. rewrite E2 in Hqs. destruct (decide (q = p)) as [->|Hqp].
      * apply list_lookup_insert_Some in Hpgq as [(_ & <- & _)|(? & _)]; [|done].
        pose proof (set_layout_room c pg ly Hgr (F4 _ Hpg) Hcap). lia.
      * rewrite list_lookup_insert_ne in Hpgq by done. apply F3 in Hpgq; [|done].
        apply list_lookup_insert_Some in Hqs as [(<- & <- & _)|(Hji & Hqs)]; [|by eapply (pk_vcap _ Hk)].
        apply elem_of_app in Hq as [Hq|Hq%elem_of_list_singleton]; [|done]. by eapply (pk_vcap _ Hk).
Qed.

Lemma reserve_archetype_packed c a s s' i : packed s → reserve_archetype c a s = ROk s' i →
  packed s' ∧ n0 s' = n0 s ∧ ac_pages s' = ac_pages s.
Proof.
  intros Hk H. unfold reserve_archetype in H. apply bind_ok in H as (s0 & x & [-> ->]%get_ok & H).
  destruct (find_arch (ac_archs s) 0 a) as [j|].
  - destruct (c_bs c _ _) as [n|n].
    + apply bind_ok in H as (s1 & fr & [Hv ->]%lift_ok & H). inv1 H. split_and!; try done. by apply (packed_same s).
    + inv1 H. done.
  - apply bind_ok in H as (s1 & ly & [Hly ->]%lift_ok & H). destruct (last (ac_free_archs s)) as [k|] eqn:El.
    + inv1 H. split_and!; try done. by apply (packed_same s).
    + inv1 H. destruct Hk as [K1 K2 K3]. assert (∀ j qs q, (ac_pages_of s ++ [[]]) !! j = Some qs → q ∈ qs → ac_pages_of s !! j = Some qs) as Hold.
      { intros j qs q [?|[_ Hq]]%lookup_app_Some Hin; [done|]. apply list_lookup_singleton_Some in Hq as [_ <-]. by apply elem_of_nil in Hin. }
      split_and!; [split; simpl| |done].
      * intros p Hp. destruct (K1 p Hp) as [?|(j & qs & Hqs & Hin)]; [by left|]. right. exists j, qs. split; [by apply lookup_app_l_Some|done].
      * intros j qs q pg Hj Hqs Hin. by eapply K2; [..|eapply Hold|].
      * intros j qs q pg Hqs Hin. by eapply K3; [eapply Hold|].
      * unfold n0. simpl. destruct (ac_pages_of s); done.
Qed.

Lemma occ_pages s s' : ac_pages s' = ac_pages s → occ s' = occ s.
Proof.
  intros E. unfold occ. replace (length (ac_pages s')) with (length (ac_pages s)) by by rewrite E.
  apply list_filter_iff. intros p. unfold occupied_at. by rewrite E.
Qed.
Lemma reserve_both_paged c id a s s1 i s2 l : cfg_ok c → ac_inv c s1 → packed s →
  reserve_archetype c a s = ROk s1 i → reserve_page c id i s1 = ROk s2 l → paged s s2.
Proof.
  intros [_ Hgr _] Hi1 Hk H1 H2. destruct (reserve_archetype_packed _ _ _ _ _ Hk H1) as (Hk1 & Hn & Hp).
  destruct (reserve_page_paged _ _ _ _ _ _ Hgr Hi1 Hk1 H2) as [P1 P2 P3]. rewrite (occ_pages _ _ Hp), Hn in *. rewrite Hp in *. by split.
Qed.

(** ** Removing a row *)
Lemma swap_remove_packed c l s s' r : ac_inv c s → packed s → ac_swap_remove l s = ROk s' r →
  packed s' ∧ (n0 s' ≤ n0 s)%nat ∧ length (ac_pages s') = length (ac_pages s).
Proof.
  intros Hi Hk H. unfold ac_swap_remove in H. apply bind_ok in H as (s0 & x & [-> ->]%get_ok & H).
  apply bind_ok in H as (s1 & ai & [Hai%vidx_ok ->]%lift_ok & H). apply bind_ok in H as (s1 & pg & [Hpg%vidx_ok ->]%lift_ok & H).
  apply bind_ok in H as (s1 & a & [_ ->]%lift_ok & H). apply bind_ok in H as (s1 & ly & [_ ->]%lift_ok & H).
  apply bind_ok in H as (s1 & [pg' r'] & [Hrm ->]%lift_ok & H). apply bind_ok in H as (s1 & [] & ->%mod_ok & H).
  apply bind_ok in H as (s1 & [] & H & [-> ->]%ret_ok). simpl in H. set (p := ea_page l) in *.
  pose proof (page_swap_caps _ _ _ _ _ _ Hrm) as Hvc.
  assert (length (pg_ids pg) = S (length (pg_ids pg'))) as Hlen.
  { unfold page_swap_remove in Hrm. apply pbind_ok in Hrm as (ids & Hv & Hrm). assert (pg_ids pg' = ids) as ->.
    { destruct (ea_idx l <? length ids)%nat; [|by injection Hrm as <- <-]. apply pbind_ok in Hrm as (m & _ & Hrm). apply pbind_ok in Hrm as (id & _ & [= <- <-]). done. }
    destruct (pg_ids pg !! ea_idx l) as [y|] eqn:Ey.
    - destruct (vswap_remove_spec _ _ _ Ey) as (n & z & l' & Hn & _ & Hl' & Hlen' & _). rewrite Hl' in Hv. injection Hv as ->. lia.
    - unfold vswap_remove in Hv. rewrite Ey in Hv. done. }
  destruct (ac_used _ _ Hi _ _ Hpg) as (i & ps & Hpi & Hps & Hin); [intros Hn; by rewrite Hn in Hlen|].
  rewrite Hai in Hpi. injection Hpi as <-.
  set (sx := ac_set_pages (<[p := pg']> (ac_pages s)) s) in *.
  assert (∀ j qs q pgq, ac_pages_of s !! j = Some qs → q ∈ qs → ac_pages sx !! q = Some pgq → 1 ≤ pg_vcap pgq) as Hv.
  { simpl. intros j qs q pgq Hqs Hq [(-> & <- & _)|(Hne & Hpgq)]%list_lookup_insert_Some; [rewrite Hvc|]; by eapply (pk_vcap _ Hk). }
  assert (∀ j qs q pgq, j ≠ 0%nat → ac_pages_of s !! j = Some qs → q ∈ qs → ac_pages sx !! q = Some pgq → pg_ids pgq = [] → q = p ∧ j = ai ∧ pg_ids pg' = []) as Hfull.
  { simpl. intros j qs q pgq Hj Hqs Hq [(-> & <- & _)|(Hne & Hpgq)]%list_lookup_insert_Some Hnil.
    - split_and!; [done| |done]. pose proof (ac_pof_p2a _ _ Hi _ _ _ Hqs Hq). congruence.
    - by destruct (pk_full _ Hk _ _ _ _ Hj Hqs Hq Hpgq). }
  assert (length (ac_pages sx) = length (ac_pages s)) as Hl by (simpl; by rewrite insert_length).
  assert (∀ q, (q < length (ac_pages sx))%nat → q ∈ ac_free_pages s ∨ ∃ j qs, ac_pages_of s !! j = Some qs ∧ q ∈ qs) as Hcov.
  { rewrite Hl. apply Hk. }
  destruct (Nat.eqb_spec (page_count pg) 1) as [Hone|Hmany]; [|].
  - unfold free_page in H. apply bind_ok in H as (s2 & x & [-> ->]%get_ok & H).
    apply bind_ok in H as (s2 & ai' & [Hai'%vidx_ok ->]%lift_ok & H). simpl in Hai'. rewrite Hai in Hai'. injection Hai' as <-.
    destruct (Nat.eqb_spec ai 0) as [Hz|Hz].
    + inv1 H. split_and!; [|done|done]. split; [done| |done]. intros j qs q pgq Hj Hqs Hq Hpgq Hnil. destruct (Hfull _ _ _ _ Hj Hqs Hq Hpgq Hnil) as (_ & ? & _). congruence.
    + apply bind_ok in H as (s2 & ps' & [Hps'%vidx_ok ->]%lift_ok & H). simpl in Hps'. rewrite Hps in Hps'. injection Hps' as <-.
      apply bind_ok in H as (s2 & [] & H & ->%mod_ok). destruct (position_nat_elem _ _ Hin) as (j & Hj & Hjp). rewrite Hj in H.
      pose proof (ac_pof_nodup _ _ Hi _ _ Hps) as Hnd. assert ((ai < length (ac_pages_of s))%nat) as Hlt by by eapply lookup_lt_Some.
      assert (ac_pages_of s2 = <[ai := delete j ps]> (ac_pages_of s) ∧ ac_pages s2 = ac_pages sx ∧ ac_free_pages s2 = ac_free_pages s) as (E1 & E2 & E3).
      { apply bind_ok in H as (s3 & [] & ->%mod_ok & H). destruct (Nat.eqb (length (delete j ps)) 0); by inv1 H. }
      assert (∀ k qs q, ac_pages_of s2 !! k = Some qs → q ∈ qs → q ≠ p ∧ ∃ qs', ac_pages_of s !! k = Some qs' ∧ q ∈ qs') as Hof.
      { intros k qs q. rewrite E1. intros [(<- & <- & _)|(Hne & Hqs)]%list_lookup_insert_Some Hq.
        - apply (delete_nodup _ _ _ _ Hnd Hjp) in Hq as [??]. eauto.
        - split; [|by eauto]. intros ->. pose proof (ac_pof_p2a _ _ Hi _ _ _ Hqs Hq). congruence. }
      simpl. split_and!; [|unfold n0; simpl; rewrite E1, list_lookup_insert_ne by done; done|by rewrite E2].
      split; simpl; rewrite ?E2, ?E3.
      * intros q Hq. rewrite elem_of_app, elem_of_list_singleton. destruct (decide (q = p)) as [->|Hqp]; [by left; right|].
        destruct (Hcov _ Hq) as [?|(k & qs & Hqs & Hqin)]; [by left; left|]. right. rewrite E1. destruct (decide (k = ai)) as [->|Hk'].
        -- exists ai, (delete j ps). rewrite list_lookup_insert by done. split; [done|]. apply (delete_nodup _ _ _ _ Hnd Hjp). split; [congruence|done].
        -- exists k, qs. by rewrite list_lookup_insert_ne.
      * intros k qs q pgq Hk' Hqs Hq Hpgq Hnil. destruct (Hof _ _ _ Hqs Hq) as (Hqp & qs' & Hqs' & Hq'). by destruct (Hfull _ _ _ _ Hk' Hqs' Hq' Hpgq Hnil).
      * intros k qs q pgq Hqs Hq Hpgq. destruct (Hof _ _ _ Hqs Hq) as (_ & qs' & Hqs' & Hq'). by eapply Hv.
  - inv1 H. split_and!; [|done|done]. split; [done| |done]. intros j qs q pgq Hj Hqs Hq Hpgq Hnil.
    destruct (Hfull _ _ _ _ Hj Hqs Hq Hpgq Hnil) as (_ & _ & Hn). unfold page_count in Hmany. rewrite Hn in Hlen. simpl in Hlen. lia.
Qed.

(** ** One call *)
Lemma add_paged c id a s s' l : cfg_ok c → ac_inv c s → healthy_for c s (list_to_set (arch_ids a)) → arch_wf c a → fits c a → packed s →
  ac_add_entity c id a s = ROk s' l → paged s s'.
Proof.
  intros Hc Hi Hh Hwf Hfit Hk H. pose proof Hc as [Hbs _ Hty]. unfold ac_add_entity in H. apply bind_ok in H as (s1 & i & H1 & H2).
  pose proof (sat_ok True _ _ _ _ _ (reserve_archetype_wp c a s True (λ _, True) Hty Hi (λ j Hj, proj1 (Hh j a Hj eq_refl)) Hwf Hfit) H1) as Hr. cbv beta in Hr.
  eapply reserve_both_paged; [done|apply Hr|done|done|done].
Qed.
Lemma move_paged c id a s p0 k0 i0 s' l : cfg_ok c → ac_inv c s → healthy_for c s (list_to_set (arch_ids a)) → arch_wf c a → fits c a → packed s →
  ac_move_entity c id (Eia p0 k0) i0 a s = ROk s' l → paged s s'.
Proof.
  intros Hc Hi Hh Hwf Hfit Hk H. pose proof Hc as [Hbs _ Hty]. unfold ac_move_entity in H.
  apply bind_ok in H as (s1 & i & H1 & H). apply bind_ok in H as (s2 & l' & H2 & H).
  pose proof (sat_ok True _ _ _ _ _ (reserve_archetype_wp c a s True (λ _, True) Hty Hi (λ j Hj, proj1 (Hh j a Hj eq_refl)) Hwf Hfit) H1) as Hr. cbv beta in Hr.
  pose proof (reserve_both_paged _ _ _ _ _ _ _ _ Hc (rs_inv _ _ _ _ _ Hr) Hk H1 H2) as Hpg.
  apply bind_ok in H as (s3 & x & [-> ->]%get_ok & H).
  apply bind_ok in H as (s3 & ? & [_ ->]%lift_ok & H). apply bind_ok in H as (s3 & ? & [_ ->]%lift_ok & H).
  apply bind_ok in H as (s3 & ? & [_ ->]%lift_ok & H). apply bind_ok in H as (s3 & ? & [_ ->]%lift_ok & H).
  apply bind_ok in H as (s3 & ? & [_ ->]%lift_ok & H). apply bind_ok in H as (s3 & pgs & [Hcp%copy_data_hdrs ->]%lift_ok & H).
  apply bind_ok in H as (s3 & [] & ->%mod_ok & H). apply ret_ok in H as [-> ->].
  apply (paged_then s s2); [done| |done|simpl; by rewrite (hdrs_len _ _ Hcp)]. apply (packed_same s2); [apply Hpg|done..].
Qed.
Lemma swap_internal_packed c l s s' : ac_inv c (st_ac s) → packed (st_ac s) → swap_remove_internal l s = ROk s' () →
  packed (st_ac s') ∧ (n0 (st_ac s') ≤ n0 (st_ac s))%nat ∧ length (ac_pages (st_ac s')) = length (ac_pages (st_ac s)).
Proof.
  intros Hi Ht H. unfold swap_remove_internal, on_ac in H. apply bind_ok in H as (s1 & r & (t & H1 & ->)%zoom_ok & H).
  destruct (swap_remove_packed _ _ _ _ _ Hi Ht H1) as (? & ? & ?).
  destruct r as [id|]; [|inv1 H; done]. unfold set_index_in_page in H. inv1 H. done.
Qed.

Section paged.
Context (c : cfg) (Hc : cfg_ok c) (Hmd : c_mode c = Debug).

Lemma place_paged s s1 s' e a l : ac_inv c (st_ac s) → healthy_for c (st_ac s) (list_to_set (arch_ids a)) → arch_wf c a → fits c a → packed (st_ac s) →
  on_ac (ac_add_entity c (e_id e) a) s = ROk s1 l → set_location (e_id e) l s1 = ROk s' () → paged (st_ac s) (st_ac s').
Proof using Hc.
  intros Hi Hh Hwf Hfit Hk H1 H2. apply zoom_ok in H1 as (t & H1 & ->). apply set_location_ok in H2 as (-> & _). simpl. by eapply add_paged.
Qed.
Lemma move_entity_paged s s' e a l p k m D : comp_inv c s None D → healthy_for c (st_ac s) (list_to_set (arch_ids a)) → arch_wf c a → fits c a → packed (st_ac s) →
  linked s (e_id e) p k → loc (st_ac s) p k = Some (e_id e, m) →
  move_entity c e a s = ROk s' l → paged (st_ac s) (st_ac s').
Proof using Hc.
  intros Hi Hh Hwf Hfit Hk Hlk Hl H. unfold move_entity in H. apply bind_ok in H as (s0 & x & [-> ->]%get_ok & H).
  apply bind_ok in H as (s0 & prev & [Hprev ->]%lift_ok & H). rewrite (linked_eia _ _ _ _ Hlk) in Hprev. injection Hprev as <-.
  apply bind_ok in H as (s0 & i0 & [Hi0%vidx_ok ->]%lift_ok & H). simpl in Hi0.
  apply bind_ok in H as (s1 & l' & (t & H1 & ->)%zoom_ok & H).
  pose proof (sat_ok True _ _ _ _ _ (ac_move_entity_wp c (e_id e) a (st_ac s) p k m i0 True (λ _, True) Hc (ci_ac _ _ _ _ Hi) Hh Hwf Hfit Hl Hi0) H1) as Ha. cbv beta in Ha.
  pose proof (move_paged _ _ _ _ _ _ _ _ _ Hc (ci_ac _ _ _ _ Hi) Hh Hwf Hfit Hk H1) as Hpg.
  apply bind_ok in H as (s2 & [] & H2 & H). apply bind_ok in H as (s3 & [] & H3 & H). apply bind_ok in H as (s4 & [] & H4 & [-> ->]%ret_ok).
  unfold set_page_index in H2. unfold set_index_in_page in H3. inv1 H2. inv1 H3.
  apply (swap_internal_packed c) in H4 as (T1 & T2 & T3); [|apply Ha|apply Hpg]. simpl in *. apply (paged_then _ t); [done..|lia].
Qed.
Lemma ensure_paged s s' I L D e T l : comp_state c s I L D → (∀ m, D !! e_id e = Some m → healthy_for c (st_ac s) (dom m ∪ list_to_set T)) → packed (st_ac s) → e ∈ L → T ≠ [] → NoDup T →
  (∀ m, D !! e_id e = Some m → fits_types c (dom m ∪ list_to_set T)) →
  ensure_types c e T s = ROk s' l → paged (st_ac s) (st_ac s').
Proof using Hc.
  intros Hs Hh Ht HL Hne Hnd Hfit H. pose proof (cs_inv _ _ _ _ _ Hs) as Hi. pose proof Hc as [Hbs _ _].
  destruct (cs_row _ _ _ _ _ _ Hs HL) as (m & HD & _ & Hrow). specialize (Hfit m HD). specialize (Hh m HD).
  unfold ensure_types in H. apply bind_ok in H as (s0 & x & [-> ->]%get_ok & H).
  apply bind_ok in H as (s0 & has & [Hhas' ->]%lift_ok & H).
  destruct Hrow as [(p & k & Hlk & Hl & Hhas & _)|(Hbit & Hhas & ->)]; rewrite Hhas in Hhas'; injection Hhas' as <-.
  - destruct (loc_page _ _ _ _ _ _ (ci_ac _ _ _ _ Hi) Hl) as (pg & i & a & ly & _ & Hp2a & Ha & _ & _ & Hwf & _).
    pose proof (loc_dom _ _ _ _ _ _ _ _ (ci_ac _ _ _ _ Hi) Hl Hp2a Ha) as Hdom.
    apply bind_ok in H as (s0 & l0 & [Hl0 ->]%lift_ok & H). rewrite (linked_eia _ _ _ _ Hlk) in Hl0. injection Hl0 as <-.
    apply bind_ok in H as (s0 & i0 & [Hi0%vidx_ok ->]%lift_ok & H). simpl in Hi0. rewrite Hp2a in Hi0. injection Hi0 as <-.
    apply bind_ok in H as (s0 & a0 & [Ha0 ->]%lift_ok & H). unfold vget_unchecked in Ha0. rewrite Ha in Ha0. injection Ha0 as <-.
    destruct (is_include_ids c a T); [inv1 H; by apply paged_refl|].
    destruct (include_arch c a T Hwf) as (Hnew & Hwf' & Hids'). apply bind_ok in H as (s0 & a1 & [Ha1 ->]%lift_ok & H).
    rewrite Hnew in Ha1. injection Ha1 as <-. set (b := sort_cts _) in *. clearbody b.
    assert (∀ t, t ∈ arch_ids b ↔ t ∈ dom m ∪ list_to_set T) as Hb.
    { intros t. rewrite Hids', <- Hdom, elem_of_union, elem_of_dom, elem_of_list_to_set. done. }
    eapply move_entity_paged; [exact Hi|by rewrite (same_set _ _ Hb)|exact Hwf'| |done|done|done|exact H]. by apply Hfit.
  - destruct (with_arch c T Hne Hnd) as (a & Hw & Hwf & Hids). apply bind_ok in H as (s0 & a0 & [Ha0 ->]%lift_ok & H). rewrite Hw in Ha0. injection Ha0 as <-.
    apply bind_ok in H as (s1 & l' & H1 & H). apply bind_ok in H as (s2 & [] & H2 & [-> ->]%ret_ok).
    assert (∀ t, t ∈ arch_ids a ↔ t ∈ dom (∅ : gmap tid (list cell)) ∪ list_to_set T) as Hb.
    { intros t. rewrite Hids, elem_of_union, elem_of_dom, elem_of_list_to_set, lookup_empty. split; [by right|]. intros [[]|]; done. }
    eapply place_paged; [apply Hi|by rewrite (same_set _ _ Hb)|exact Hwf| |done|done|done]. by apply Hfit.
Qed.

Lemma step_paged tr s o s' r D : comp_state c s (issued tr) (live tr) D → health_at c s tr D o → packed (st_ac s) → args_ok c o → room_at c tr D o →
  step c o s = ROk s' r → paged (st_ac s) (st_ac s').
Proof using Hc Hmd.
  intros Hs Hh Ht Hargs Hroom H. pose proof (cs_ec _ _ _ _ _ Hs) as Hec. pose proof (cs_inv _ _ _ _ _ Hs) as Hi.
  assert (st_ac s' = st_ac s → paged (st_ac s) (st_ac s')) as Hsame. { intros ->. by apply paged_refl. }
  assert (∀ s1 pgs, paged (st_ac s) (st_ac s1) → hdrs pgs = hdrs (ac_pages (st_ac s1)) → st_ac s' = ac_set_pages pgs (st_ac s1) → paged (st_ac s) (st_ac s')) as Hpages.
  { intros s1 pgs Hp Hh' ->. apply (paged_then _ (st_ac s1)); [done| |done|simpl; by rewrite (hdrs_len _ _ Hh')].
    apply (packed_same (st_ac s1)); [apply Hp|done..]. }
  destruct o as [|a|e|e vals|e T|e vals|q f|t e|t e|g e|g e to|g e to|g e]; simpl in H.
  - apply bind_ok in H as (s1 & e & H & [-> ->]%ret_ok). apply create_ok in H as (s2 & H & _ & Hac & _).
    destruct (register_comp _ Hmd _ _ _ _ _ _ Hs H) as (_ & _ & _ & Hac2). apply Hsame. by rewrite Hac.
  - apply bind_ok in H as (s1 & e & H & [-> ->]%ret_ok). unfold create_entity_with_archetype in H.
    apply bind_ok in H as (s2 & e' & H & Hrest). destruct (register_comp _ Hmd _ _ _ _ _ _ Hs H) as (Hi2 & Hnone & Hlt & Hac2).
    apply bind_ok in Hrest as (s3 & l & H3 & Hrest). apply bind_ok in Hrest as (s4 & [] & H4 & [Heq ->]%ret_ok). subst e'. simpl.
    rewrite <- Hac2. eapply place_paged; [by apply Hi2|by rewrite Hac2|exact Hargs|exact Hroom|by rewrite Hac2|exact H3|exact H4].
  - apply no_out_ok in H as [H ->]. unfold destroy_entity in H. apply bind_ok in H as (s1 & x & [-> ->]%get_ok & H).
    apply bind_ok in H as (s1 & has & [H1 ->]%lift_ok & H). apply bind_ok in H as (s2 & [] & H2 & H).
    assert (st_ac s' = st_ac s2) as E by by unfold on_ec, on_tags, on_orders in H; inv1 H. clear H. simpl.
    destruct has; [|inv1 H2; by apply Hsame]. apply bind_ok in H2 as (s3 & l & [_ ->]%lift_ok & H2).
    apply (swap_internal_packed c) in H2 as (T1 & T2 & T3); [|apply Hi|done]. rewrite E. apply (paged_then _ (st_ac s)); [by apply paged_refl|done..|lia].
  - apply no_out_ok in H as [H ->]. unfold add_components in H. apply bind_ok in H as (s1 & x & [-> ->]%get_ok & H).
    apply bind_ok in H as (s1 & b & [Hb ->]%lift_ok & H). pose proof (alive_lt _ Hmd _ _ _ _ _ Hec Hb) as Hlt.
    rewrite (cs_alive _ _ _ _ _ _ Hs Hlt) in Hb. injection Hb as <-. case_bool_decide as He; simpl in H; [|inv1 H; by apply Hsame].
    apply bind_ok in H as (s1 & l & H1 & H). destruct Hargs as (Hne & Hnd & Hok). simpl in Hroom.
    apply (ensure_paged _ _ (issued tr) (live tr) D) in H1; [|done|by intros; apply Hh|done|done|by destruct vals|done|by intros; apply Hroom].
    apply bind_ok in H as (s2 & x & [-> ->]%get_ok & H). apply bind_ok in H as (s2 & v & [_ ->]%lift_ok & H).
    apply bind_ok in H as (s2 & rs & [_ ->]%lift_ok & H). apply mod_ok in H as ->. simpl.
    eapply Hpages; [exact H1|apply assign_hdrs|done].
  - apply no_out_ok in H as [H ->]. unfold remove_components in H. apply bind_ok in H as (s1 & x & [-> ->]%get_ok & H).
    apply bind_ok in H as (s1 & b & [Hb ->]%lift_ok & H). destruct b; simpl in H; [|inv1 H; by apply Hsame].
    unfold is_valid_with_archetype in Hb. apply pbind_ok in Hb as (b & Hb & Hhas'). pose proof (alive_lt _ Hmd _ _ _ _ _ Hec Hb) as Hlt.
    rewrite (cs_alive _ _ _ _ _ _ Hs Hlt) in Hb. injection Hb as <-. case_bool_decide as He; [|done].
    destruct (cs_row _ _ _ _ _ _ Hs He) as (m & HD & _ & Hrow). simpl in Hroom. specialize (Hroom m He HD). specialize (Hh m He HD).
    destruct Hrow as [(p & k & Hlk & Hl & Hhas & _)|(Hbit & Hhas & ->)]; rewrite Hhas in Hhas'; [|done].
    destruct (loc_page _ _ _ _ _ _ (ci_ac _ _ _ _ Hi) Hl) as (pg & i & a & ly & _ & Hp2a & Ha & _ & _ & Hwf & _).
    pose proof (loc_dom _ _ _ _ _ _ _ _ (ci_ac _ _ _ _ Hi) Hl Hp2a Ha) as Hdom.
    apply bind_ok in H as (s0 & l0 & [Hl0 ->]%lift_ok & H). rewrite (linked_eia _ _ _ _ Hlk) in Hl0. injection Hl0 as <-.
    apply bind_ok in H as (s0 & i0 & [Hi0%vidx_ok ->]%lift_ok & H). simpl in Hi0. rewrite Hp2a in Hi0. injection Hi0 as <-.
    apply bind_ok in H as (s0 & a0 & [Ha0 ->]%lift_ok & H). unfold vget_unchecked in Ha0. rewrite Ha in Ha0. injection Ha0 as <-.
    destruct (exclude_arch c a T Hwf) as (Hids' & [(_ & Hnew & Hwf')|(_ & Hno)]); apply bind_ok in H as (s0 & a1 & [Ha1 ->]%lift_ok & H); [|congruence].
    rewrite Hnew in Ha1. injection Ha1 as <-. apply bind_ok in H as (s1 & l & H1 & [_ ->]%ret_ok).
    set (b := sort_cts _) in *. clearbody b. assert (∀ t, t ∈ arch_ids b ↔ t ∈ dom m ∖ list_to_set T) as Hb.
    { intros t. rewrite Hids', <- Hdom, elem_of_difference, elem_of_dom, elem_of_list_to_set. done. }
    eapply move_entity_paged; [exact Hi|by rewrite (same_set _ _ Hb)|exact Hwf'| |done|done|done|exact H1]. by apply Hroom.
  - apply no_out_ok in H as [H ->]. unfold set_components in H. apply bind_ok in H as (s1 & x & [-> ->]%get_ok & H).
    apply bind_ok in H as (s1 & rs & [_ ->]%lift_ok & H). destruct rs as [rs|]; [|inv1 H; by apply Hsame]. apply put_ok in H as ->.
    eapply (Hpages s); [by apply paged_refl|apply assign_hdrs|done].
  - apply no_out_ok in H as [H ->]. unfold query_write in H. apply bind_ok in H as (s1 & x & [-> ->]%get_ok & H).
    apply bind_ok in H as (s1 & it & [_ ->]%lift_ok & H). apply bind_ok in H as (s1 & pgs & [Hw%write_loop_hdrs ->]%lift_ok & H). apply put_ok in H as ->.
    eapply (Hpages s); [by apply paged_refl|exact Hw|done].
  - apply no_out_ok in H as [H ->]. apply Hsame. unfold add_tag, on_tags in H. by apply zoom_ok in H as (? & _ & ->).
  - apply no_out_ok in H as [H ->]. apply Hsame. unfold remove_tag, on_tags in H. by apply zoom_ok in H as (? & _ & ->).
  - apply no_out_ok in H as [H ->]. apply Hsame. unfold add_order, on_orders in H. by apply zoom_ok in H as (? & _ & ->).
  - apply no_out_ok in H as [H ->]. apply Hsame. unfold add_order_next, on_orders in H. by apply zoom_ok in H as (? & _ & ->).
  - apply no_out_ok in H as [H ->]. apply Hsame. unfold add_order_prev, on_orders in H. by apply zoom_ok in H as (? & _ & ->).
  - apply no_out_ok in H as [H ->]. apply Hsame. unfold remove_order, on_orders in H. by apply zoom_ok in H as (? & _ & ->).
Qed.
End paged.

(** ** Runs *)
Lemma packed_new : packed ac_new.
Proof.
  split; simpl.
  - intros p Hp. left. assert (p ∈ seq 0 5) as H; [|exact H]. apply elem_of_seq. lia.
  - intros i ps p pg _ H. done.
  - intros i ps p pg H. done.
Qed.
Section runs.
Context (c : cfg) (Hc : cfg_ok c) (Hmd : c_mode c = Debug).
Lemma peak_live tr : N.of_nat (size (live tr)) ≤ peak tr.
Proof using. induction tr as [|x tr _] using rev_ind; [done|]. rewrite peak_snoc. lia. Qed.
Lemma hrun_paged cap tr s : hrun c cap tr s →
  packed (st_ac s) ∧ N.of_nat (n0 (st_ac s)) ≤ peak tr + 1 ∧ page_total s ≤ N.max 5 (2 * peak tr + 2).
Proof using Hc Hmd.
  intros H. induction H as [s H|tr s o s' r Hr (Hk & Hn & Hl) Hh Ha Hro H].
  - unfold store_with_capacity in H. apply pbind_ok in H as (u & _ & [= <-]). split; [apply packed_new|]. split; vm_compute; congruence.
  - destruct (hrun_state c Hc Hmd _ _ _ Hr) as (D & Hs & Hcs).
    pose proof (step_paged c Hc Hmd _ _ _ _ _ _ Hs (healthy_at _ _ _ _ _ Hh Hcs) Hk Ha (room_room_at _ _ _ _ Hro Hcs) H) as [P1 P2 P3].
    pose proof (occ_live _ _ _ _ _ Hs). pose proof (peak_live tr). pose proof (peak_snoc tr (o, r)). split; [done|].
    unfold page_total in *. lia.
Qed.
Lemma hrun_accounted cap tr s : hrun c cap tr s → accounted s.
Proof using Hc Hmd.
  intros H. destruct (hrun_paged _ _ _ H) as (Hk & _ & _). destruct (hrun_state c Hc Hmd _ _ _ H) as (D & Hs & _).
  pose proof (ci_ac _ _ _ _ (cs_inv _ _ _ _ _ Hs)) as Hi.
  assert (∀ p i j, in_list s p i → in_list s p j → i = j) as Huniq.
  { intros p [i|] [j|]; simpl; [| | |done].
    - intros (ps & H1 & H2) (ps' & H3 & H4). pose proof (ac_pof_p2a _ _ Hi _ _ _ H1 H2). pose proof (ac_pof_p2a _ _ Hi _ _ _ H3 H4). congruence.
    - intros (ps & H1 & H2) H3. by destruct (ac_free_unused _ _ Hi _ _ _ H3 H1).
    - intros H3 (ps & H1 & H2). by destruct (ac_free_unused _ _ Hi _ _ _ H3 H1). }
  split.
  - intros p Hp. destruct (pk_cover _ Hk _ Hp) as [Hf|(i & ps & H1 & H2)].
    + exists None. split; [done|]. intros j Hj. by eapply Huniq.
    + exists (Some i). assert (in_list s p (Some i)) as Hin by (exists ps; done). split; [done|]. intros j Hj. by eapply Huniq.
  - intros p [i|]; simpl.
    + intros (ps & H1 & H2). rewrite <- (ac_p2a_len _ _ Hi). by eapply lookup_lt_Some, ac_pof_p2a.
    + intros Hf. destruct (ac_free_empty _ _ Hi _ Hf) as (pg & Hpg & _). by eapply lookup_lt_Some.
  - apply Hi.
  - apply Hi.
  - intros p [[|i]|]; simpl; [by right| |by left]. intros (ps & H1 & H2) (pg & Hpg & Hnil). by destruct (pk_full _ Hk (S i) ps p pg).
  - intros p Hf. by apply (ac_free_empty _ _ Hi).
Qed.
End runs.
Lemma drun_pages c cap tr s : cfg_ok c → drun (healthy c) c cap tr s → accounted s ∧ page_total s ≤ N.max 5 (2 * peak tr + 2).
Proof.
  intros Hc [Hr _]%(drun_debug _ _ _ _ Hc). split.
  - by eapply (hrun_accounted _ (cfg_ok_mode Debug c Hc)).
  - by eapply (hrun_paged _ (cfg_ok_mode Debug c Hc)).
Qed.

(** A page holds different live entities. *)
Lemma rows_live c s I L D p pg : comp_state c s I L D → ac_pages (st_ac s) !! p = Some pg → (length (pg_ids pg) ≤ size L)%nat.
Proof.
  intros Hs Hpg. pose proof (cs_inv _ _ _ _ _ Hs) as Hci. pose proof (ci_ac _ _ _ _ Hci) as Hi.
  assert (∀ k id, pg_ids pg !! k = Some id → linked s id p k ∧ ∃ e, e ∈ L ∧ e_id e = id) as Hk.
  { intros k id Hid. destruct (proj1 (loc_is_Some c (st_ac s) p k pg Hi Hpg)) as [[id' m] Hl]; [by eapply lookup_lt_Some|].
    pose proof Hl as (pg' & i & a & ly & Hpg' & _ & _ & _ & Hid' & _)%loc_Some. assert (id' = id) as -> by congruence.
    destruct (ci_rows _ _ _ _ Hci _ _ _ _ Hl) as [HD Hlk]; [done|]. split; [done|]. apply (cs_dom _ _ _ _ _ Hs). by eexists. }
  change (size L) with (length (elements L)). rewrite <- (fmap_length e_id). apply nodup_le.
  - apply NoDup_alt. intros k1 k2 id H1 H2. destruct (Hk _ _ H1) as [Hl1 _], (Hk _ _ H2) as [Hl2 _]. by destruct (linked_fun _ _ _ _ _ _ Hl1 Hl2).
  - intros id [k Hid]%elem_of_list_lookup. destruct (Hk _ _ Hid) as (_ & e & He & <-). apply elem_of_list_fmap. exists e. split; [done|]. by apply elem_of_elements.
Qed.
Lemma drun_indices c cap tr s : cfg_ok c → drun (healthy c) c cap tr s → peak tr < 2 ^ 31 →
  ∀ p pg k id, ac_pages (st_ac s) !! p = Some pg → pg_ids pg !! k = Some id → N.of_nat p < 2 ^ 32 ∧ N.of_nat k < 2 ^ 32.
Proof.
  intros Hc Hr Hp p pg k id Hpg Hk. destruct (drun_pages _ _ _ _ Hc Hr) as [_ Hn]. apply (drun_debug _ _ _ _ Hc) in Hr as [Hr _].
  destruct (hrun_state _ (cfg_ok_mode Debug c Hc) eq_refl _ _ _ Hr) as (D & Hs & _). pose proof (rows_live _ _ _ _ _ _ _ Hs Hpg) as Hrow.
  pose proof (peak_live tr) as Hl. apply lookup_lt_Some in Hpg, Hk. unfold page_total in Hn. change (2 ^ 32) with (2 * 2 ^ 31). lia.
Qed.

(** Disciplined runs with healthy pages, by computation. *)
Fixpoint dhexec (c : cfg) (ops : list (list entity → op)) (hs : list entity) (tr : trace) (s : store) : bool :=
  match ops with
  | [] => true
  | o :: ops => healthyb c (st_ac s) (asks tr (o hs)) && discb c tr (o hs) &&
      match step c (o hs) s with
      | ROk s' r => dhexec c ops (match r with Some e => hs ++ [e] | None => hs end) (tr ++ [(o hs, r)]) s'
      | _ => false
      end
  end.
Definition dhend_ok (c : cfg) (cap : N) (ops : list (list entity → op)) : bool :=
  (0 <? cap) && match store_with_capacity (c_mode c) cap with POk s => dhexec c ops [] [] s | _ => false end.
Lemma dhexec_run c cap ops hs tr s : drun (healthy c) c cap tr s → dhexec c ops hs tr s = true →
  ∃ s' tr' hs', exec c ops hs tr s = ROk s' (tr', hs') ∧ drun (healthy c) c cap tr' s'.
Proof.
  revert hs tr s. induction ops as [|o ops IH]; intros hs tr s Hr; simpl.
  - intros _. eauto 10.
  - intros [[H0%healthyb_ok H1%discb_ok]%andb_prop H2]%andb_prop. destruct (step c (o hs) s) as [s1 r| |] eqn:E; [|done..].
    apply IH; [|done]. by econstructor.
Qed.
Lemma dhend_run c cap ops : dhend_ok c cap ops = true → drun (healthy c) c cap (end_trace c cap ops) (end_store c cap ops).
Proof.
  unfold dhend_ok, end_trace, end_store, exec0. intros [Hcap%N.ltb_lt H1]%andb_prop. revert H1.
  destruct (store_with_capacity (c_mode c) cap) as [s| |] eqn:E; [|done..].
  intros H1. destruct (dhexec_run c cap ops [] [] s) as (s' & tr' & hs' & -> & ?); [by constructor|done|done].
Qed.

(** ** Witnesses *)
(** Four rows of one type fill a page; the standard library as it is. *)
Definition quarter_cfg (md : mode) : cfg := Cfg md (λ _, TyInfo 4000 4) bs_old rawvec_grow.
Lemma quarter_cfg_ok md : cfg_ok (quarter_cfg md).
Proof. split; [apply bs_old_ok|apply rawvec_grow_ok|]. intros t. done. Qed.
Definition quarter_arch (t : tid) : archetype := match with_components (quarter_cfg Debug) [t] with POk a => a | _ => [] end.
(** Eight entities fill two pages of the first archetype and one of them is moved to its own archetype; all are destroyed;
    then one entity in each of eight other archetypes. *)
Definition ex_more : list (list entity → op) :=
  replicate 8 (λ _, OCreateWith (quarter_arch 1)) ++ [λ hs, ORemove (h 0 hs) [3]] ++ ((λ n hs, ODestroy (h n hs)) <$> seq 0 8) ++
  ((λ n _, OCreateWith (quarter_arch (N.of_nat n))) <$> seq 2 8).
Lemma ex_more_run md : let c := quarter_cfg md in let tr := end_trace c 8 ex_more in let s := end_store c 8 ex_more in
  drun (healthy c) c 8 tr s ∧ peak tr = 8 ∧ page_total s = 11.
Proof.
  intros c tr s. subst c tr s. split; [apply dhend_run; destruct md; vm_compute; reflexivity|]. destruct md; split; vm_compute; reflexivity.
Qed.
Lemma peak_refuted : ¬ ∀ c cap tr s, cfg_ok c → drun (healthy c) c cap tr s → page_total s ≤ N.max 5 (peak tr).
Proof.
  intros H. destruct (ex_more_run Release) as (Hr & Hp & Hn). specialize (H _ _ _ _ (quarter_cfg_ok _) Hr). rewrite Hp, Hn in H. lia.
Qed.
(** One row fills a page; a Vec that grows exactly as far as it must. *)
Definition big_cfg (md : mode) : cfg := Cfg md (λ _, TyInfo 16000 4) bs_old (λ _ n, n).
Lemma big_cfg_ok md : cfg_ok (big_cfg md).
Proof. split; [apply bs_old_ok|by intros old n|]. intros t. done. Qed.
Definition big_arch (t : tid) : archetype := match with_components (big_cfg Debug) [t] with POk a => a | _ => [] end.
(** Six entities fill a page of the first archetype each, one of them is moved to its own archetype; all are destroyed;
    the same with another archetype. *)
Definition ex_twice : list (list entity → op) :=
  replicate 6 (λ _, OCreateWith (big_arch 1)) ++ [λ hs, ORemove (h 0 hs) [3]] ++ ((λ n hs, ODestroy (h n hs)) <$> seq 0 6) ++
  replicate 6 (λ _, OCreateWith (big_arch 2)) ++ [λ hs, ORemove (h 6 hs) [3]].
Lemma ex_twice_run md : let c := big_cfg md in let tr := end_trace c 8 ex_twice in let s := end_store c 8 ex_twice in
  drun (healthy c) c 8 tr s ∧ peak tr = 6 ∧ page_total s = 14.
Proof.
  intros c tr s. subst c tr s. split; [apply dhend_run; destruct md; vm_compute; reflexivity|]. destruct md; split; vm_compute; reflexivity.
Qed.
