(** UsageP.v — usage conditions under which page bookkeeping stays healthy. *)
From Verif.Proofs Require Export CompX UsageR.
Local Open Scope N_scope.

(** ** Capacities of the Vecs *)
Notation caps ps := (pg_vcap <$> (ps : list page)).
Lemma insert_caps (ps : list page) p pg pg' : ps !! p = Some pg → pg_vcap pg' = pg_vcap pg → caps (<[p := pg']> ps) = caps ps.
Proof.
  intros Hp Heq. rewrite list_fmap_insert, Heq. apply list_insert_id. by rewrite list_lookup_fmap, Hp.
Qed.
Lemma write_ref_caps ps r v : caps (write_ref ps r v) = caps ps.
Proof. unfold write_ref. destruct (ps !! r_page r) as [pg|] eqn:E; [|done]. by apply (insert_caps _ _ pg). Qed.
Lemma assign_caps rs vs : ∀ ps, caps (assign_to_refs ps rs vs) = caps ps.
Proof. revert vs. induction rs as [|r rs IH]; intros [|v vs] ps; simpl; try done. rewrite IH. apply write_ref_caps. Qed.
Lemma copy_common_caps sp dp si di sa da sl dl pairs : ∀ ps ps', copy_common ps sp dp si di sa da sl dl pairs = POk ps' → caps ps' = caps ps.
Proof.
  induction pairs as [|[x y] r IH]; intros ps ps'; simpl; [by intros [= <-]|]. repeat (case_match; try done).
  intros (ps1 & Hcp & Hrest)%pbind_ok. rewrite (IH _ _ Hrest). unfold pages_copy in Hcp. repeat (case_match; try done);
    apply pbind_ok in Hcp as (m & _ & [= <-]); by eapply insert_caps.
Qed.
Lemma copy_data_caps ps sp dp si di sa da sl dl ps' : copy_component_data ps sp dp si di sa da sl dl = POk ps' → caps ps' = caps ps.
Proof. unfold copy_component_data. destruct (arch_union sa da). apply copy_common_caps. Qed.
Lemma page_swap_caps p k a ly p' r : page_swap_remove p k a ly = POk (p', r) → pg_vcap p' = pg_vcap p.
Proof.
  unfold page_swap_remove. intros (ids & _ & H)%pbind_ok. destruct (k <? length ids)%nat.
  - apply pbind_ok in H as (m & _ & H). apply pbind_ok in H as (id & _ & [= <- <-]). done.
  - by injection H as <- <-.
Qed.
Lemma write_loop_caps n q vers f : ∀ ps it ps', write_loop n q vers f ps it = POk ps' → caps ps' = caps ps.
Proof.
  induction n as [|n IH]; intros ps it ps'; simpl; [by intros [= <-]|]. intros ([x it'] & _ & H)%pbind_ok. simpl in H.
  destruct x as [[e refs]|]; [|by injection H as <-]. rewrite (IH _ _ _ H). apply assign_caps.
Qed.

Lemma caps_lookup (ps ps' : list page) p pg' : caps ps' = caps ps → ps' !! p = Some pg' → ∃ pg, ps !! p = Some pg ∧ pg_vcap pg = pg_vcap pg'.
Proof.
  intros E H. assert (caps ps' !! p = Some (pg_vcap pg')) as H' by by rewrite list_lookup_fmap, H.
  rewrite E, list_lookup_fmap in H'. apply fmap_Some in H' as (pg & ? & ?). eauto.
Qed.

(** Where the room of the Vecs comes from: free pages have one of the capacities [P], and pages in use have reserved room
    for their archetype when they had one. *)
Definition lineage (c : cfg) (P : N → Prop) (s : ac) : Prop :=
  (∀ p pg, p ∈ ac_free_pages s → ac_pages s !! p = Some pg → P (pg_vcap pg)) ∧
  (∀ i ps p pg ly, ac_pages_of s !! i = Some ps → p ∈ ps → ac_pages s !! p = Some pg → ac_layouts s !! i = Some ly →
    ∃ v, P v ∧ pg_vcap pg = reserve_vec c v (ly_cap ly)).
Lemma lineage_mono c (P Q : N → Prop) s : (∀ v, P v → Q v) → lineage c P s → lineage c Q s.
Proof. intros H [L1 L2]. split; [eauto|]. intros i ps p pg ly H1 H2 H3 H4. destruct (L2 _ _ _ _ _ H1 H2 H3 H4) as (v & ? & ?). eauto. Qed.
Lemma lineage_same c P s s' : ac_free_pages s' = ac_free_pages s → ac_pages_of s' = ac_pages_of s → ac_layouts s' = ac_layouts s →
  caps (ac_pages s') = caps (ac_pages s) → lineage c P s → lineage c P s'.
Proof.
  intros E1 E2 E3 E4 [L1 L2]. split; rewrite ?E1, ?E2, ?E3.
  - intros p pg Hp Hpg. destruct (caps_lookup _ _ _ _ E4 Hpg) as (pg0 & Hpg0 & <-). eauto.
  - intros i ps p pg ly H1 H2 Hpg H4. destruct (caps_lookup _ _ _ _ E4 Hpg) as (pg0 & Hpg0 & <-). eauto.
Qed.
Lemma lineage_reserved c P s a s' i : reserved c s a s' i → lineage c P s → lineage c P s'.
Proof.
  intros Hr [L1 L2]. split; rewrite ?(rs_pages _ _ _ _ _ Hr), ?(rs_fpages _ _ _ _ _ Hr); [done|].
  intros j ps p pg ly H1 H2 H3 H4. assert (ps ≠ []) as Hne by (intros ->; by apply elem_of_nil in H2).
  pose proof (rs_pof' _ _ _ _ _ Hr _ _ H1 Hne) as H1'. destruct (rs_used _ _ _ _ _ Hr _ _ H1' Hne) as [_ E]. rewrite E in H4. eauto.
Qed.

Definition tset (a : archetype) : gset tid := list_to_set (arch_ids a).
(** Facts about the lists of archetypes that every call keeps. *)
Record tidy (c : cfg) (s : ac) : Prop := Tidy {
  td_nodup : NoDup (ac_free_archs s);
  td_zero : 0%nat ∉ ac_free_archs s;
  td_dist : ∀ i j a b, ac_archs s !! i = Some a → ac_archs s !! j = Some b → arch_ids a = arch_ids b → i = j;
  td_lay : ∀ i a ly, ac_archs s !! i = Some a → ac_layouts s !! i = Some ly → layout_new (c_mode c) a = POk ly;
}.

Lemma vset_inv {A} (l l' : list A) i x : vset l i x = POk l' → (i < length l)%nat ∧ l' = <[i := x]> l.
Proof. apply vset_ok. Qed.

Lemma reserve_archetype_tidy c a s s' i : reserve_archetype c a s = ROk s' i → length (ac_layouts s) = length (ac_archs s) → tidy c s →
  tidy c s' ∧ ac_pages s' = ac_pages s ∧ (∀ j b, ac_archs s' !! j = Some b → ac_archs s !! j = Some b ∨ j = i) ∧
  (∀ b, ac_archs s !! 0%nat = Some b → ac_archs s' !! 0%nat = Some b).
Proof.
  intros H Hll [Hnd Hz Hd Hl]. unfold reserve_archetype in H. apply bind_ok in H as (s0 & x & [-> ->]%get_ok & H).
  pose proof (find_arch_spec (ac_archs s) 0 a) as Hf. destruct (find_arch (ac_archs s) 0 a) as [j|].
  - destruct (c_bs c _ _) as [n|n].
    + apply bind_ok in H as (s1 & fr & [Hv ->]%lift_ok & H). inv1 H. simpl. split_and!; try done; [|by left].
      assert (sublist fr (ac_free_archs s)) as Hsub. { unfold vremove in Hv. case_match; [|done]. injection Hv as <-. apply sublist_delete. }
      split; simpl; try done.
      * by eapply sublist_nodup.
      * intros Hin. apply Hz. by eapply sublist_elem.
    + inv1 H. split_and!; try done. by left.
  - assert (∀ i' b, ac_archs s !! i' = Some b → arch_ids b ≠ arch_ids a) as Hnew.
    { intros i' b Hb Heq. apply is_same_as_spec in Heq. rewrite Hf in Heq; [done|]. by eapply elem_of_list_lookup_2. }
    apply bind_ok in H as (s1 & ly & [Hly ->]%lift_ok & H). destruct (last (ac_free_archs s)) as [k|] eqn:El.
    + apply bind_ok in H as (s1 & [] & ->%mod_ok & H). apply bind_ok in H as (s1 & ar & [[Hk ->]%vset_inv ->]%lift_ok & H).
      apply bind_ok in H as (s1 & [] & ->%mod_ok & H). apply bind_ok in H as (s1 & ls & [[Hk' ->]%vset_inv ->]%lift_ok & H).
      apply bind_ok in H as (s1 & [] & ->%mod_ok & H). apply ret_ok in H as [-> ->]. simpl in *.
      pose proof (last_snoc_inv _ _ El) as Hsn. assert (sublist (vpop (ac_free_archs s)) (ac_free_archs s)) as Hsub by apply vpop_sublist.
      assert (k ≠ 0%nat) as Hk0. { intros ->. apply Hz. rewrite Hsn, elem_of_app, elem_of_list_singleton. auto. }
      split_and!; try done.
      * split; simpl.
        -- by eapply sublist_nodup.
        -- intros Hin. apply Hz. by eapply sublist_elem.
        -- intros i' j' a' b' Ha Hb Heq. destruct (decide (i' = k)) as [->|Hi], (decide (j' = k)) as [->|Hj]; [done|..].
           ++ rewrite list_lookup_insert in Ha by done. rewrite list_lookup_insert_ne in Hb by done. injection Ha as <-. by destruct (Hnew _ _ Hb).
           ++ rewrite list_lookup_insert in Hb by done. rewrite list_lookup_insert_ne in Ha by done. injection Hb as <-. by destruct (Hnew _ _ Ha).
           ++ rewrite list_lookup_insert_ne in Ha, Hb by done. eauto.
        -- intros i' a' ly' Ha Hly'. destruct (decide (i' = k)) as [->|Hi].
           ++ rewrite list_lookup_insert in Ha by done. rewrite list_lookup_insert in Hly' by done. congruence.
           ++ rewrite list_lookup_insert_ne in Ha by done. rewrite list_lookup_insert_ne in Hly' by done. eauto.
      * intros j b Hb. destruct (decide (j = k)) as [->|]; [by right|]. rewrite list_lookup_insert_ne in Hb by done. by left.
      * intros b Hb. by rewrite list_lookup_insert_ne.
    + inv1 H. simpl. split_and!; try done.
      * split; simpl; try done.
        -- intros i' j' a' b' [Ha|[Hi Ha]]%lookup_app_Some [Hb|[Hj Hb]]%lookup_app_Some Heq; [eauto|..].
           ++ apply list_lookup_singleton_Some in Hb as [_ <-]. by destruct (Hnew _ _ Ha).
           ++ apply list_lookup_singleton_Some in Ha as [_ <-]. by destruct (Hnew _ _ Hb).
           ++ apply list_lookup_singleton_Some in Ha as [? _], Hb as [? _]. lia.
        -- intros i' a' ly' [Ha|[Hi Ha]]%lookup_app_Some [Hb|[Hj Hb]]%lookup_app_Some; [eauto|..].
           ++ apply lookup_lt_Some in Ha. lia.
           ++ apply lookup_lt_Some in Hb. lia.
           ++ apply list_lookup_singleton_Some in Ha as [_ <-], Hb as [_ <-]. done.
      * intros j b [Hb|[Hj Hb]]%lookup_app_Some; [by left|]. apply list_lookup_singleton_Some in Hb as [? _]. right. lia.
      * intros b Hb. by apply lookup_app_l_Some.
Qed.

Lemma page_add_caps c p id s s' l : c_mode c = Debug → ac_page_add c p id s = ROk s' l →
  ac_archs s' = ac_archs s ∧ ac_layouts s' = ac_layouts s ∧ ac_free_archs s' = ac_free_archs s ∧ ac_pages_of s' = ac_pages_of s ∧
  ac_free_pages s' = ac_free_pages s ∧ caps (ac_pages s') = caps (ac_pages s).
Proof.
  intros Hmd H. unfold ac_page_add in H. apply bind_ok in H as (s0 & x & [-> ->]%get_ok & H).
  apply bind_ok in H as (s1 & pg & [Hpg ->]%lift_ok & H). apply bind_ok in H as (s1 & [pg' k] & [Hadd ->]%lift_ok & H).
  inv1 H. simpl. split_and!; try done. unfold vidx in Hpg. case_match; [|done]. injection Hpg as ->.
  eapply insert_caps; [done|]. unfold page_add in Hadd. rewrite Hmd in Hadd. simpl in Hadd.
  destruct (has_free_space pg); simpl in Hadd; [|done]. by injection Hadd as <- _.
Qed.
Lemma set_layout_vcap c pg ly : pg_ids pg = [] → pg_vcap (page_set_layout c pg ly) = reserve_vec c (pg_vcap pg) (ly_cap ly).
Proof.
  intros Hn. unfold page_set_layout, page_count, reserve_vec. rewrite Hn. cbn [length N.of_nat]. rewrite N.add_0_l, N.sub_0_r. by case_match.
Qed.

Lemma reserve_page_caps c id i s s' l : c_mode c = Debug → ac_inv c s → reserve_page c id i s = ROk s' l →
  ac_archs s' = ac_archs s ∧ ac_layouts s' = ac_layouts s ∧ ac_free_archs s' = ac_free_archs s ∧
  (∀ P : N → Prop, P 0 → lineage c P s → lineage c P s').
Proof.
  intros Hmd Hi H. unfold reserve_page in H. apply bind_ok in H as (s0 & x & [-> ->]%get_ok & H).
  apply bind_ok in H as (s1 & ps & [Hps ->]%lift_ok & H). apply bind_ok in H as (s1 & rm & [_ ->]%lift_ok & H). destruct rm as [p|].
  - apply (page_add_caps _ _ _ _ _ _ Hmd) in H as (E1 & E2 & E3 & E4 & E5 & Hc). split_and!; try done. intros P _. by apply lineage_same.
  - apply bind_ok in H as (s1 & p & Hp & H).
    assert (ac_archs s1 = ac_archs s ∧ ac_layouts s1 = ac_layouts s ∧ ac_free_archs s1 = ac_free_archs s ∧ ac_pages_of s1 = ac_pages_of s ∧
      (∀ pg, ac_pages s1 !! p = Some pg → pg_ids pg = []) ∧
      (∀ q pg, q ≠ p → ac_pages s1 !! q = Some pg → ac_pages s !! q = Some pg) ∧
      (∀ q, q ∈ ac_free_pages s1 → q ∈ ac_free_pages s ∧ q ≠ p) ∧
      (∀ j qs, ac_pages_of s !! j = Some qs → p ∉ qs) ∧
      (∀ (P : N → Prop) pg, P 0 → lineage c P s → ac_pages s1 !! p = Some pg → P (pg_vcap pg))) as (E1 & E2 & E3 & E4 & Hemp & Hold & Hfree & Hun & HP).
    { destruct (last (ac_free_pages s)) as [p'|] eqn:El.
      - pose proof (last_snoc_inv _ _ El) as Hsn.
        assert (p' ∈ ac_free_pages s) as Hin by (rewrite Hsn, elem_of_app, elem_of_list_singleton; auto).
        inv1 Hp. simpl. split_and!; try done.
        + intros pg Hpg. destruct (ac_free_empty _ _ Hi p') as (pg' & Hpg' & Hn); [done|congruence].
        + intros q Hq. pose proof (ac_free_nodup _ _ Hi) as Hnd. rewrite Hsn in Hnd. apply NoDup_app in Hnd as (_ & Hd & _).
          split; [rewrite Hsn, elem_of_app; auto|]. intros ->. apply (Hd _ Hq). by apply elem_of_list_singleton.
        + intros j qs Hqs. by apply (ac_free_unused _ _ Hi _ _ _ Hin Hqs).
        + intros P pg _ [L1 _]. by apply L1.
      - inv1 Hp. simpl. split_and!; try done.
        + intros pg Hpg. rewrite lookup_app_r in Hpg by lia. rewrite Nat.sub_diag in Hpg. injection Hpg as <-. done.
        + intros q pg Hne [?|[? Hq]]%lookup_app_Some; [done|]. apply list_lookup_singleton_Some in Hq as [? _]. lia.
        + intros q Hq. split; [done|]. intros ->. destruct (ac_free_empty _ _ Hi _ Hq) as (pg & Hpg & _). apply lookup_lt_Some in Hpg. lia.
        + intros j qs Hqs Hin. pose proof (ac_pof_p2a _ _ Hi _ _ _ Hqs Hin) as Hl%lookup_lt_Some. rewrite (ac_p2a_len _ _ Hi) in Hl. lia.
        + intros P pg HP0 _ Hpg. rewrite lookup_app_r in Hpg by lia. rewrite Nat.sub_diag in Hpg. by injection Hpg as <-. }
    clear Hp. apply bind_ok in H as (s2 & x & [-> ->]%get_ok & H). apply bind_ok in H as (s2 & ly & [Hly ->]%lift_ok & H).
    apply bind_ok in H as (s2 & pg & [Hpg ->]%lift_ok & H). apply bind_ok in H as (s2 & [] & ->%mod_ok & H).
    apply bind_ok in H as (s2 & ps' & [Hps' ->]%lift_ok & H). apply bind_ok in H as (s2 & [] & ->%mod_ok & H).
    apply bind_ok in H as (s2 & p2a & [_ ->]%lift_ok & H). apply bind_ok in H as (s2 & [] & ->%mod_ok & H).
    apply (page_add_caps _ _ _ _ _ _ Hmd) in H as (-> & F2 & -> & F4 & F5 & Hc). simpl in *. split_and!; try done; [congruence|].
    unfold vidx in Hly, Hpg, Hps'. destruct (ac_layouts s1 !! i) as [ly'|] eqn:Ely; [|done]. injection Hly as ->.
    destruct (ac_pages s1 !! p) as [pg'|] eqn:Epg; [|done]. injection Hpg as ->.
    destruct (ac_pages_of s1 !! i) as [ps1|] eqn:Eps; [|done]. injection Hps' as ->.
    intros P H0 HL. pose proof (HP P _ H0 HL eq_refl) as HPp. destruct HL as [L1 L2].
    eapply (lineage_same c P (ac_set_pages_of (<[i := ps' ++ [p]]> (ac_pages_of s1)) (ac_set_pages (<[p := page_set_layout c pg ly]> (ac_pages s1)) s1)));
      [exact F5|exact F4|exact F2|exact Hc|]. split; simpl.
    + intros q qg [Hq Hne]%Hfree Hqg. rewrite list_lookup_insert_ne in Hqg by done. eauto.
    + intros j qs q qg ly' Hqs Hq Hqg Hly'. destruct (decide (q = p)) as [->|Hne].
      * assert (j = i) as ->. { destruct (decide (j = i)); [done|]. rewrite list_lookup_insert_ne, E4 in Hqs by done. by destruct (Hun _ _ Hqs). }
        assert (ly' = ly) as -> by congruence. apply lookup_lt_Some in Epg as Hlt. rewrite list_lookup_insert in Hqg by done. injection Hqg as <-.
        exists (pg_vcap pg). split; [done|]. apply set_layout_vcap. by apply Hemp.
      * rewrite list_lookup_insert_ne in Hqg by done. apply Hold in Hqg; [|done]. rewrite E2 in Hly'. destruct (decide (j = i)) as [->|Hji].
        -- rewrite list_lookup_insert in Hqs by by eapply lookup_lt_Some. injection Hqs as <-.
           apply elem_of_app in Hq as [Hq| ->%elem_of_list_singleton]; [|done]. rewrite E4 in Eps. eauto.
        -- rewrite list_lookup_insert_ne, E4 in Hqs by done. eauto.
Qed.

(** What adding a row to the archetype of page [p] does to the lists of archetypes. *)
Record grown (c : cfg) (s s' : ac) (p : nat) : Prop := Grown {
  gr_inv : ac_inv c s';
  gr_tidy : tidy c s';
  gr_slots : ∀ i b, ac_archs s' !! i = Some b → ac_archs s !! i = Some b ∨ ac_p2a s' !! p = Some i;
  gr_first : ∀ b, ac_archs s !! 0%nat = Some b → ac_archs s' !! 0%nat = Some b;
  gr_used : ∀ q pg, ac_pages s !! q = Some pg → pg_ids pg ≠ [] → page_arch s' q = page_arch s q;
  gr_line : ∀ P : N → Prop, P 0 → lineage c P s → lineage c P s';
}.
Lemma tidy_same c s s' : ac_archs s' = ac_archs s → ac_layouts s' = ac_layouts s → ac_free_archs s' = ac_free_archs s → tidy c s → tidy c s'.
Proof. intros E1 E2 E3 [H1 H2 H3 H4]. split; rewrite ?E1, ?E2, ?E3; done. Qed.

Lemma reserve_both c id a s s1 i s2 l : cfg_ok c → c_mode c = Debug → ac_inv c s → healthy_for c s (list_to_set (arch_ids a)) → arch_wf c a → fits c a → tidy c s →
  reserve_archetype c a s = ROk s1 i → reserve_page c id i s1 = ROk s2 l →
  tidy c s2 ∧ (∀ j b, ac_archs s2 !! j = Some b → ac_archs s !! j = Some b ∨ j = i ∧ b = a) ∧
  (∀ b, ac_archs s !! 0%nat = Some b → ac_archs s2 !! 0%nat = Some b) ∧
  (∀ P : N → Prop, P 0 → lineage c P s → lineage c P s2) ∧ reserved c s a s1 i.
Proof.
  intros Hc Hmd Hi Hh Hwf Hfit Ht H1 H2. pose proof Hc as [Hbs Hgr Hty].
  pose proof (sat_ok True _ _ _ _ _ (reserve_archetype_wp c a s True (λ _, True) Hty Hi (λ j Hj, proj1 (Hh j a Hj eq_refl)) Hwf Hfit) H1) as Hr. cbv beta in Hr.
  destruct (reserve_archetype_tidy _ _ _ _ _ H1 (ac_lay_len _ _ Hi) Ht) as (Ht1 & Hp1 & Hsl & Hfi).
  destruct (reserve_page_caps _ _ _ _ _ _ Hmd (rs_inv _ _ _ _ _ Hr) H2) as (E1 & E2 & E3 & Hcap).
  split_and!.
  - by apply (tidy_same c s1).
  - rewrite E1. intros j b Hb. destruct (Hsl _ _ Hb) as [?| ->]; [by left|]. right. rewrite (rs_arch _ _ _ _ _ Hr) in Hb. by injection Hb as <-.
  - rewrite E1. done.
  - intros P H0 HP. apply Hcap; [done|]. by eapply lineage_reserved.
  - done.
Qed.
Lemma slots_page c s s' a p i j b : tidy c s' → (∃ i, ac_p2a s' !! p = Some i ∧ ac_archs s' !! i = Some a) →
  ac_archs s' !! j = Some b → (ac_archs s !! j = Some b ∨ j = i ∧ b = a) → ac_archs s !! j = Some b ∨ ac_p2a s' !! p = Some j.
Proof.
  intros Ht (i' & H1 & H2) Hb [?|[-> ->]]; [by left|]. right. rewrite H1. f_equal. by eapply (td_dist _ _ Ht).
Qed.
Lemma add_grown c id a s s' l : cfg_ok c → c_mode c = Debug → ac_inv c s → healthy_for c s (list_to_set (arch_ids a)) → arch_wf c a → fits c a → tidy c s →
  ac_add_entity c id a s = ROk s' l → grown c s s' (ea_page l).
Proof.
  intros Hc Hmd Hi Hh Hwf Hfit Ht H.
  pose proof (sat_ok True _ _ _ _ _ (ac_add_entity_wp c id a s True (λ _, True) Hc Hi Hh Hwf Hfit) H) as Ha. cbv beta in Ha.
  unfold ac_add_entity in H. apply bind_ok in H as (s1 & i & H1 & H2).
  destruct (reserve_both _ _ _ _ _ _ _ _ Hc Hmd Hi Hh Hwf Hfit Ht H1 H2) as (Ht' & Hsl & Hfi & Hcap & _).
  split; [apply Ha|done| |done|apply Ha|done].
  intros j b Hb. eapply slots_page; [done|apply Ha|done|by apply Hsl].
Qed.
Lemma move_grown c id a s p0 k0 m i0 s' l : cfg_ok c → c_mode c = Debug → ac_inv c s → healthy_for c s (list_to_set (arch_ids a)) → arch_wf c a → fits c a → tidy c s →
  loc s p0 k0 = Some (id, m) → ac_p2a s !! p0 = Some i0 →
  ac_move_entity c id (Eia p0 k0) i0 a s = ROk s' l → grown c s s' (ea_page l).
Proof.
  intros Hc Hmd Hi Hh Hwf Hfit Ht Hl Hp0 H.
  pose proof (sat_ok True _ _ _ _ _ (ac_move_entity_wp c id a s p0 k0 m i0 True (λ _, True) Hc Hi Hh Hwf Hfit Hl Hp0) H) as Ha. cbv beta in Ha.
  unfold ac_move_entity in H. apply bind_ok in H as (s1 & i & H1 & H). apply bind_ok in H as (s2 & l' & H2 & H).
  destruct (reserve_both _ _ _ _ _ _ _ _ Hc Hmd Hi Hh Hwf Hfit Ht H1 H2) as (Ht' & Hsl & Hfi & Hcap & _).
  apply bind_ok in H as (s3 & x & [-> ->]%get_ok & H).
  apply bind_ok in H as (s3 & ? & [_ ->]%lift_ok & H). apply bind_ok in H as (s3 & ? & [_ ->]%lift_ok & H).
  apply bind_ok in H as (s3 & ? & [_ ->]%lift_ok & H). apply bind_ok in H as (s3 & ? & [_ ->]%lift_ok & H).
  apply bind_ok in H as (s3 & ? & [_ ->]%lift_ok & H). apply bind_ok in H as (s3 & pgs & [Hcp%copy_data_caps ->]%lift_ok & H).
  apply bind_ok in H as (s3 & [] & ->%mod_ok & H). apply ret_ok in H as [-> ->].
  assert (tidy c (ac_set_pages pgs s2)) as Ht2 by by apply (tidy_same c s2).
  split; [apply Ha|done| |done|apply Ha|].
  - intros j b Hb. eapply slots_page; [done|apply Ha|done|by apply Hsl].
  - intros P H0 HP. apply (lineage_same c P s2); try done. by apply Hcap.
Qed.

Lemma swap_remove_tidy c l s s' r : ac_inv c s → tidy c s → ac_swap_remove l s = ROk s' r →
  tidy c s' ∧ ac_archs s' = ac_archs s ∧ ac_layouts s' = ac_layouts s ∧ ac_p2a s' = ac_p2a s ∧
  ∀ P : N → Prop, (∀ i ly, ac_p2a s !! ea_page l = Some i → i ≠ 0%nat → ac_layouts s !! i = Some ly → ∀ v, P v → P (reserve_vec c v (ly_cap ly))) →
    lineage c P s → lineage c P s'.
Proof.
  intros Hi Ht H. unfold ac_swap_remove in H. apply bind_ok in H as (s0 & x & [-> ->]%get_ok & H).
  apply bind_ok in H as (s1 & ai & [_ ->]%lift_ok & H). apply bind_ok in H as (s1 & pg & [Hpg ->]%lift_ok & H).
  apply bind_ok in H as (s1 & a & [_ ->]%lift_ok & H). apply bind_ok in H as (s1 & ly & [_ ->]%lift_ok & H).
  apply bind_ok in H as (s1 & [pg' r'] & [Hrm%page_swap_caps ->]%lift_ok & H). apply bind_ok in H as (s1 & [] & ->%mod_ok & H).
  apply bind_ok in H as (s1 & [] & H & [-> ->]%ret_ok). simpl in H.
  unfold vidx in Hpg. destruct (ac_pages s !! ea_page l) as [pg0|] eqn:Epg; [|done]. injection Hpg as ->.
  assert (caps (<[ea_page l := pg']> (ac_pages s)) = caps (ac_pages s)) as Hcap by by eapply insert_caps.
  set (sx := ac_set_pages (<[ea_page l := pg']> (ac_pages s)) s) in *.
  assert (tidy c sx) as Ht1 by by apply (tidy_same c s).
  assert (∀ P, lineage c P s → lineage c P sx) as Hlx by (intros P; by apply lineage_same).
  destruct (Nat.eqb_spec (page_count pg) 1) as [Hpc|]; [|inv1 H; split_and!; try done; intros; by apply Hlx].
  unfold free_page in H. apply bind_ok in H as (s2 & x & [-> ->]%get_ok & H).
  apply bind_ok in H as (s2 & ai' & [Hai' ->]%lift_ok & H). destruct (Nat.eqb_spec ai' 0) as [Hai|Hai]; [inv1 H; split_and!; try done; intros; by apply Hlx|].
  apply bind_ok in H as (s2 & ps & [Hps ->]%lift_ok & H). apply bind_ok in H as (s2 & [] & H & ->%mod_ok). simpl.
  unfold vidx in Hai', Hps. simpl in Hai', Hps. destruct (ac_p2a s !! ea_page l) as [ai0|] eqn:Ep2a; [|done]. injection Hai' as ->.
  destruct (ac_pages_of s !! ai') as [ps0|] eqn:Eps; [|done]. injection Hps as ->.
  assert (ea_page l ∈ ps) as Hin.
  { destruct (ac_used _ _ Hi _ _ Epg) as (i & qs & H1 & H2 & H3); [by intros Hn; unfold page_count in Hpc; rewrite Hn in Hpc|]. congruence. }
  destruct (position_nat_elem _ _ Hin) as (j & Ej & Hj). rewrite Ej in H. apply bind_ok in H as (s3 & [] & ->%mod_ok & H).
  assert (∀ (P : N → Prop) fa, (∀ i ly, Some ai' = Some i → i ≠ 0%nat → ac_layouts s !! i = Some ly → ∀ v, P v → P (reserve_vec c v (ly_cap ly))) → lineage c P s →
    lineage c P (ac_set_free_pages (ac_free_pages sx ++ [ea_page l]) (ac_set_free_archs fa (ac_set_pages_of (<[ai' := delete j ps]> (ac_pages_of sx)) sx)))) as Hline.
  { intros P fa HP HL. pose proof (Hlx _ HL) as [L1 L2]. split; simpl.
    - intros q qg [Hq| ->%elem_of_list_singleton]%elem_of_app Hqg; [by eapply L1|].
      destruct (lookup_lt_is_Some_2 (ac_layouts s) ai') as [ly' Hly'].
      { rewrite (ac_lay_len _ _ Hi), <- (ac_pof_len _ _ Hi). by eapply lookup_lt_Some. }
      destruct (L2 _ _ _ _ _ Eps Hin Hqg Hly') as (v & Hv & ->). by apply (HP ai').
    - intros i qs q qg ly' Hqs Hq Hqg Hly'. destruct (decide (i = ai')) as [->|Hne].
      + rewrite list_lookup_insert in Hqs by by eapply lookup_lt_Some. injection Hqs as <-.
        eapply L2; [exact Eps| |done|done]. eapply sublist_elem; [apply sublist_delete|done].
      + rewrite list_lookup_insert_ne in Hqs by done. by eapply L2. }
  destruct (Nat.eqb (length (delete j ps)) 0); inv1 H.
  - simpl. split_and!; try done; [|intros P HP HL; by apply Hline]. destruct Ht1 as [T1 T2 T3 T4]. split; simpl; try done.
    + apply NoDup_app. split; [done|]. split; [|apply NoDup_singleton]. intros k Hk ->%elem_of_list_singleton.
      pose proof (ac_farch_ok _ _ Hi _ Hk) as Hnil. rewrite Hnil in Eps. by injection Eps as <-.
    + rewrite elem_of_app, elem_of_list_singleton. naive_solver.
  - split_and!; try done; [by apply (tidy_same c sx)|]. intros P HP HL. by apply (Hline P (ac_free_archs sx)).
Qed.

(** ** What one call does to the lists of archetypes: a new archetype is that of the entity [oe]; pages given back are those of [lv]. *)
Record evolved (c : cfg) (s s' : store) (oe : option entity) (lv : option (gset tid)) : Prop := Evolved {
  ev_tidy : tidy c (st_ac s');
  ev_slots : ∀ i b, ac_archs (st_ac s') !! i = Some b → ac_archs (st_ac s) !! i = Some b ∨
    ∃ e p, oe = Some e ∧ bit (st_has s') (e_id e) = true ∧ st_page s' !! N.to_nat (e_id e) = Some (Some p) ∧ ac_p2a (st_ac s') !! p = Some i;
  ev_first : ∀ b, ac_archs (st_ac s) !! 0%nat = Some b → ac_archs (st_ac s') !! 0%nat = Some b;
  ev_line : ∀ P : N → Prop, P 0 → (∀ i a ly, lv = Some (tset a) → ac_archs (st_ac s) !! i = Some a → i ≠ 0%nat → ac_layouts (st_ac s) !! i = Some ly →
    ∀ v, P v → P (reserve_vec c v (ly_cap ly))) → lineage c P (st_ac s) → lineage c P (st_ac s');
}.
Lemma evolved_same c s s' oe lv : tidy c (st_ac s) → st_ac s' = st_ac s → evolved c s s' oe lv.
Proof. intros Ht E. split; rewrite ?E; auto. Qed.
Lemma evolved_pages c s s1 s' oe lv : evolved c s s1 oe lv → ac_archs (st_ac s') = ac_archs (st_ac s1) → ac_layouts (st_ac s') = ac_layouts (st_ac s1) →
  ac_p2a (st_ac s') = ac_p2a (st_ac s1) → tidy c (st_ac s') → caps (ac_pages (st_ac s')) = caps (ac_pages (st_ac s1)) →
  ac_free_pages (st_ac s') = ac_free_pages (st_ac s1) → ac_pages_of (st_ac s') = ac_pages_of (st_ac s1) →
  st_has s' = st_has s1 → st_page s' = st_page s1 → evolved c s s' oe lv.
Proof.
  intros [Ht Hs Hf Hc] E1 E2 E3 Ht' E4 E7 E8 E5 E6. split; rewrite ?E1, ?E3, ?E5, ?E6; try done.
  intros P H0 HP HL. apply (lineage_same c P (st_ac s1)); try done. by apply Hc.
Qed.
Lemma set_location_ok id l s s' : set_location id l s = ROk s' () →
  st_ac s' = st_ac s ∧ bit (st_has s') id = true ∧ st_page s' !! N.to_nat id = Some (Some (ea_page l)).
Proof.
  unfold set_location, set_page_index, set_index_in_page, enable_archetype. intros H. inv1 H. simpl in *.
  apply aset_ok in H1 as [Hlt ->]. split; [done|]. split.
  - match goal with Hb : bv_on _ _ = POk _ |- _ => apply bv_on_ok in Hb as [_ Hb]; rewrite Hb end. by rewrite bool_decide_true.
  - apply list_lookup_insert. lia.
Qed.
Lemma swap_internal_tidy c l s s' : ac_inv c (st_ac s) → tidy c (st_ac s) → swap_remove_internal l s = ROk s' () →
  tidy c (st_ac s') ∧ ac_archs (st_ac s') = ac_archs (st_ac s) ∧ ac_layouts (st_ac s') = ac_layouts (st_ac s) ∧
  ac_p2a (st_ac s') = ac_p2a (st_ac s) ∧
  (∀ P : N → Prop, (∀ i ly, ac_p2a (st_ac s) !! ea_page l = Some i → i ≠ 0%nat → ac_layouts (st_ac s) !! i = Some ly → ∀ v, P v → P (reserve_vec c v (ly_cap ly))) →
    lineage c P (st_ac s) → lineage c P (st_ac s')) ∧
  st_has s' = st_has s ∧ st_page s' = st_page s.
Proof.
  intros Hi Ht H. unfold swap_remove_internal, on_ac in H. apply bind_ok in H as (s1 & r & (t & H1 & ->)%zoom_ok & H).
  destruct (swap_remove_tidy _ _ _ _ _ Hi Ht H1) as (? & ? & ? & ? & ?).
  destruct r as [id|]; [|inv1 H; done]. unfold set_index_in_page in H. inv1 H. done.
Qed.

Lemma loc_tset c s p k id m i a : ac_inv c s → loc s p k = Some (id, m) → ac_p2a s !! p = Some i → ac_archs s !! i = Some a → dom m = tset a.
Proof.
  intros Hi Hl Hp Ha. pose proof (loc_dom _ _ _ _ _ _ _ _ Hi Hl Hp Ha) as Hd. apply set_eq. intros t.
  unfold tset. by rewrite elem_of_dom, elem_of_list_to_set, Hd.
Qed.

Section evolve.
Context (c : cfg) (Hc : cfg_ok c) (Hmd : c_mode c = Debug).

Lemma place_evolved s s1 s' e a l lv : ac_inv c (st_ac s) → healthy_for c (st_ac s) (list_to_set (arch_ids a)) → arch_wf c a → fits c a → tidy c (st_ac s) →
  on_ac (ac_add_entity c (e_id e) a) s = ROk s1 l → set_location (e_id e) l s1 = ROk s' () → evolved c s s' (Some e) lv.
Proof using Hc Hmd.
  intros Hi Hh Hwf Hfit Ht H1 H2. apply zoom_ok in H1 as (t & H1 & ->). apply set_location_ok in H2 as (Hac & Hb & Hp). simpl in Hac.
  destruct (add_grown _ _ _ _ _ _ Hc Hmd Hi Hh Hwf Hfit Ht H1) as [G1 G2 G3 G4 G5 G6].
  split; rewrite ?Hac; try done; [|by intros; apply G6]. intros i b Hib. destruct (G3 _ _ Hib) as [?|?]; [by left|]. right. eauto 10.
Qed.
Lemma move_evolved s s' e a l p k m D : comp_inv c s None D → healthy_for c (st_ac s) (list_to_set (arch_ids a)) → arch_wf c a → fits c a → tidy c (st_ac s) →
  linked s (e_id e) p k → loc (st_ac s) p k = Some (e_id e, m) →
  move_entity c e a s = ROk s' l → evolved c s s' (Some e) (Some (dom m)).
Proof using Hc Hmd.
  intros Hi Hh Hwf Hfit Ht Hlk Hl H. unfold move_entity in H. apply bind_ok in H as (s0 & x & [-> ->]%get_ok & H).
  apply bind_ok in H as (s0 & prev & [Hprev ->]%lift_ok & H). rewrite (linked_eia _ _ _ _ Hlk) in Hprev. injection Hprev as <-.
  apply bind_ok in H as (s0 & i0 & [Hi0 ->]%lift_ok & H). simpl in Hi0. unfold arch_index_by_page, vidx in Hi0.
  destruct (ac_p2a (st_ac s) !! p) as [i0'|] eqn:Ep; [|done]. injection Hi0 as ->.
  apply bind_ok in H as (s1 & l' & (t & H1 & ->)%zoom_ok & H).
  destruct (move_grown _ _ _ _ _ _ _ _ _ _ Hc Hmd (ci_ac _ _ _ _ Hi) Hh Hwf Hfit Ht Hl Ep H1) as [G1 G2 G3 G4 G5 G6].
  apply bind_ok in H as (s2 & [] & H2 & H). apply bind_ok in H as (s3 & [] & H3 & H). apply bind_ok in H as (s4 & [] & H4 & [-> ->]%ret_ok).
  unfold set_page_index in H2. unfold set_index_in_page in H3. inv1 H2. inv1 H3. simpl in *.
  match goal with Ha : aset (st_page s) _ _ = POk _ |- _ => apply aset_ok in Ha as [Hlt ->] end.
  apply (swap_internal_tidy c) in H4 as (T1 & T2 & T3 & T4 & T5 & T6 & T7); [|done..]. simpl in *.
  split; rewrite ?T2, ?T4, ?T6, ?T7; try done.
  - intros i b Hib. destruct (G3 _ _ Hib) as [?|?]; [by left|]. right. exists e, (ea_page l'). split; [done|]. split; [apply Hlk|].
    split; [|done]. apply list_lookup_insert. lia.
  - intros P HP0 HP HL. apply T5; [|by apply G6]. intros i ly Hpi Hi0 Hly.
    pose proof Hl as (pg & j & b & ly1 & Hpg & Hpj & Hb & Hly1 & Hk & _)%loc_Some.
    pose proof (G5 _ _ Hpg ltac:(intros Hn; by rewrite Hn in Hk)) as Hpa. unfold page_arch in Hpa. rewrite Hpi, Hly, Hpj, Hb, Hly1 in Hpa.
    destruct (ac_archs t !! i) as [b'|] eqn:Hb'; [|done]. injection Hpa as -> ->.
    apply (HP j b); try done.
    + f_equal. by eapply loc_tset; [apply Hi|..].
    + intros ->. apply Hi0. eapply (td_dist _ _ G2); [done| |done]. by apply G4.
Qed.

(** The entity whose archetype may be new. *)
Definition grows (o : op) (r : option entity) : option entity :=
  match o with OCreateWith _ => r | OAdd e _ | ORemove e _ => Some e | _ => None end.

Lemma ensure_evolved s s' I L D e T l lv : comp_state c s I L D → tidy c (st_ac s) → e ∈ L → T ≠ [] → NoDup T →
  (∀ m, D !! e_id e = Some m → healthy_for c (st_ac s) (dom m ∪ list_to_set T)) →
  (∀ m, D !! e_id e = Some m → fits_types c (dom m ∪ list_to_set T)) →
  (∀ m, D !! e_id e = Some m → ¬ list_to_set T ⊆ dom m → lv = Some (dom m)) →
  ensure_types c e T s = ROk s' l → evolved c s s' (Some e) lv.
Proof using Hc Hmd.
  intros Hs Ht HL Hne Hnd Hh Hfit Hlv H. pose proof (cs_inv _ _ _ _ _ Hs) as Hi. pose proof Hc as [Hbs _ _].
  destruct (cs_row _ _ _ _ _ _ Hs HL) as (m & HD & _ & Hrow). specialize (Hfit m HD). specialize (Hh m HD). specialize (Hlv m HD).
  unfold ensure_types in H. apply bind_ok in H as (s0 & x & [-> ->]%get_ok & H).
  apply bind_ok in H as (s0 & has & [Hhas' ->]%lift_ok & H).
  destruct Hrow as [(p & k & Hlk & Hl & Hhas & _)|(Hbit & Hhas & ->)]; rewrite Hhas in Hhas'; injection Hhas' as <-.
  - destruct (loc_page _ _ _ _ _ _ (ci_ac _ _ _ _ Hi) Hl) as (pg & i & a & ly & _ & Hp2a & Ha & _ & _ & Hwf & _).
    pose proof (loc_dom _ _ _ _ _ _ _ _ (ci_ac _ _ _ _ Hi) Hl Hp2a Ha) as Hdom.
    apply bind_ok in H as (s0 & l0 & [Hl0 ->]%lift_ok & H). rewrite (linked_eia _ _ _ _ Hlk) in Hl0. injection Hl0 as <-.
    apply bind_ok in H as (s0 & i0 & [Hi0 ->]%lift_ok & H). simpl in Hi0. unfold arch_index_by_page, vidx in Hi0. rewrite Hp2a in Hi0. injection Hi0 as <-.
    apply bind_ok in H as (s0 & a0 & [Ha0 ->]%lift_ok & H). unfold vget_unchecked in Ha0. rewrite Ha in Ha0. injection Ha0 as <-.
    pose proof (is_include_ids_spec c Hbs a T (proj1 Hwf) Hnd) as [_ Hinc].
    destruct (is_include_ids c a T); [inv1 H; by apply evolved_same|].
    rewrite Hlv.
    2:{ intros Hsub. discriminate Hinc. intros t Ht'. apply Hdom, elem_of_dom, Hsub. by apply elem_of_list_to_set. }
    destruct (include_arch c a T Hwf) as (Hnew & Hwf' & Hids'). apply bind_ok in H as (s0 & a1 & [Ha1 ->]%lift_ok & H).
    rewrite Hnew in Ha1. injection Ha1 as <-. set (b := sort_cts _) in *. clearbody b.
    assert (∀ t, t ∈ arch_ids b ↔ t ∈ dom m ∪ list_to_set T) as Hb.
    { intros t. rewrite Hids', <- Hdom, elem_of_union, elem_of_dom, elem_of_list_to_set. done. }
    eapply move_evolved; [exact Hi|by rewrite (same_set _ _ Hb)|exact Hwf'| |done|done|done|exact H]. by apply Hfit.
  - destruct (with_arch c T Hne Hnd) as (a & Hw & Hwf & Hids). apply bind_ok in H as (s0 & a0 & [Ha0 ->]%lift_ok & H). rewrite Hw in Ha0. injection Ha0 as <-.
    apply bind_ok in H as (s1 & l' & H1 & H). apply bind_ok in H as (s2 & [] & H2 & [-> ->]%ret_ok).
    assert (∀ t, t ∈ arch_ids a ↔ t ∈ dom (∅ : gmap tid (list cell)) ∪ list_to_set T) as Hb.
    { intros t. rewrite Hids, elem_of_union, dom_empty_L, elem_of_list_to_set. clear. set_solver. }
    eapply place_evolved; [apply Hi|by rewrite (same_set _ _ Hb)|exact Hwf| |done|done|done]. by apply Hfit.
Qed.

Lemma step_evolved tr s o s' r D : comp_state c s (issued tr) (live tr) D → (∀ e, comps tr e (cview (live tr) D e)) → health_at c s tr D o → tidy c (st_ac s) → args_ok c o → room_at c tr D o →
  step c o s = ROk s' r → evolved c s s' (grows o r) (leaves tr o) ∧
  (ac_archs (st_ac s') = ac_archs (st_ac s) ∨ ∃ e, grows o r = Some e ∧ e ∈ live (tr ++ [(o, r)])).
Proof using Hc Hmd.
  intros Hs Hcs Hh Ht Hargs Hroom H. pose proof (cs_ec _ _ _ _ _ Hs) as Hec.
  assert (∀ e m, e ∈ live tr → D !! e_id e = Some m → types tr e = Some (dom m)) as Hty.
  { intros e m He HD. specialize (Hcs e). unfold cview in Hcs. rewrite decide_True, HD in Hcs by done. by apply comps_types in Hcs. } pose proof (cs_inv _ _ _ _ _ Hs) as Hi.
  assert (∀ oe lv, st_ac s' = st_ac s → evolved c s s' oe lv ∧ (ac_archs (st_ac s') = ac_archs (st_ac s) ∨ ∃ e, grows o r = Some e ∧ e ∈ live (tr ++ [(o, r)]))) as Hsame.
  { intros oe lv E. split; [by apply evolved_same|]. rewrite E. by left. }
  destruct o as [|a|e|e vals|e T|e vals|q f|t e|t e|g e|g e to|g e to|g e]; simpl in H.
  - apply bind_ok in H as (s1 & e & H & [-> ->]%ret_ok). apply create_ok in H as (s2 & H & _ & Hac & _).
    destruct (register_comp _ Hmd _ _ _ _ _ _ Hs H) as (_ & _ & _ & Hac2). apply Hsame. by rewrite Hac.
  - apply bind_ok in H as (s1 & e & H & [-> ->]%ret_ok). unfold create_entity_with_archetype in H.
    apply bind_ok in H as (s2 & e' & H & Hrest). destruct (register_comp _ Hmd _ _ _ _ _ _ Hs H) as (Hi2 & Hnone & Hlt & Hac2).
    apply bind_ok in Hrest as (s3 & l & H3 & Hrest). apply bind_ok in Hrest as (s4 & [] & H4 & [Heq ->]%ret_ok). subst e'. simpl.
    split; [|right; exists e; split; [done|]; rewrite live_snoc; unfold live_step; simpl; set_solver].
    eapply place_evolved in H3; [|by apply Hi2|rewrite Hac2; exact Hh|exact Hargs|exact Hroom|by rewrite Hac2|exact H4].
    destruct H3 as [E1 E2 E3 E4]. split; rewrite <- ?Hac2; done.
  - apply no_out_ok in H as [H ->].  pose proof (destroy_ok _ _ _ _ _ H) as (Hd & _). rewrite Hmd in Hd.
    apply (ec_destroy_debug _ _ _ _ _ _ Hec) in Hd as [He _]. unfold destroy_entity in H. apply bind_ok in H as (s1 & x & [-> ->]%get_ok & H).
    apply bind_ok in H as (s1 & has & [H1 ->]%lift_ok & H). apply bind_ok in H as (s2 & [] & H2 & H).
    assert (st_ac s' = st_ac s2) as E by by unfold on_ec, on_tags, on_orders in H; inv1 H. clear H. simpl.
    destruct has; [|inv1 H2; by apply Hsame]. apply bind_ok in H2 as (s3 & l & [Hl0 ->]%lift_ok & H2).
    destruct (cs_row _ _ _ _ _ _ Hs He) as (m & HD & _ & [(p & k & Hlk & Hl & Hhas & _)|(_ & Hhas & _)]); [|congruence].
    rewrite (linked_eia _ _ _ _ Hlk) in Hl0. injection Hl0 as <-.
    apply (swap_internal_tidy c) in H2 as (T1 & T2 & T3 & T4 & T5 & T6 & T7); [|apply Hi|done]. rewrite E, T2. split; [|by left].
    split; rewrite ?E, ?T2; try done; [by left|]. intros P _ HP HL. apply T5; [|done]. intros i ly Hpi Hi0 Hly.
    pose proof Hl as (pg & j & b & ly1 & Hpg & Hpj & Hb & Hly1 & Hk & _)%loc_Some. assert (j = i) as -> by (simpl in Hpi; congruence).
    apply (HP i b); try done. rewrite (Hty _ _ He HD). f_equal. by eapply (loc_tset c); [apply Hi|..].
  - apply no_out_ok in H as [H ->]. unfold add_components in H. apply bind_ok in H as (s1 & x & [-> ->]%get_ok & H).
    apply bind_ok in H as (s1 & b & [Hb ->]%lift_ok & H). pose proof (alive_lt _ Hmd _ _ _ _ _ Hec Hb) as Hlt.
    rewrite (cs_alive _ _ _ _ _ _ Hs Hlt) in Hb. injection Hb as <-. case_bool_decide as He; simpl in H; [|inv1 H; by apply Hsame].
    apply bind_ok in H as (s1 & l & H1 & H). destruct Hargs as (Hne & Hnd & Hok). simpl in Hroom. 
    apply (ensure_evolved _ _ (issued tr) (live tr) D _ _ _ (leaves tr (OAdd e vals))) in H1;
      [|done|done|done|by destruct vals|done|by intros; apply Hh|by intros; apply Hroom|].
    2:{ intros m HD Hns. simpl. rewrite (Hty _ _ He HD). simpl. by rewrite decide_False. }
    apply bind_ok in H as (s2 & x & [-> ->]%get_ok & H). apply bind_ok in H as (s2 & v & [_ ->]%lift_ok & H).
    apply bind_ok in H as (s2 & rs & [_ ->]%lift_ok & H). apply mod_ok in H as ->. simpl. split.
    + apply (evolved_pages c s s1); simpl; try done; [|apply assign_caps].
      by apply (tidy_same c (st_ac s1)); [..|apply H1].
    + right. exists e. split; [done|]. rewrite live_snoc. unfold live_step. simpl. set_solver.
  - apply no_out_ok in H as [H ->]. unfold remove_components in H. apply bind_ok in H as (s1 & x & [-> ->]%get_ok & H).
    apply bind_ok in H as (s1 & b & [Hb ->]%lift_ok & H). destruct b; simpl in H; [|inv1 H; by apply Hsame].
    unfold is_valid_with_archetype in Hb. apply pbind_ok in Hb as (b & Hb & Hhas'). pose proof (alive_lt _ Hmd _ _ _ _ _ Hec Hb) as Hlt.
    rewrite (cs_alive _ _ _ _ _ _ Hs Hlt) in Hb. injection Hb as <-. case_bool_decide as He; [|done].
    destruct (cs_row _ _ _ _ _ _ Hs He) as (m & HD & _ & Hrow). simpl in Hroom. specialize (Hroom m He HD). specialize (Hh m He HD).
    destruct Hrow as [(p & k & Hlk & Hl & Hhas & _)|(Hbit & Hhas & ->)]; rewrite Hhas in Hhas'; [|done].
    destruct (loc_page _ _ _ _ _ _ (ci_ac _ _ _ _ Hi) Hl) as (pg & i & a & ly & _ & Hp2a & Ha & _ & _ & Hwf & _).
    pose proof (loc_dom _ _ _ _ _ _ _ _ (ci_ac _ _ _ _ Hi) Hl Hp2a Ha) as Hdom.
    apply bind_ok in H as (s0 & l0 & [Hl0 ->]%lift_ok & H). rewrite (linked_eia _ _ _ _ Hlk) in Hl0. injection Hl0 as <-.
    apply bind_ok in H as (s0 & i0 & [Hi0 ->]%lift_ok & H). simpl in Hi0. unfold arch_index_by_page, vidx in Hi0. rewrite Hp2a in Hi0. injection Hi0 as <-.
    apply bind_ok in H as (s0 & a0 & [Ha0 ->]%lift_ok & H). unfold vget_unchecked in Ha0. rewrite Ha in Ha0. injection Ha0 as <-.
    destruct (exclude_arch c a T Hwf) as (Hids' & [(_ & Hnew & Hwf')|(_ & Hno)]); apply bind_ok in H as (s0 & a1 & [Ha1 ->]%lift_ok & H); [|congruence].
    rewrite Hnew in Ha1. injection Ha1 as <-. apply bind_ok in H as (s1 & l & H1 & [_ ->]%ret_ok). split.
    + set (b := sort_cts _) in *. clearbody b. assert (∀ t, t ∈ arch_ids b ↔ t ∈ dom m ∖ list_to_set T) as Hb.
      { intros t. rewrite Hids', <- Hdom, elem_of_difference, elem_of_dom, elem_of_list_to_set. done. }
      simpl. rewrite (Hty _ _ He HD). eapply move_evolved; [exact Hi|by rewrite (same_set _ _ Hb)|exact Hwf'| |done|done|done|exact H1]. by apply Hroom.
    + right. exists e. split; [done|]. rewrite live_snoc. unfold live_step. simpl. set_solver.
  - apply no_out_ok in H as [H ->]. unfold set_components in H. apply bind_ok in H as (s1 & x & [-> ->]%get_ok & H).
    apply bind_ok in H as (s1 & rs & [_ ->]%lift_ok & H). destruct rs as [rs|]; [|inv1 H; by apply Hsame]. apply put_ok in H as ->.
    split; [|by left]. apply (evolved_pages c s s); simpl; try done; [by apply evolved_same| |apply assign_caps]. by apply (tidy_same c (st_ac s)).
  - apply no_out_ok in H as [H ->]. unfold query_write in H. apply bind_ok in H as (s1 & x & [-> ->]%get_ok & H).
    apply bind_ok in H as (s1 & it & [_ ->]%lift_ok & H). apply bind_ok in H as (s1 & pgs & [Hw%write_loop_caps ->]%lift_ok & H). apply put_ok in H as ->.
    split; [|by left]. apply (evolved_pages c s s); simpl; try done; [by apply evolved_same|]. by apply (tidy_same c (st_ac s)).
  - apply no_out_ok in H as [H ->]. apply Hsame. unfold add_tag, on_tags in H. by apply zoom_ok in H as (? & _ & ->).
  - apply no_out_ok in H as [H ->]. apply Hsame. unfold remove_tag, on_tags in H. by apply zoom_ok in H as (? & _ & ->).
  - apply no_out_ok in H as [H ->]. apply Hsame. unfold add_order, on_orders in H. by apply zoom_ok in H as (? & _ & ->).
  - apply no_out_ok in H as [H ->]. apply Hsame. unfold add_order_next, on_orders in H. by apply zoom_ok in H as (? & _ & ->).
  - apply no_out_ok in H as [H ->]. apply Hsame. unfold add_order_prev, on_orders in H. by apply zoom_ok in H as (? & _ & ->).
  - apply no_out_ok in H as [H ->]. apply Hsame. unfold remove_order, on_orders in H. by apply zoom_ok in H as (? & _ & ->).
Qed.
End evolve.

(** ** Over histories *)
Lemma used_snoc tr x S : used tr S → used (tr ++ [x]) S.
Proof. intros (tr1 & tr2 & -> & H). exists tr1, (tr2 ++ [x]). by rewrite app_assoc. Qed.
Lemma used_now tr S : occupied tr S → used tr S.
Proof. intros H. exists tr, []. by rewrite app_nil_r. Qed.
Lemma used_snoc_inv tr x S : used (tr ++ [x]) S → used tr S ∨ occupied (tr ++ [x]) S.
Proof.
  intros (tr1 & tr2 & Heq & H). destruct tr2 as [|y tr3 _] using rev_ind.
  - rewrite app_nil_r in Heq. subst. by right.
  - rewrite app_assoc in Heq. apply app_inj_2 in Heq as [-> _]; [|done]. left. by exists tr1, tr3.
Qed.
Lemma first_used_snoc tr x S : first_used tr S → first_used (tr ++ [x]) S.
Proof. intros (tr1 & y & tr2 & -> & H1 & H2). exists tr1, y, (tr2 ++ [x]). by rewrite <- app_assoc. Qed.
Lemma one_abandoned_prefix tr tr' : one_abandoned (tr ++ tr') → one_abandoned tr.
Proof. intros H tr1 tr2 S1 S2 -> H1 H2. eapply (H tr1 (tr2 ++ tr')); by rewrite ?app_assoc. Qed.
Lemma same_capacity_prefix c K tr x : same_capacity c K (tr ++ [x]) → same_capacity c K tr.
Proof. intros H S n Hu. apply H. by apply used_snoc. Qed.
Lemma below_capacity_prefix c tr tr' : below_capacity c (tr ++ tr') → below_capacity c tr.
Proof. intros H tr1 tr2 S n es ->. apply (H tr1 (tr2 ++ tr')). by rewrite app_assoc. Qed.
Definition subject (x : op * option entity) : option entity :=
  match x.1 with OCreate | OCreateWith _ => x.2 | ODestroy e | OAdd e _ | ORemove e _ => Some e | _ => None end.
Lemma types_change tr x e : subject x ≠ Some e → types (tr ++ [x]) e = types tr e.
Proof.
  intros H. unfold types. rewrite foldl_app. simpl. destruct x as [o r]. simpl in *.
  unfold subject in H. simpl in H.
  destruct o; simpl in *; try done; case_decide; try done; subst; done.
Qed.
Lemma types_created tr e S : types tr e = Some S → S ≠ ∅ → used tr S.
Proof. intros H Hne. apply used_now. split; [done|]. by exists e. Qed.
Lemma first_used_same tr S1 S2 : first_used tr S1 → first_used tr S2 → S1 = S2.
Proof.
  intros (tr1 & x & tr2 & -> & H1 & Ho1) (tr1' & x' & tr2' & Heq & H2 & Ho2).
  assert (tr1 ++ [x] = tr1' ++ [x']) as Hsame.
  { assert (∀ (t1 t2 : trace) y k, t1 ++ y :: t2 = k → ∀ t1' y' t2', k = t1' ++ y' :: t2' → (length t1 < length t1')%nat →
      ∃ t3, t1' = (t1 ++ [y]) ++ t3) as Hpre.
    { clear. intros t1 t2 y k <- t1' y' t2'. revert t1'. induction t1 as [|z t1 IH]; intros [|z' t1'] Heq Hlen; simpl in *; try lia; injection Heq as -> Heq.
      - by exists t1'.
      - destruct (IH _ Heq) as [t3 ->]; [lia|]. by exists t3. }
    destruct (Nat.lt_trichotomy (length tr1) (length tr1')) as [Hlt|[He|Hgt]].
    - destruct (Hpre _ _ _ _ eq_refl _ _ _ Heq Hlt) as [t3 ->]. destruct (H2 S1). by exists (tr1 ++ [x]), t3.
    - apply app_inj_1 in Heq as [-> [= -> _]]; done.
    - destruct (Hpre _ _ _ _ eq_refl _ _ _ (eq_sym Heq) Hgt) as [t3 ->]. destruct (H1 S2). by exists (tr1' ++ [x']), t3. }
  rewrite <- Hsame in Ho2. destruct Ho1 as (Hn1 & e1 & He1), Ho2 as (Hn2 & e2 & He2).
  assert (∀ e S, types (tr1 ++ [x]) e = Some S → S ≠ ∅ → subject x = Some e) as Hsub.
  { intros e S He Hn. destruct (decide (subject x = Some e)) as [|Hne]; [done|]. rewrite types_change in He by done.
    destruct (H1 S). by eapply types_created. }
  pose proof (Hsub _ _ He1 Hn1) as E1. pose proof (Hsub _ _ He2 Hn2) as E2. rewrite E1 in E2. injection E2 as ->. congruence.
Qed.
Definition occ_list (tr : trace) : list (gset tid) :=
  omap (λ e, match types tr e with Some X => if decide (X = ∅) then None else Some X | None => None end) (issued tr).
Fixpoint used_list (done rest : trace) : list (gset tid) :=
  occ_list done ++ match rest with [] => [] | x :: rest => used_list (done ++ [x]) rest end.
Lemma types_issued tr e S : types tr e = Some S → e ∈ issued tr.
Proof.
  revert S. induction tr as [|[o r] tr IH] using rev_ind; intros S; [done|]. unfold types, issued. rewrite foldl_app, omap_app, elem_of_app. simpl.
  assert ((types tr e = Some S ∨ (∃ S', types tr e = Some S') ∨ r = Some e) → e ∈ omap snd tr ∨ e ∈ match r with Some z => [z] | None => [] end) as Hgo.
  { intros [H|[[S' H]| ->]]; [left; by eapply IH..|]. right. by left. }
  fold (types tr e). intros H. apply Hgo. destruct o; simpl in H; try case_decide; subst; try done; eauto.
  all: apply fmap_Some in H as (S' & ? & _); eauto.
Qed.
Lemma occ_list_spec tr S : occupied tr S ↔ S ∈ occ_list tr.
Proof.
  unfold occupied, occ_list. rewrite elem_of_list_omap. split.
  - intros (Hne & e & He). exists e. split; [by eapply types_issued|]. rewrite He. by rewrite decide_False.
  - intros (e & _ & He). destruct (types tr e) as [S'|] eqn:E; [|done]. case_decide; [done|]. injection He as ->. eauto.
Qed.
Lemma used_list_spec rest : ∀ done S, S ∈ used_list done rest ↔ ∃ t1 t2, rest = t1 ++ t2 ∧ occupied (done ++ t1) S.
Proof.
  induction rest as [|x rest IH]; intros done S; simpl; rewrite elem_of_app, <- occ_list_spec.
  - split.
    + intros [H|H]; [|by apply elem_of_nil in H]. exists [], []. split; [done|by rewrite app_nil_r].
    + intros (t1 & t2 & Heq & H). symmetry in Heq. apply app_eq_nil in Heq as [-> ->]. rewrite app_nil_r in H. by left.
  - rewrite IH. split.
    + intros [H|(t1 & t2 & -> & H)]; [exists [], (x :: rest); split; [done|by rewrite app_nil_r]|]. exists (x :: t1), t2. split; [done|]. by rewrite <- app_assoc in H.
    + intros ([|y t1] & t2 & Heq & H); [left; by rewrite app_nil_r in H|]. injection Heq as <- ->. right. exists t1, t2. split; [done|]. by rewrite <- app_assoc.
Qed.
Lemma used_list_used tr S : used tr S ↔ S ∈ used_list [] tr.
Proof. rewrite used_list_spec. unfold used. naive_solver. Qed.
Lemma used_list_first tr S l : used_list [] tr = S :: l → first_used tr S.
Proof.
  assert (∀ rest done, (∀ S', ¬ used done S') → used_list done rest = S :: l → first_used (done ++ rest) S) as Hgo.
  { induction rest as [|x rest IH]; intros done Hno; simpl.
    - destruct (occ_list done) as [|S' k] eqn:E; [done|]. intros _. destruct (Hno S'). apply used_now, occ_list_spec. rewrite E. by left.
    - destruct (occ_list done) as [|S' k] eqn:E; [|intros _; destruct (Hno S'); apply used_now, occ_list_spec; rewrite E; by left].
      simpl. intros H. destruct (occ_list (done ++ [x])) as [|S' k] eqn:E2.
      + replace (done ++ x :: rest) with ((done ++ [x]) ++ rest) by by rewrite <- app_assoc. apply IH; [|done].
        intros S' [?|Ho%occ_list_spec]%used_snoc_inv; [by eapply Hno|]. rewrite E2 in Ho. by apply elem_of_nil in Ho.
      + exists done, x, rest. split; [done|]. split; [done|]. apply occ_list_spec. rewrite E2.
        assert (S = S') as ->; [|by left]. destruct rest; simpl in H; rewrite E2 in H; by injection H. }
  apply (Hgo tr []). intros S' (t1 & t2 & Heq & _ & e & He). symmetry in Heq. apply app_eq_nil in Heq as [-> _]. done.
Qed.
Lemma used_list_head tr S : head (used_list [] tr) = Some S → first_used tr S.
Proof. destruct (used_list [] tr) as [|S' l] eqn:E; [done|]. intros [= ->]. by eapply used_list_first. Qed.
Lemma used_first tr S : used tr S → ∃ S0, first_used tr S0.
Proof.
  intros Hu%used_list_used. destruct (used_list [] tr) as [|S0 l] eqn:E; [by apply elem_of_nil in Hu|]. exists S0. by eapply used_list_first.
Qed.
Lemma leaves_occupied tr o S : leaves tr o = Some S → S ≠ ∅ → occupied tr S.
Proof.
  intros H Hne. split; [done|]. destruct o as [|a|e|e vals|e T|e vals|q f|t e|t e|g e|g e to|g e to|g e]; simpl in H; try done; try by exists e.
  exists e. destruct (types tr e) as [X|]; [|done]. simpl in H. case_decide; [done|]. by injection H as ->.
Qed.
Lemma vacated_snoc tr x S : vacated tr S → vacated (tr ++ [x]) S.
Proof.
  intros [(tr1 & o & r & tr2 & -> & Hl) Hf]. split.
  - exists tr1, o, r, (tr2 ++ [x]). by rewrite <- app_assoc.
  - intros Hf'. assert (S ≠ ∅) as Hne. { destruct Hf' as (? & ? & ? & _ & _ & [? _]). done. }
    assert (used (tr1 ++ (o, r) :: tr2) S) as Hu. { exists tr1, ((o, r) :: tr2). split; [done|]. by eapply leaves_occupied. }
    destruct (used_first _ _ Hu) as [S0 Hf0]. pose proof (first_used_same _ _ _ (first_used_snoc _ x _ Hf0) Hf') as ->. done.
Qed.
Lemma page_room_snoc c tr x v : page_room c tr v → page_room c (tr ++ [x]) v.
Proof. induction 1 as [|S n v Hv Hh _ IH]; [constructor|]. econstructor; [by apply vacated_snoc|done|done]. Qed.
Lemma tset_inj a b : StronglySorted N.lt (arch_ids a) → StronglySorted N.lt (arch_ids b) → tset a = tset b → arch_ids a = arch_ids b.
Proof.
  intros Ha Hb H. apply incr_ext; [done|done|]. intros t. assert (t ∈ tset a ↔ t ∈ tset b) as Ht by by rewrite H.
  unfold tset in Ht. by rewrite !elem_of_list_to_set in Ht.
Qed.

Section usage.
Context (c : cfg) (Hc : cfg_ok c) (Hmd : c_mode c = Debug).

Lemma arch_wf_at s i a : ac_inv c s → ac_archs s !! i = Some a → arch_wf c a.
Proof using.
  intros Hi Ha. destruct (lookup_lt_is_Some_2 (ac_layouts s) i) as [ly Hly].
  { rewrite (ac_lay_len _ _ Hi). by eapply lookup_lt_Some. }
  by destruct (ac_arch_ok _ _ Hi _ _ _ Ha Hly).
Qed.
Lemma row_types tr s D e p i a : comp_state c s (issued tr) (live tr) D → (∀ e, comps tr e (cview (live tr) D e)) → e ∈ live tr →
  bit (st_has s) (e_id e) = true → st_page s !! N.to_nat (e_id e) = Some (Some p) → ac_p2a (st_ac s) !! p = Some i →
  ac_archs (st_ac s) !! i = Some a → occupied tr (tset a).
Proof using.
  intros Hs Hcs He Hb Hp Hpi Ha. destruct (cs_row _ _ _ _ _ _ Hs He) as (m & HD & _ & [(p' & k & Hlk & Hl & _ & Hm)|(Hf & _)]); [|congruence].
  assert (p' = p) as -> by (destruct Hlk as (_ & ? & _); congruence).
  pose proof (loc_tset _ _ _ _ _ _ _ _ (ci_ac _ _ _ _ (cs_inv _ _ _ _ _ Hs)) Hl Hpi Ha) as Hd. split.
  - rewrite <- Hd. intros Hn. apply Hm. by apply dom_empty_inv_L in Hn.
  - exists e. specialize (Hcs e). unfold cview in Hcs. rewrite decide_True in Hcs by done. rewrite HD in Hcs.
    rewrite <- (comps_types _ _ _ Hcs). simpl. by rewrite Hd.
Qed.
Lemma occupied_row tr s D S : comp_state c s (issued tr) (live tr) D → (∀ e, comps tr e (cview (live tr) D e)) → occupied tr S →
  ∃ i a p ps, ac_archs (st_ac s) !! i = Some a ∧ tset a = S ∧ ac_pages_of (st_ac s) !! i = Some ps ∧ p ∈ ps.
Proof using.
  intros Hs Hcs (Hne & e & He). pose proof (comps_types _ _ _ (Hcs e)) as Ht. rewrite He in Ht. unfold cview in Ht.
  destruct (decide (e ∈ live tr)) as [Hl|]; [|done]. destruct (cs_row _ _ _ _ _ _ Hs Hl) as (m & HD & _ & Hrow). rewrite HD in Ht. injection Ht as Ht.
  destruct Hrow as [(p & k & Hlk & Hloc & _ & Hm)|(_ & _ & ->)]; [|by rewrite dom_empty_L in Ht].
  pose proof (ci_ac _ _ _ _ (cs_inv _ _ _ _ _ Hs)) as Hi. pose proof Hloc as (pg & i & a & ly & Hpg & Hpi & Ha & Hly & Hk & _)%loc_Some.
  destruct (ac_used _ _ Hi _ _ Hpg) as (i' & ps & H1 & H2 & H3); [by intros Hn; rewrite Hn in Hk|]. assert (i' = i) as -> by congruence.
  exists i, a, p, ps. split_and!; try done. rewrite <- Ht. symmetry. by eapply (loc_tset c).
Qed.

Record usage_inv (tr : trace) (s : store) : Prop := UsageInv {
  u_tidy : tidy c (st_ac s);
  u_used : ∀ i a, ac_archs (st_ac s) !! i = Some a → used tr (tset a);
  u_first : ∀ a, ac_archs (st_ac s) !! 0%nat = Some a → first_used tr (tset a);
  u_none : ac_archs (st_ac s) = [] → ∀ S, ¬ used tr S;
  u_line : lineage c (page_room c tr) (st_ac s);
}.

Lemma hrun_usage cap tr s : hrun c cap tr s → usage_inv tr s.
Proof using Hc Hmd.
  induction 1 as [s H|tr s o s' r Hr IH Hh Ha Hro H].
  - unfold store_with_capacity in H. apply pbind_ok in H as (u & _ & [= <-]). split; simpl; try done.
    + split; simpl; try done; [constructor|by intros ?%elem_of_nil].
    + intros _ S (tr1 & tr2 & Heq & _ & e & He). symmetry in Heq. apply app_eq_nil in Heq as [-> _]. done.
    + split; simpl.
      * intros p pg _ Hpg. change (replicate 5 page_new !! p = Some pg) in Hpg. apply lookup_replicate in Hpg as [-> _]. constructor.
      * intros i ps p pg ly Hps. by rewrite lookup_nil in Hps.
  - destruct (hrun_state c Hc Hmd _ _ _ Hr) as (D & Hs & Hcs).
    destruct (step_comp c Hc Hmd _ _ _ _ _ _ Hs (healthy_at _ _ _ _ _ Hh Hcs) Ha (room_room_at _ _ _ _ Hro Hcs) H) as (D' & Hs' & Hst).
    assert (∀ e, comps (tr ++ [(o, r)]) e (cview (live (tr ++ [(o, r)])) D' e)) as Hcs' by (intros e; econstructor; [apply Hcs|apply Hst]).
    destruct IH as [U1 U2 U3 U4 U5].
    destruct (step_evolved c Hc Hmd _ _ _ _ _ _ Hs Hcs (healthy_at _ _ _ _ _ Hh Hcs) U1 Ha (room_room_at _ _ _ _ Hro Hcs) H) as ([E1 E2 E3 E4] & Hlive).
    assert (∀ i a, ac_archs (st_ac s') !! i = Some a → ac_archs (st_ac s) !! i = Some a ∨ occupied (tr ++ [(o, r)]) (tset a)) as Hnew.
    { intros i a Hi. destruct Hlive as [Heq|(e & He & Hl)]; [left; congruence|].
      destruct (E2 _ _ Hi) as [?|(e' & p & He' & Hb & Hp & Hpi)]; [by left|right]. rewrite He in He'. injection He' as <-.
      eapply row_types; [exact Hs'|done|exact Hl|done|done|done|done]. }
    assert (∀ i a, ac_archs (st_ac s') !! i = Some a → used (tr ++ [(o, r)]) (tset a)) as Hused.
    { intros i a Hi. destruct (Hnew _ _ Hi) as [Hold|?]; [|by apply used_now]. apply used_snoc. by eapply U2. }
    split; [done|done| | |].
    + intros a Hi. destruct (ac_archs (st_ac s)) as [|b l] eqn:El.
      * destruct (Hnew _ _ Hi) as [?|Hocc]; [done|]. exists tr, (o, r), []. split; [done|]. split; [by apply U4|done].
      * apply first_used_snoc, U3. assert (ac_archs (st_ac s') !! 0%nat = Some b) as Hb by by apply E3. simpl. congruence.
    + intros Hnil S [Hu|Hocc]%used_snoc_inv.
      * eapply U4; [|exact Hu]. destruct (ac_archs (st_ac s)) as [|b l] eqn:El; [done|]. assert (ac_archs (st_ac s') !! 0%nat = Some b) as Hb by by apply E3.
        by rewrite Hnil in Hb.
      * destruct (occupied_row _ _ _ _ Hs' Hcs' Hocc) as (i & a & p & ps & Hi & _). rewrite Hnil in Hi. done.
    + apply E4; [constructor| |eapply lineage_mono; [intros v; apply page_room_snoc|done]].
      pose proof (ci_ac _ _ _ _ (cs_inv _ _ _ _ _ Hs)) as Hi.
      intros i a ly Hlv Hai Hi0 Hly v Hv. apply (page_room_left _ _ (tset a)); [|exists a, ly; split_and!; [by eapply arch_wf_at|done|by eapply (td_lay _ _ U1)|done]|done].
      split; [by exists tr, o, r, []|]. intros Hf. destruct (ac_archs (st_ac s) !! 0%nat) as [b|] eqn:E0.
      * pose proof (first_used_same _ _ _ (first_used_snoc _ _ _ (U3 _ eq_refl)) Hf) as Heq. apply Hi0. eapply (td_dist _ _ U1); [exact Hai|exact E0|].
        symmetry. apply tset_inj; [eapply (arch_wf_at _ _ _ Hi E0)|eapply (arch_wf_at _ _ _ Hi Hai)|done].
      * destruct (ac_archs (st_ac s)); [by rewrite lookup_nil in Hai|done].
Qed.

(** Entries on the list of abandoned archetypes are abandoned sets of types. *)
Lemma free_abandoned cap tr s i : hrun c cap tr s → i ∈ ac_free_archs (st_ac s) → ∃ a, ac_archs (st_ac s) !! i = Some a ∧ abandoned tr (tset a).
Proof using Hc Hmd.
  intros Hr Hin. destruct (hrun_usage _ _ _ Hr) as [[T1 T2 T3 T4] U2 U3 U4 _].
  destruct (hrun_state c Hc Hmd _ _ _ Hr) as (D & Hs & Hcs). pose proof (ci_ac _ _ _ _ (cs_inv _ _ _ _ _ Hs)) as Hi.
  pose proof (ac_farch_ok _ _ Hi _ Hin) as Hnil.
  destruct (lookup_lt_is_Some_2 (ac_archs (st_ac s)) i) as [a Ha]. { rewrite <- (ac_pof_len _ _ Hi). by eapply lookup_lt_Some. }
  assert (∀ j b, ac_archs (st_ac s) !! j = Some b → tset b = tset a → j = i) as Huniq.
  { intros j b Hb Heq. eapply T3; [exact Hb|exact Ha|]. apply tset_inj; [eapply (arch_wf_at _ _ _ Hi Hb)|eapply (arch_wf_at _ _ _ Hi Ha)|done]. }
  exists a. split; [done|]. split; [by eapply U2|]. split.
  - intros Hocc. destruct (occupied_row _ _ _ _ Hs Hcs Hocc) as (j & b & p & ps & Hb & Heq & Hps & Hp).
    rewrite (Huniq _ _ Hb Heq), Hnil in Hps. injection Hps as <-. by apply elem_of_nil in Hp.
  - intros Hf. destruct (ac_archs (st_ac s) !! 0%nat) as [b|] eqn:E0.
    + pose proof (U3 _ eq_refl) as Hb. assert (tset b = tset a) as Heq by (eapply first_used_same; done). rewrite (Huniq _ _ E0 Heq) in T2. done.
    + destruct (ac_archs (st_ac s)); [by rewrite lookup_nil in Ha|done].
Qed.
(** At most one entry on the list. *)
Lemma usage_sorted cap tr s : hrun c cap tr s → (∀ S1 S2, abandoned tr S1 → abandoned tr S2 → S1 = S2) → sorted_free (st_ac s).
Proof using Hc Hmd.
  intros Hr Hone. destruct (hrun_usage _ _ _ Hr) as [[T1 T2 T3 T4] _ _ _ _].
  destruct (hrun_state c Hc Hmd _ _ _ Hr) as (D & Hs & Hcs). pose proof (ci_ac _ _ _ _ (cs_inv _ _ _ _ _ Hs)) as Hi.
  pose proof (λ i, free_abandoned _ _ _ i Hr) as Hab.
  unfold sorted_free. destruct (ac_free_archs (st_ac s)) as [|i [|j l]]; simpl; [constructor|repeat constructor|].
  exfalso. destruct (Hab i) as (a & Ha & Haa); [by left|]. destruct (Hab j) as (b & Hb & Hbb); [by right; left|].
  assert (i = j) as ->.
  { eapply T3; [exact Ha|exact Hb|]. apply tset_inj; [eapply (arch_wf_at _ _ _ Hi Ha)|eapply (arch_wf_at _ _ _ Hi Hb)|by apply Hone]. }
  apply NoDup_cons in T1 as [Hni _]. apply Hni. by left.
Qed.
Lemma sorted_found s i : sorted_free s → found_right c s i.
Proof using Hc.
  clear Hmd. intros Hso. destruct Hc as [Hbs _ _]. unfold found_right. destruct (search_cases _ _ (N.of_nat i) Hbs Hso) as [(n & -> & Hn)|(n & -> & _ & Hn & _)].
  - rewrite list_lookup_fmap in Hn. apply fmap_Some in Hn as (j & Hj & Heq). rewrite Hj. f_equal. lia.
  - intros Hin. apply Hn. by apply elem_of_list_fmap_1.
Qed.
Lemma usage_found cap tr s i a : hrun c cap tr s → search_honest (c_bs c) → ac_archs (st_ac s) !! i = Some a →
  (abandoned tr (tset a) → ∀ S', abandoned tr S' → S' = tset a) → found_right c (st_ac s) i.
Proof using Hc Hmd.
  intros Hr Hho Ha Hab. destruct (decide (i ∈ ac_free_archs (st_ac s))) as [Hin|Hin].
  - apply sorted_found. eapply usage_sorted; [done|]. destruct (free_abandoned _ _ _ _ Hr Hin) as (b & Hb & Hbb). assert (b = a) as -> by congruence.
    intros S1 S2 H1 H2. by rewrite (Hab Hbb _ H1), (Hab Hbb _ H2).
  - unfold found_right. destruct (c_bs c _ _) as [n|n] eqn:E; [|done]. apply Hho in E. rewrite list_lookup_fmap in E.
    apply fmap_Some in E as (j & Hj & Heq). rewrite Hj. f_equal. lia.
Qed.

Lemma exists_list {A B} (f : A → B) (P : A → Prop) (l : list B) : (∀ y, y ∈ l → ∃ x, P x ∧ f x = y) → ∃ k, f <$> k = l ∧ Forall P k.
Proof using.
  clear. induction l as [|y l IH]; intros H; [by exists []|]. destruct (H y) as (x & Hx & <-); [by left|].
  destruct IH as (k & <- & Hk); [intros; apply H; by right|]. exists (x :: k). split; [done|]. by constructor.
Qed.
(** Pages that are full of rows have no room for more ids. *)
Lemma usage_room cap tr s i a : hrun c cap tr s → ac_archs (st_ac s) !! i = Some a →
  (∀ n v, page_holds c (tset a) n → crowded tr (tset a) n → page_room c tr v → reserve_vec c v n = n) → roomy_at (st_ac s) i.
Proof using Hc Hmd.
  intros Hr Ha Hcond. destruct (hrun_usage _ _ _ Hr) as [[T1 T2 T3 T4] _ _ _ [_ UL]].
  destruct (hrun_state c Hc Hmd _ _ _ Hr) as (D & Hs & Hcs). pose proof (cs_inv _ _ _ _ _ Hs) as Hci. pose proof (ci_ac _ _ _ _ Hci) as Hi.
  intros ps p pg ly Hps Hp Hpg Hly Hlt. pose proof (ac_pof_p2a _ _ Hi _ _ _ Hps Hp) as Hpi.
  assert (∀ k id, pg_ids pg !! k = Some id → ∃ m, loc (st_ac s) p k = Some (id, m)) as Hloc.
  { intros k id Hk. eexists. apply loc_Some. exists pg, i, a, ly. split_and!; done. }
  assert (NoDup (pg_ids pg)) as Hnd.
  { apply NoDup_alt. intros k k' id H1 H2. destruct (Hloc _ _ H1) as [m Hm], (Hloc _ _ H2) as [m' Hm'].
    destruct (ci_rows _ _ _ _ Hci _ _ _ _ Hm) as [_ L1]; [done|]. destruct (ci_rows _ _ _ _ Hci _ _ _ _ Hm') as [_ L2]; [done|].
    by destruct (linked_fun _ _ _ _ _ _ L1 L2). }
  destruct (exists_list e_id (λ e, types tr e = Some (tset a)) (pg_ids pg)) as (es & Hes & Hall).
  { intros id (k & Hk)%elem_of_list_lookup. destruct (Hloc _ _ Hk) as [m Hm]. destruct (ci_rows _ _ _ _ Hci _ _ _ _ Hm) as [HD _]; [done|].
    destruct (proj1 (cs_dom _ _ _ _ _ Hs id)) as (e & He & <-); [by exists m|]. exists e. split; [|done].
    specialize (Hcs e). unfold cview in Hcs. rewrite decide_True in Hcs by done. rewrite HD in Hcs. rewrite <- (comps_types _ _ _ Hcs). simpl.
    f_equal. by eapply (loc_tset c). }
  destruct (N.lt_ge_cases (N.of_nat (length (pg_ids pg))) (ly_cap ly)) as [?|Hge]; [done|].
  assert (page_holds c (tset a) (ly_cap ly)) as Hh. { exists a, ly. split_and!; [by eapply arch_wf_at|done| |done]. by eapply T4. }
  pose proof (ac_arch_ok _ _ Hi _ _ _ Ha Hly) as (_ & _ & Hcap).
  assert (crowded tr (tset a) (ly_cap ly)) as Hcr.
  { exists es. rewrite <- Hes, fmap_length in Hge. split_and!; [|by apply (NoDup_fmap_1 e_id); rewrite Hes|done|done].
    intros ->. simpl in Hge. lia. }
  destruct (UL _ _ _ _ _ Hps Hp Hpg Hly) as (v & Hv & Heq). rewrite (Hcond _ _ Hh Hcr Hv) in Heq. lia.
Qed.

(** A careful history is healthy at all times. *)
Lemma careful_prefix tr x : careful c (tr ++ [x]) → careful c tr.
Proof using. clear. intros H tr1 o r tr2 ->. eapply (H tr1 o r (tr2 ++ [x])). by rewrite <- app_assoc. Qed.
Lemma careful_health cap tr s o : hrun c cap tr s → search_honest (c_bs c) → careful_call c tr o → healthy c (st_ac s) (asks tr o).
Proof using Hc Hmd.
  intros Hr Hho Hca S HS i a Ha Hset. destruct (Hca S HS) as [C1 C2]. fold (tset a) in Hset. subst S.
  split; [by eapply usage_found|by eapply usage_room].
Qed.
Lemma careful_healthy cap tr s : grun (λ _ _, True) c cap tr s → search_honest (c_bs c) → careful c tr → hrun c cap tr s.
Proof using Hc Hmd.
  intros Hr Hho Hca. induction Hr as [s H|tr s o s' r Hr IH _ Ha Hro H]; [by constructor|].
  specialize (IH (careful_prefix _ _ Hca)). econstructor; [done| |done|done|done].
  eapply careful_health; [done|done|]. by apply (Hca tr o r []).
Qed.

(** Simpler conditions, on all the sets of types of a history. *)
Definition capacity_ok (tr : trace) : Prop := (∃ K, c_grow c 0 K = K ∧ same_capacity c K tr) ∨ below_capacity c tr.
Lemma vacated_used tr S : vacated tr S → S ≠ ∅ → used tr S.
Proof using.
  clear. intros [(tr1 & o & r & tr2 & -> & Hl) _] Hne. exists tr1, ((o, r) :: tr2). split; [done|]. by eapply leaves_occupied.
Qed.
Lemma holds_nonempty S n : page_holds c S n → S ≠ ∅.
Proof using. clear. intros (a & ly & (_ & Hn & _) & <- & _). destruct a as [|x a]; [done|]. simpl. set_solver. Qed.
Lemma capacity_room tr S n v : capacity_ok tr → page_holds c S n → crowded tr S n → page_room c tr v → reserve_vec c v n = n.
Proof using.
  clear. intros Hcap Hh (es & Hne & Hnd & Hall & Hle) Hv. pose proof (holds_nonempty _ _ Hh) as HS. destruct Hcap as [(K & HK & Hsame)|Hbelow].
  - assert (n = K) as ->.
    { apply (Hsame S); [|done]. apply used_now. split; [done|]. destruct es as [|e es]; [done|]. exists e. by inversion Hall. }
    assert (v = 0 ∨ v = K) as Hv'.
    { induction Hv as [|S' n' v Hvac Hh' Hv IH]; [by left|]. assert (n' = K) as ->.
      { apply (Hsame S'); [|done]. apply vacated_used; [done|by eapply holds_nonempty]. }
      unfold reserve_vec. destruct IH as [->| ->]; [|rewrite N.ltb_irrefl; by right]. case_match; [by right|by left]. }
    unfold reserve_vec. destruct Hv' as [->| ->]; [|by rewrite N.ltb_irrefl]. destruct (N.ltb_spec 0 K); [done|lia].
  - assert (N.of_nat (length es) < n); [|lia]. apply (Hbelow tr [] S n es); try done. by rewrite app_nil_r.
Qed.
Lemma usage_healthy cap tr s : grun (λ _ _, True) c cap tr s → one_abandoned tr → capacity_ok tr → hrun c cap tr s ∧ ∀ w, healthy c (st_ac s) w.
Proof using Hc Hmd.
  assert (∀ cap tr s, hrun c cap tr s → one_abandoned tr → capacity_ok tr → ∀ w, healthy c (st_ac s) w) as Hend.
  { clear cap tr s. intros cap tr s Hr Hone Hcap w S _ i a Ha Hset. split.
    - apply sorted_found. eapply usage_sorted; [done|]. intros S1 S2. apply (Hone tr []). by rewrite app_nil_r.
    - eapply usage_room; [done|done|]. intros n v. by apply capacity_room. }
  intros Hr Hone Hcap. cut (hrun c cap tr s); [intros Hh; split; [done|]; by eapply Hend|].
  induction Hr as [s H|tr s o s' r Hr IH _ Ha Hro H]; [by constructor|].
  pose proof (one_abandoned_prefix _ _ Hone) as Hone'.
  assert (capacity_ok tr) as Hcap'.
  { destruct Hcap as [(K & HK & Hsame)|Hbelow]; [left; exists K; split; [done|]; by eapply same_capacity_prefix|right; by eapply below_capacity_prefix]. }
  specialize (IH Hone' Hcap'). econstructor; [done|by eapply Hend|done|done|done].
Qed.
(** They are careful. *)
Lemma usage_careful tr : one_abandoned tr → capacity_ok tr → careful c tr.
Proof using.
  clear. intros Hone Hcap tr1 o r tr2 -> S HS. split.
  - intros Ha S' Ha'. by apply (Hone tr1 ((o, r) :: tr2) S' S).
  - intros n v. apply capacity_room. destruct Hcap as [(K & HK & Hsame)|Hbelow].
    + left. exists K. split; [done|]. intros S' n' (t1 & t2 & -> & Ho). apply Hsame. exists t1, (t2 ++ (o, r) :: tr2). by rewrite <- app_assoc.
    + right. by eapply below_capacity_prefix.
Qed.
End usage.

Lemma grun_hrun c cap tr s : grun (healthy c) c cap tr s ↔ hrun c cap tr s.
Proof. split; induction 1; econstructor; eauto. Qed.
Lemma healthy_others : others_kept healthy.
Proof.
  intros c cap tr s o s' r e T v Hc Hmd Hr%grun_hrun Hh Ha Hro H He Hcon HT Hv.
  assert (e_id e < entities_capacity s) as Hlt by by apply (live_ids _ _ Hmd _ _ (hrun_run _ _ _ _ Hr)).
  destruct (values_persist c Hc Hmd _ _ _ _ Hr Hlt) as (x & _ & Hx & _).
  pose proof (others_untouched c Hc Hmd _ _ _ _ _ _ _ _ Hr Hh Ha Hro H He Hcon Hx) as Hx'.
  destruct Hx as (_ & Hx & _), Hx' as (_ & Hx' & _). rewrite (Hx _ HT) in Hv. by rewrite (Hx' _ HT).
Qed.

(** ** Concrete histories that meet the conditions *)
Definition abandonedb (tr : trace) : list (gset tid) :=
  let u := used_list [] tr in
  let first := hd ∅ u in
  filter (λ S, S ≠ first ∧ S ∉ occ_list tr) u.
Lemma abandonedb_spec tr S : abandoned tr S → S ∈ abandonedb tr.
Proof.
  intros (Hu & Ho & Hf). unfold abandonedb. rewrite elem_of_list_filter. rewrite <- used_list_used. rewrite occ_list_spec in Ho.
  split_and!; [|done|done]. intros ->. apply Hf. apply used_list_used in Hu. destruct (used_list [] tr) as [|S l] eqn:E; [by apply elem_of_nil in Hu|].
  by eapply used_list_first.
Qed.
Lemma abandonedb_in tr S : S ∈ abandonedb tr → abandoned tr S.
Proof.
  unfold abandonedb. rewrite elem_of_list_filter. intros ((Hne & Hno) & Hu). split_and!; [by apply used_list_used|by rewrite occ_list_spec|].
  intros Hf. apply Hne. destruct (used_list [] tr) as [|X l] eqn:E; [by apply elem_of_nil in Hu|]. apply (first_used_same tr); [done|].
  apply used_list_head. by rewrite E.
Qed.
Definition all_eqb (l : list (gset tid)) : bool := match l with [] => true | x :: l => forallb (λ y, bool_decide (y = x)) l end.
Fixpoint one_abandonedb (done rest : trace) : bool :=
  all_eqb (abandonedb done) && match rest with [] => true | x :: rest => one_abandonedb (done ++ [x]) rest end.
Lemma one_abandonedb_ok tr : one_abandonedb [] tr = true → one_abandoned tr.
Proof.
  assert (∀ rest done, one_abandonedb done rest = true → ∀ t1 t2, rest = t1 ++ t2 → all_eqb (abandonedb (done ++ t1)) = true) as Hgo.
  { induction rest as [|x rest IH]; intros done; simpl; intros [H1 H2]%andb_prop [|y t1] t2 Heq; try done; try (by rewrite app_nil_r); try discriminate Heq.
    injection Heq as <- ->. replace (done ++ x :: t1) with ((done ++ [x]) ++ t1) by by rewrite <- app_assoc. by eapply IH. }
  intros H tr1 tr2 S1 S2 Heq H1%abandonedb_spec H2%abandonedb_spec. specialize (Hgo _ _ H _ _ Heq). simpl in Hgo.
  destruct (abandonedb tr1) as [|S l]; [by apply elem_of_nil in H1|]. simpl in Hgo. rewrite forallb_forall in Hgo.
  assert (∀ S', S' ∈ S :: l → S' = S) as Hall.
  { intros S' [->|Hin]%elem_of_cons; [done|]. apply elem_of_list_In in Hin. by apply Hgo, bool_decide_eq_true in Hin. }
  by rewrite (Hall _ H1), (Hall _ H2).
Qed.
Definition holdsb (c : cfg) (S : gset tid) : option N := match layout_new (c_mode c) (arch_of c S) with POk ly => Some (ly_cap ly) | _ => None end.
Lemma holdsb_ok c S n : page_holds c S n → holdsb c S = Some n.
Proof.
  intros (a & ly & Hwf & <- & Hly & <-). unfold holdsb.
  assert (a = arch_of c (list_to_set (arch_ids a))) as <-; [|by rewrite Hly].
  apply arch_of_eq; [done|]. intros t. by rewrite elem_of_list_to_set.
Qed.
Definition same_capacityb (c : cfg) (K : N) (tr : trace) : bool :=
  forallb (λ S, match holdsb c S with Some n => n =? K | None => true end) (used_list [] tr).
Lemma same_capacityb_ok c K tr : same_capacityb c K tr = true → same_capacity c K tr.
Proof.
  unfold same_capacityb. rewrite forallb_forall. intros H S n Hu%used_list_used Hh%holdsb_ok. apply elem_of_list_In in Hu. apply H in Hu.
  rewrite Hh in Hu. by apply N.eqb_eq.
Qed.
Definition population (tr : trace) (S : gset tid) : list entity := filter (λ e, types tr e = Some S) (remove_dups (issued tr)).
Definition below_now (c : cfg) (tr : trace) : bool :=
  forallb (λ S, match holdsb c S with Some n => N.of_nat (length (population tr S)) <? n | None => true end) (occ_list tr).
Fixpoint below_capacityb (c : cfg) (done rest : trace) : bool :=
  below_now c done && match rest with [] => true | x :: rest => below_capacityb c (done ++ [x]) rest end.
Lemma below_capacityb_ok c tr : below_capacityb c [] tr = true → below_capacity c tr.
Proof.
  assert (∀ rest done, below_capacityb c done rest = true → ∀ t1 t2, rest = t1 ++ t2 → below_now c (done ++ t1) = true) as Hgo.
  { induction rest as [|x rest IH]; intros done; simpl; intros [H1 H2]%andb_prop [|y t1] t2 Heq; try done; try (by rewrite app_nil_r); try discriminate Heq.
    injection Heq as <- ->. replace (done ++ x :: t1) with ((done ++ [x]) ++ t1) by by rewrite <- app_assoc. by eapply IH. }
  intros H tr1 tr2 S n es Heq Hh Hne Hnd Hall. specialize (Hgo _ _ H _ _ Heq). simpl in Hgo. unfold below_now in Hgo. rewrite forallb_forall in Hgo.
  assert (S ≠ ∅) as HS.
  { destruct Hh as (a & ly & (_ & Hn & _) & <- & _). destruct a as [|x a]; [done|]. simpl. set_solver. }
  destruct es as [|e es]; [done|]. inversion Hall as [|? ? He _]; subst.
  assert (S ∈ occ_list tr1) as Hin%elem_of_list_In. { apply occ_list_spec. split; [done|]. by exists e. }
  apply Hgo in Hin. rewrite (holdsb_ok _ _ _ Hh) in Hin. apply N.ltb_lt in Hin. eapply N.le_lt_trans; [|exact Hin].
  assert (length (e :: es) ≤ length (population tr1 S))%nat; [|lia]. apply submseteq_length, NoDup_submseteq; [done|]. intros e' He'. rewrite Forall_forall in Hall. specialize (Hall _ He').
  unfold population. rewrite elem_of_list_filter, elem_of_remove_dups. split; [done|]. by eapply types_issued.
Qed.
Lemma rawvec_grow_exact K : rawvec_grow 0 K = K ↔ 4 ≤ K.
Proof. unfold rawvec_grow. lia. Qed.
Lemma usage_others c cap tr o r s s' e T v :
  cfg_ok c → c_mode c = Debug → grun (λ _ _, True) c cap tr s → one_abandoned tr →
  (∃ K, c_grow c 0 K = K ∧ same_capacity c K tr) ∨ below_capacity c tr →
  args_ok c o → room c tr o → step c o s = ROk s' r → alive_in tr e → concerns o e = false → T ≠ [] →
  read_components c s e T = POk (Some v) → read_components c s' e T = POk (Some v).
Proof.
  intros Hc Hmd Hr Ho Hu Ha Hro H He Hcon HT. destruct (usage_healthy c Hc Hmd _ _ _ Hr Ho Hu) as [Hh Hhe].
  by apply (healthy_others c cap tr s o s' r e T v Hc Hmd (proj2 (grun_hrun _ _ _ _) Hh) (Hhe _) Ha Hro H He Hcon HT).
Qed.
Lemma careful_others c cap tr o r s s' e T v :
  cfg_ok c → c_mode c = Debug → search_honest (c_bs c) → grun (λ _ _, True) c cap tr s → careful c tr → careful_call c tr o →
  args_ok c o → room c tr o → step c o s = ROk s' r → alive_in tr e → concerns o e = false → T ≠ [] →
  read_components c s e T = POk (Some v) → read_components c s' e T = POk (Some v).
Proof.
  intros Hc Hmd Hho Hr Hca Hca' Ha Hro H He Hcon HT. pose proof (careful_healthy c Hc Hmd _ _ _ Hr Hho Hca) as Hh.
  by apply (healthy_others c cap tr s o s' r e T v Hc Hmd (proj2 (grun_hrun _ _ _ _) Hh) (careful_health c Hc Hmd _ _ _ _ Hh Hho Hca') Ha Hro H He Hcon HT).
Qed.
Lemma bs_old_honest : search_honest bs_old.
Proof.
  intros l x i. unfold bs_old. generalize (S (length l)) as n. generalize 0%nat as lo. generalize (length l) as hi.
  intros hi lo n. revert lo hi. induction n as [|n IH]; intros lo hi; [done|].
  cbn [bs_old_loop]. cbv zeta. destruct (Nat.ltb lo hi); [|discriminate]. destruct (l !! (lo + Nat.div (hi - lo) 2)%nat) as [y|] eqn:E; [|discriminate]. destruct (N.compare_spec y x) as [->|_|_].
  - intros [= <-]. done.
  - apply IH.
  - apply IH.
Qed.
Lemma bs_new_honest : search_honest bs_new.
Proof.
  intros [|z l] x i; [done|]. unfold bs_new. set (b := bs_new_loop _ _ _ _ _). clearbody b. destruct ((z :: l) !! b) as [y|] eqn:E; [|done].
  destruct (N.compare_spec y x); [|done..]. intros [= <-]. by subst.
Qed.

(** Deciding that a history is careful, given a list [L] of numbers that contains the room of all free pages. *)
Fixpoint leave_list (done rest : trace) : list (gset tid) :=
  match rest with [] => [] | x :: rest => match leaves done x.1 with Some X => [X] | None => [] end ++ leave_list (done ++ [x]) rest end.
Lemma leave_list_spec rest : ∀ done S, (∃ t1 o r t2, rest = t1 ++ (o, r) :: t2 ∧ leaves (done ++ t1) o = Some S) → S ∈ leave_list done rest.
Proof.
  induction rest as [|x rest IH]; intros done S (t1 & o & r & t2 & Heq & Hl); [by destruct t1|]. simpl. apply elem_of_app.
  destruct t1 as [|y t1]; injection Heq as -> ->.
  - left. rewrite app_nil_r in Hl. simpl. rewrite Hl. by left.
  - right. apply IH. exists t1, o, r, t2. split; [done|]. by rewrite <- app_assoc.
Qed.
Definition closedb (c : cfg) (L : list N) (tr : trace) : bool :=
  bool_decide (0 ∈ L) &&
  forallb (λ S, match holdsb c S with Some n => forallb (λ v, bool_decide (reserve_vec c v n ∈ L)) L | None => true end)
    (filter (λ S, S ≠ hd ∅ (used_list [] tr)) (leave_list [] tr)).
Lemma closedb_ok c L tr v : closedb c L tr = true → page_room c tr v → v ∈ L.
Proof.
  unfold closedb. intros [H0%bool_decide_eq_true H]%andb_prop. rewrite forallb_forall in H.
  induction 1 as [|S n v [Hvac Hnf] Hh _ IH]; [done|]. assert (S ∈ filter (λ S, S ≠ hd ∅ (used_list [] tr)) (leave_list [] tr)) as Hin.
  { rewrite elem_of_list_filter. split; [|by apply (leave_list_spec tr [])]. intros ->. apply Hnf. pose proof Hvac as (t1 & o & r & t2 & -> & Hl).
    assert (used (t1 ++ (o, r) :: t2) (hd ∅ (used_list [] (t1 ++ (o, r) :: t2)))) as Hu%used_list_used.
    { eexists t1, _. split; [done|]. eapply leaves_occupied; [done|]. by eapply holds_nonempty. }
    destruct (used_list [] _) as [|S0 l] eqn:E; [by apply elem_of_nil in Hu|]. by eapply used_list_first. }
  apply elem_of_list_In, H in Hin. rewrite (holdsb_ok _ _ _ Hh) in Hin. rewrite forallb_forall in Hin. apply elem_of_list_In, Hin in IH.
  by apply bool_decide_eq_true in IH.
Qed.
Definition careful_callb (c : cfg) (L : list N) (tr : trace) (o : op) : bool :=
  match asks tr o with
  | Some X =>
    (bool_decide (X ∉ abandonedb tr) || forallb (λ Y, bool_decide (Y = X)) (abandonedb tr)) &&
    match holdsb c X with
    | Some n => (N.of_nat (length (population tr X)) <? n) || forallb (λ v, reserve_vec c v n =? n) L
    | None => true
    end
  | None => true
  end.
Lemma careful_callb_ok c L tr o : (∀ v, page_room c tr v → v ∈ L) → careful_callb c L tr o = true → careful_call c tr o.
Proof.
  intros HL. unfold careful_callb. intros H S HS. rewrite HS in H. apply andb_prop in H as [H1 H2]. split.
  - intros Ha%abandonedb_spec S' Ha'%abandonedb_spec. apply orb_prop in H1 as [H1|H1]; [by apply bool_decide_eq_true in H1|].
    rewrite forallb_forall in H1. by apply elem_of_list_In, H1, bool_decide_eq_true in Ha'.
  - intros n v Hh Hcr Hv. rewrite (holdsb_ok _ _ _ Hh) in H2. apply orb_prop in H2 as [H2|H2].
    + destruct Hcr as (es & _ & Hnd & Hall & Hle). apply N.ltb_lt in H2.
      assert (length es ≤ length (population tr S))%nat; [|lia]. apply submseteq_length, NoDup_submseteq; [done|]. intros e' He'.
      rewrite Forall_forall in Hall. specialize (Hall _ He').
      unfold population. rewrite elem_of_list_filter, elem_of_remove_dups. split; [done|]. by eapply types_issued.
    + rewrite forallb_forall in H2. by apply HL, elem_of_list_In, H2, N.eqb_eq in Hv.
Qed.
Fixpoint carefulb (c : cfg) (L : list N) (done rest : trace) : bool :=
  match rest with [] => true | x :: rest => careful_callb c L done x.1 && carefulb c L (done ++ [x]) rest end.
Lemma page_room_app c tr tr' v : page_room c tr v → page_room c (tr ++ tr') v.
Proof.
  induction tr' as [|x tr' IH] using rev_ind; [by rewrite app_nil_r|]. rewrite app_assoc. intros H. by apply page_room_snoc, IH.
Qed.
Lemma carefulb_ok c L tr : closedb c L tr && carefulb c L [] tr = true → careful c tr.
Proof.
  intros [Hcl H]%andb_prop.
  assert (∀ rest done t1 o r t2, (∀ v, page_room c (done ++ rest) v → v ∈ L) → carefulb c L done rest = true → rest = t1 ++ (o, r) :: t2 →
    careful_call c (done ++ t1) o) as Hgo.
  { induction rest as [|x rest IH]; intros done t1 o r t2 HL Hb Heq; [by destruct t1|]. simpl in Hb. apply andb_prop in Hb as [H1 H2].
    destruct t1 as [|y t1]; injection Heq as -> ->.
    - rewrite app_nil_r. apply (careful_callb_ok c L); [|done]. intros v Hv. apply HL. by apply page_room_app.
    - replace (done ++ y :: t1) with ((done ++ [y]) ++ t1) by by rewrite <- app_assoc. eapply (IH _ _ _ r t2); [|done|done].
      intros v Hv. apply HL. by rewrite <- app_assoc in Hv. }
  intros tr1 o r tr2 ->. apply (Hgo (tr1 ++ (o, r) :: tr2) [] tr1 o r tr2); [|done|done]. intros v. by apply closedb_ok.
Qed.
Lemma truly (s : ac) (w : option (gset tid)) : true = true → True. Proof. done. Qed.
(** Types 1, 8 and 9 have size 4. The archetypes of 8 and 9 are abandoned in turn, the one of 9 is used again. *)
Definition ex_usage : list (list entity → op) :=
  [ λ _, OCreate; λ hs, OAdd (h 0 hs) [(1, [1; 2; 3; 4])]; λ _, OCreateWith (ex_arch [8]); λ _, OCreateWith (ex_arch [9]);
    λ _, OCreateWith (ex_arch [9]); λ hs, ODestroy (h 1 hs); λ _, OCreateWith (ex_arch [8]); λ hs, ODestroy (h 2 hs);
    λ hs, ODestroy (h 3 hs); λ _, OCreateWith (ex_arch [9]); λ hs, ODestroy (h 4 hs) ].
Definition ex_usage_cap : N := match holdsb (ex_cfg Debug) {[1]} with Some n => n | None => 0 end.
Lemma ex_usage_same :
  let c := ex_cfg Debug in let tr := end_trace c 8 ex_usage in let s := end_store c 8 ex_usage in
  grun (λ _ _, True) c 8 tr s ∧ one_abandoned tr ∧ rawvec_grow 0 ex_usage_cap = ex_usage_cap ∧ same_capacity c ex_usage_cap tr ∧
  abandoned tr {[8]} ∧ read_components c s (Entity 0 1) [1] = POk (Some [Some <$> [1; 2; 3; 4]]).
Proof.
  intros c tr s. split; [apply (gend_run _ (λ _ _, true) truly); vm_compute; reflexivity|].
  split; [apply one_abandonedb_ok; vm_compute; reflexivity|]. split; [vm_compute; reflexivity|].
  split; [apply same_capacityb_ok; vm_compute; reflexivity|]. split; [|vm_compute; reflexivity].
  split; [apply used_list_used; apply (bool_decide_unpack _); vm_compute; exact I|].
  split; [rewrite occ_list_spec; apply (bool_decide_unpack _); vm_compute; exact I|].
  intros Hf. assert (first_used tr {[1]}) as Hf1.
  { apply used_list_head. apply (bool_decide_unpack _). vm_compute. exact I. }
  pose proof (first_used_same _ _ _ Hf Hf1). done.
Qed.
Definition ex_usage2 : list (list entity → op) :=
  [ λ _, OCreate; λ hs, OAdd (h 0 hs) [(1, [1; 2; 3; 4])]; λ _, OCreateWith (ex_arch [2]); λ hs, OAdd (h 0 hs) [(3, [5])];
    λ hs, ODestroy (h 1 hs) ].
Lemma ex_usage_below :
  let c := ex_cfg Debug in let tr := end_trace c 8 ex_usage2 in let s := end_store c 8 ex_usage2 in
  grun (λ _ _, True) c 8 tr s ∧ one_abandoned tr ∧ below_capacity c tr ∧ abandoned tr {[2]} ∧
  read_components c s (Entity 0 1) [1; 3] = POk (Some [Some <$> [1; 2; 3; 4]; [Some 5]]).
Proof.
  intros c tr s. split; [apply (gend_run _ (λ _ _, true) truly); vm_compute; reflexivity|].
  split; [apply one_abandonedb_ok; vm_compute; reflexivity|].
  split; [apply below_capacityb_ok; vm_compute; reflexivity|]. split; [|vm_compute; reflexivity].
  split; [apply used_list_used; apply (bool_decide_unpack _); vm_compute; exact I|].
  split; [rewrite occ_list_spec; apply (bool_decide_unpack _); vm_compute; exact I|].
  intros Hf. assert (first_used tr {[1]}) as Hf1.
  { apply used_list_head. apply (bool_decide_unpack _). vm_compute. exact I. }
  pose proof (first_used_same _ _ _ Hf Hf1). done.
Qed.
(** Types 2 and 3 have sizes 5000 and 4000: a page holds 3 rows of type 2, 1 row of both and 4 of type 3, and has room for 4
    ids in all cases. Two archetypes are abandoned at the same time, and there are more entities of type 3 than a page holds. *)
Definition ex_careful : list (list entity → op) :=
  [ λ _, OCreate; λ hs, OAdd (h 0 hs) [(1, [1])]; λ _, OCreateWith (big_arch [2]); λ _, OCreateWith (big_arch [2; 3]);
    λ hs, ODestroy (h 2 hs); λ hs, ODestroy (h 1 hs); λ _, OCreateWith (big_arch [3]); λ _, OCreateWith (big_arch [3]);
    λ _, OCreateWith (big_arch [3]); λ _, OCreateWith (big_arch [3]); λ _, OCreateWith (big_arch [3]) ].
Lemma ex_careful_ok :
  let c := big_cfg in let tr := end_trace c 8 ex_careful in let s := end_store c 8 ex_careful in
  grun (λ _ _, True) c 8 tr s ∧ careful c tr ∧ page_holds c {[3]} 4 ∧ crowded tr {[3]} 4 ∧ abandoned tr {[2]} ∧ abandoned tr {[2; 3]} ∧
  read_components c s (Entity 0 1) [1] = POk (Some [[Some 1]]).
Proof.
  intros c tr s. split; [apply (gend_run _ (λ _ _, true) truly); vm_compute; reflexivity|].
  split; [apply (carefulb_ok _ [0; 4]); vm_compute; reflexivity|].
  split. { exists (big_arch [3]). eexists. split; [split; [apply incrb_ok; vm_compute; reflexivity|]; split; [by vm_compute|vm_compute; reflexivity]|]. split; [apply (bool_decide_unpack _); vm_compute; exact I|]. split; vm_compute; reflexivity. }
  split. { exists (population tr {[3]}). split; [by vm_compute|]. split; [apply NoDup_filter, NoDup_remove_dups|]. split; [apply Forall_forall; intros e; unfold population; rewrite elem_of_list_filter; by intros []|]. by vm_compute. }
  split; [apply abandonedb_in, (bool_decide_unpack _); vm_compute; exact I|].
  split; [apply abandonedb_in, (bool_decide_unpack _); vm_compute; exact I|vm_compute; reflexivity].
Qed.
