(** DiscQ.v — queries and references in disciplined histories, in both builds. *)
From Verif.Spec Require Export Aliasing Writes.
From Verif.Proofs Require Export DiscP AliasP WriteP.
Local Open Scope N_scope.

Section both.
Context (c : cfg) (Hc : cfg_ok c).
Notation d := (in_mode Debug c).
Let Hd : cfg_ok d := cfg_ok_mode Debug c Hc.

Lemma refs_own s e T x : get_components_refs d s e T = POk x → get_components_refs c s e T = POk x.
Proof using. rewrite (in_mode_id c) at 2. destruct (c_mode c); [done|]. apply (observers_release c s). Qed.
Lemma read_own s e T x : read_components d s e T = POk x → read_components c s e T = POk x.
Proof using. rewrite (in_mode_id c) at 2. destruct (c_mode c); [done|]. apply (observers_release c s). Qed.
Lemma entity_query_own s q l x : entity_query d q s l = POk x → entity_query c q s l = POk x.
Proof using. rewrite (in_mode_id c) at 2. destruct (c_mode c); [done|]. apply (observers_release c s). Qed.
Lemma component_query_own s q : component_query d q s = component_query c q s.
Proof using. apply component_query_mode. Qed.
Lemma ordered_query_own fuel s q g : ordered_query fuel d q s g = ordered_query fuel c q s g.
Proof using. apply ordered_query_mode. Qed.

(** In a disciplined state the builds observe the same. *)
Lemma observed_both cap tr s e x : hrun d cap tr s → observed c s e x ↔ observed d s e x.
Proof using Hd.
  intros Hr. split; [|apply observed_own_mode]. intros Hx. destruct (hrun_state d Hd eq_refl _ _ _ Hr) as (D & Hs & _).
  assert (e_id e < ec_cap (st_ec s)) as Hlt.
  { destruct Hx as [Ha _]. unfold is_alive, ec_is_alive in Ha. destruct (c_mode c).
    - simpl in Ha. unfold validate_id in Ha. by destruct (N.ltb_spec (e_id e) (ec_cap (st_ec s))).
    - simpl in Ha. apply pbind_ok in Ha as (v & Hv & _). unfold validate_version in Hv. apply pbind_ok in Hv as (w & Hw & _).
      pose proof (inv_ver_len _ _ _ (cs_ec _ _ _ _ _ Hs)) as Hl. apply aget_ok, lookup_lt_Some in Hw. lia. }
  pose proof (state_observed d Hd _ _ _ _ _ Hs Hlt) as Ho. by rewrite <- (observed_inj _ _ _ _ _ (observed_own_mode _ _ _ _ Ho) Hx).
Qed.
Lemma qualifies_both cap tr s q e : hrun d cap tr s → qualifies c s q e ↔ qualifies d s q e.
Proof using Hd. intros Hr. split; intros (m & Hm & ?); exists m; (split; [|done]); by eapply observed_both. Qed.

Lemma refs_return cap tr s e T : hrun d cap tr s → e ∈ issued tr → T ≠ [] → ∃ x, get_components_refs d s e T = POk x.
Proof using Hd.
  intros Hr He HT. destruct (hrun_state d Hd eq_refl _ _ _ Hr) as (D & Hs & _).
  pose proof (get_refs_wp d Hd _ _ _ _ e T Hs (own_lt d eq_refl _ _ _ _ (hrun_run _ _ _ _ Hr) He) HT) as H.
  destruct (decide (e ∈ live tr)); [|by eexists]. destruct H as (m & _ & H). destruct (has_all m T); [|by eexists].
  destruct H as (p & k & rs & _ & _ & H & _). by eexists.
Qed.
Lemma hands_out_both cap tr s src q l : hrun d cap tr s → NoDup (q_types q) → q_types q ≠ [] → known tr src →
  hands_out c s src q l ↔ hands_out d s src q l.
Proof using Hd.
  intros Hr Hnd Hne Hk. destruct src as [e| |ents|g]; simpl in *.
  - split; intros (rs & Hrs & ->); exists rs; (split; [|done]); [|by apply refs_own].
    destruct (refs_return _ _ _ _ _ Hr Hk Hne) as [x Hx]. pose proof (refs_own _ _ _ _ Hx) as Hx'. congruence.
  - by rewrite component_query_own.
  - split; intros (it & it' & Hit & Hy); exists it, it'; (split; [|done]); [|by apply entity_query_own].
    destruct (entity_query_exact d _ _ _ _ _ Hd eq_refl Hr Hnd Hne Hk) as (it0 & _ & _ & _ & Hx & _).
    pose proof (entity_query_own _ _ _ _ Hx) as Hx'. congruence.
  - by setoid_rewrite ordered_query_own.
Qed.
End both.

Section drun.
Context (c : cfg) (Hc : cfg_ok c).
Notation d := (in_mode Debug c).
Let Hd : cfg_ok d := cfg_ok_mode Debug c Hc.

(** ** Iterators *)
Lemma both_component_query cap tr s q : drun (healthy c) c cap tr s → NoDup (q_types q) → q_types q ≠ [] →
  ∃ it l it1 it2, component_query c q s = POk it ∧
    yields (qiter_next_with (ec_ver (st_ec s))) it l it1 ∧ yields qiter_next it l.*2 it2 ∧ qiter_len it = length l ∧
    NoDup l.*1 ∧ disjoint_items l ∧ (∀ e, e ∈ l.*1 ↔ qualifies c s q e) ∧
    (∀ e rs, (e, rs) ∈ l → get_components_refs c s e (q_types q) = POk (Some rs) ∧
      ∃ m, observed c s e (Some m) ∧ read_ref (ac_pages (st_ac s)) <$> rs = values m (q_types q)).
Proof using Hd.
  intros [Hr _]%(drun_debug _ _ _ _ Hc) Hnd Hne.
  destruct (query_exact d Hd eq_refl _ _ _ _ Hr Hnd Hne) as (it & l & it1 & it2 & Hit & H1 & H2 & H3 & H4 & H5 & Hin & Hx).
  exists it, l, it1, it2. rewrite component_query_own in Hit. split_and!; try done.
  - intros e. rewrite (qualifies_both c Hc _ _ _ _ _ Hr). apply Hin.
  - intros e rs He. destruct (Hx _ _ He) as (Hg & m & Hm & Hv). split; [by apply refs_own|]. exists m. split; [by apply observed_own_mode|done].
Qed.
Lemma both_entity_query cap tr s q ents : drun (healthy c) c cap tr s → NoDup (q_types q) → q_types q ≠ [] →
  (∀ e, e ∈ ents → e ∈ issued tr) →
  (∀ i e e', ents !! i = Some e → ents !! S i = Some e' → qualifies c s q e → had_components tr e') →
  ∃ it l it' f, entity_query c q s ents = POk it ∧ yields eiter_next_with it l it' ∧ yields eiter_next it l.*2 it' ∧
    l.*1 = List.filter f ents ∧ (∀ e, f e = true ↔ qualifies c s q e) ∧
    (∀ e rs, (e, rs) ∈ l → get_components_refs c s e (q_types q) = POk (Some rs)).
Proof using Hd.
  intros [Hr _]%(drun_debug _ _ _ _ Hc) Hnd Hne Hi Hk.
  destruct (entity_query_followed d _ _ _ _ _ Hd eq_refl Hr Hnd Hne Hi) as (it & l & it' & f & Hit & H1 & H2 & H3 & Hf & Hx).
  { intros i e e' H1 H2 Hq. by apply (Hk _ _ _ H1 H2), (qualifies_both c Hc _ _ _ _ _ Hr). }
  exists it, l, it', f. split_and!; try done; [by apply entity_query_own| |].
  - intros e. rewrite (qualifies_both c Hc _ _ _ _ _ Hr). apply Hf.
  - intros e rs He. by apply refs_own, Hx.
Qed.
Lemma both_ordered_query cap tr s q g fuel : drun (healthy c) c cap tr s → NoDup (q_types q) → q_types q ≠ [] →
  (∀ e, e ∈ members tr g → had_components tr e) → (length (members tr g) < fuel)%nat →
  ∃ it l it' f, ordered_query fuel c q s g = Some (POk it) ∧ yields oiter_next it l.*2 it' ∧ oiter_len it = length l ∧
    l.*1 = List.filter f (members tr g) ∧ (∀ e, f e = true ↔ qualifies c s q e) ∧
    (∀ e rs, (e, rs) ∈ l → get_components_refs c s e (q_types q) = POk (Some rs)).
Proof using Hd.
  intros [Hr Ho]%(drun_debug _ _ _ _ Hc) Hnd Hne Hk Hfuel.
  destruct (ordered_query_exact d _ _ _ _ _ _ Hd eq_refl Hr Ho Hnd Hne Hk Hfuel) as (it & l & it' & f & Hit & H1 & H2 & H3 & Hf & Hx & _).
  exists it, l, it', f. rewrite ordered_query_own in Hit. split_and!; try done.
  - intros e. rewrite (qualifies_both c Hc _ _ _ _ _ Hr). apply Hf.
  - intros e rs He. by apply refs_own, Hx.
Qed.

Lemma both_filter_tag cap tr s q t : drun (healthy c) c cap tr s → NoDup (q_types q) → q_types q ≠ [] → (∃ e r, (OTagAdd t e, r) ∈ tr) →
  ∃ bv it l it1, filter_tag c s t = POk bv ∧ component_query c q s = POk it ∧
    yields (qiter_next_with (ec_ver (st_ec s))) it l it1 ∧
    ∀ depth, none_skipped (item_tagged c s t) depth l → yields (filtering depth s bv) it (List.filter (item_tagged c s t) l) it1.
Proof using Hd.
  intros [Hr _]%(drun_debug _ _ _ _ Hc) Hnd Hne Hadd.
  destruct (filter_tag_exact d Hd eq_refl _ _ _ _ _ Hr Hnd Hne Hadd) as (bv & it & l & it1 & Hbv & Hit & Hy & Hf).
  rewrite component_query_own in Hit. rewrite filter_tag_mode in Hbv.
  exists bv, it, l, it1. split_and!; try done. intros depth. apply Hf.
Qed.

(** ** References *)
Lemma both_references cap tr s src q l : drun (healthy c) c cap tr s → NoDup (q_types q) → q_types q ≠ [] → known tr src →
  hands_out c s src q l → (once src → exclusive q l) ∧ in_bounds c s q l ∧ (assigned tr (q_types q) → initialised s l) ∧
    ∀ base, rust_types c → (∀ p t, t ∈ q_types q → (ti_align (c_ty c t) | base p)) → aligned c base q l.
Proof using Hd.
  intros [Hr _]%(drun_debug _ _ _ _ Hc) Hnd Hne Hk Hh. apply (hands_out_both c Hc _ _ _ _ _ _ Hr Hnd Hne Hk) in Hh. split_and!.
  - intros Ho. by eapply (source_exclusive d Hd eq_refl).
  - by eapply (source_bounds d Hd eq_refl) in Hh.
  - intros Hg. by eapply (source_init d Hd eq_refl).
  - intros base Hty Hb. by eapply (source_aligned d Hd eq_refl) in Hh.
Qed.
Lemma both_sources cap tr s src1 q1 l1 src2 q2 l2 : drun (healthy c) c cap tr s → NoDup (q_types q1) → q_types q1 ≠ [] → NoDup (q_types q2) → q_types q2 ≠ [] →
  known tr src1 → known tr src2 → compatible q1 q2 → hands_out c s src1 q1 l1 → hands_out c s src2 q2 l2 → exclusive_of q1 l1 q2 l2.
Proof using Hd.
  intros [Hr _]%(drun_debug _ _ _ _ Hc) Hn1 He1 Hn2 He2 Hk1 Hk2 Hcp H1 H2.
  apply (hands_out_both c Hc _ _ _ _ _ _ Hr Hn1 He1 Hk1) in H1. apply (hands_out_both c Hc _ _ _ _ _ _ Hr Hn2 He2 Hk2) in H2.
  by apply (sources_exclusive d Hd eq_refl _ _ _ _ _ _ _ _ _ Hr Hn1 He1 Hn2 He2 Hk1 Hk2 Hcp H1 H2).
Qed.

(** ** Writing *)
Lemma set_each_own q f tr s tr' s' es : set_each d q f tr s tr' s' es → set_each c q f tr s tr' s' es.
Proof using.
  clear. induction 1 as [tr s|tr s e v s1 tr' s' es Hv o Hst Hset IH]; [constructor|].
  econstructor; [by apply read_own|by apply step_own_mode|done].
Qed.
Lemma set_each_drun q f cap tr s tr' s' es : set_each c q f tr s tr' s' es → (∀ e, writer_ok c q (f e)) → q_write q ≠ [] → NoDup (q_write q) →
  (∀ e, e ∈ es → e ∈ issued tr) → drun (healthy c) c cap tr s → drun (healthy c) c cap tr' s'.
Proof using.
  clear. induction 1 as [tr s|tr s e v s1 tr' s' es Hv o Hst Hset IH]; intros Hf Hne Hnd Hes Hr; [done|].
  destruct (Hf e v) as [Hl Hok]. assert ((zip (q_write q) (f e v)).*1 = q_write q) as Hfst by (apply fst_zip; lia).
  apply IH; try done.
  - intros e' He'. unfold issued. rewrite omap_app. apply elem_of_app. left. by apply Hes, elem_of_list_further.
  - eapply drun_step; try done. unfold disciplined. simpl. rewrite Hfst. split_and!; try done.
    + intros Hz. rewrite Hz in Hfst. simpl in Hfst. congruence.
    + intros e' ->%elem_of_list_singleton. apply Hes. constructor.
Qed.
Lemma qualifies_issued cap tr s q e : drun (healthy c) c cap tr s → qualifies c s q e → e ∈ issued tr.
Proof using Hd.
  intros [Hr _]%(drun_debug _ _ _ _ Hc) (m & Hm & _). apply (observed_both c Hc _ _ _ _ _ Hr) in Hm.
  destruct (hrun_state d Hd eq_refl _ _ _ Hr) as (D & Hs & _).
  destruct (proj1 (observed_D d Hd eq_refl _ _ _ _ _ _ Hr Hs) Hm) as [HL _]. by apply (inv_live_issued _ _ _ (cs_ec _ _ _ _ _ Hs)).
Qed.
Lemma both_component_writes cap tr s q f : drun (healthy c) c cap tr s → NoDup (q_types q) → q_types q ≠ [] → (∀ e, writer_ok c q (f e)) →
  ∃ it es pages tr', component_query c q s = POk it ∧
    writes q (qiter_next_with (ec_ver (st_ec s))) snd (λ x, f x.1) (ac_pages (st_ac s)) it pages ∧
    NoDup es ∧ (∀ e, e ∈ es ↔ qualifies c s q e) ∧ set_each c q f tr s tr' (with_pages s pages) es ∧
    (∀ e m, observed c s e (Some m) → observed c (with_pages s pages) e (Some (if has_all m (q_types q) then updated q (f e) m else m))) ∧
    (q_write q ≠ [] → drun (healthy c) c cap tr' (with_pages s pages)).
Proof using Hd.
  intros Hdr Hnd Hne Hf. destruct (drun_debug _ _ _ _ Hc Hdr) as [Hr _].
  destruct (component_writes d _ _ _ _ f Hd eq_refl Hr Hnd Hne Hf) as (it & es & pages & tr' & Hit & Hw & Hes & Hq & Hset & Hobs & _).
  rewrite component_query_own in Hit. apply set_each_own in Hset.
  assert (∀ e, e ∈ es ↔ qualifies c s q e) as Hq' by (intros e; rewrite (qualifies_both c Hc _ _ _ _ _ Hr); apply Hq).
  exists it, es, pages, tr'. split_and!; try done.
  - intros e m Hm. by apply observed_own_mode, Hobs, (observed_both c Hc _ _ _ _ _ Hr).
  - intros Hwr. eapply set_each_drun; try done; [by apply NoDup_app in Hnd as (_ & _ & ?)|].
    intros e ?%Hq'. by eapply qualifies_issued.
Qed.
Lemma both_entity_writes cap tr s q ents f : drun (healthy c) c cap tr s → NoDup (q_types q) → q_types q ≠ [] →
  (∀ e, e ∈ ents → had_components tr e) → (∀ e, writer_ok c q (f e)) →
  ∃ it g pages tr', entity_query c q s ents = POk it ∧ writes q eiter_next_with snd (λ x, f x.1) (ac_pages (st_ac s)) it pages ∧
    (∀ e, g e = true ↔ qualifies c s q e) ∧ set_each c q f tr s tr' (with_pages s pages) (List.filter g ents) ∧
    (∀ e m, observed c s e (Some m) → observed c (with_pages s pages) e
      (Some (if has_all m (q_types q) && bool_decide (e ∈ ents) then updated q (f e) m else m))) ∧
    (q_write q ≠ [] → drun (healthy c) c cap tr' (with_pages s pages)).
Proof using Hd.
  intros Hdr Hnd Hne Hk Hf. destruct (drun_debug _ _ _ _ Hc Hdr) as [Hr _].
  destruct (entity_writes d _ _ _ _ ents f Hd eq_refl Hr Hnd Hne Hk Hf) as (it & g & pages & tr' & Hit & Hw & Hq & Hset & Hobs & _).
  apply entity_query_own in Hit. apply set_each_own in Hset.
  assert (∀ e, g e = true ↔ qualifies c s q e) as Hq' by (intros e; rewrite (qualifies_both c Hc _ _ _ _ _ Hr); apply Hq).
  exists it, g, pages, tr'. split_and!; try done.
  - intros e m Hm. by apply observed_own_mode, Hobs, (observed_both c Hc _ _ _ _ _ Hr).
  - intros Hwr. eapply set_each_drun; try done; [by apply NoDup_app in Hnd as (_ & _ & ?)|].
    intros e [_ ?%Hq']%elem_of_list_In%filter_In. by eapply qualifies_issued.
Qed.
Lemma both_ordered_writes cap tr s q g f fuel : drun (healthy c) c cap tr s → NoDup (q_types q) → q_types q ≠ [] →
  (∀ e, e ∈ members tr g → had_components tr e) → (length (members tr g) < fuel)%nat → writer_ok c q f →
  ∃ it p pages tr', ordered_query fuel c q s g = Some (POk it) ∧ writes q oiter_next id (λ _, f) (ac_pages (st_ac s)) it pages ∧
    (∀ e, p e = true ↔ qualifies c s q e) ∧ set_each c q (λ _, f) tr s tr' (with_pages s pages) (List.filter p (members tr g)) ∧
    (∀ e m, observed c s e (Some m) → observed c (with_pages s pages) e
      (Some (if has_all m (q_types q) && bool_decide (e ∈ members tr g) then updated q f m else m))) ∧
    (q_write q ≠ [] → drun (healthy c) c cap tr' (with_pages s pages)).
Proof using Hd.
  intros Hdr Hnd Hne Hk Hfuel Hf. destruct (drun_debug _ _ _ _ Hc Hdr) as [Hr Ho].
  destruct (ordered_writes d _ _ _ _ g f fuel Hd eq_refl Hr Ho Hnd Hne Hk Hfuel Hf) as (it & p & pages & tr' & Hit & Hw & Hq & Hset & Hobs & _).
  rewrite ordered_query_own in Hit. apply set_each_own in Hset.
  assert (∀ e, p e = true ↔ qualifies c s q e) as Hq' by (intros e; rewrite (qualifies_both c Hc _ _ _ _ _ Hr); apply Hq).
  exists it, p, pages, tr'. split_and!; try done.
  - intros e m Hm. by apply observed_own_mode, Hobs, (observed_both c Hc _ _ _ _ _ Hr).
  - intros Hwr. eapply set_each_drun; try done; [by apply NoDup_app in Hnd as (_ & _ & ?)|].
    intros e [_ ?%Hq']%elem_of_list_In%filter_In. by eapply qualifies_issued.
Qed.
End drun.
