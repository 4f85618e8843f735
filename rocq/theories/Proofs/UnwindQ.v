(** UnwindQ.v — entity queries and ordered queries when calls panic and the panics are caught. *)
From Verif.Spec Require Import Orders Components Queries Caught Aliasing.
From Verif.Proofs Require Import UnwindB UnwindH UnwindT DiscP DiscQ ModeP CompX QueryX EntQ OrdQ ClientP AliasP.
Local Open Scope N_scope.

(** ** Entities that have had components *)
Definition had_types (tr : trace) (e : entity) : Prop := ∃ tr1 tr2 S, tr = tr1 ++ tr2 ∧ types tr1 e = Some S ∧ S ≠ ∅.
Lemma had_types_snoc tr x e : had_types (tr ++ [x]) e → had_types tr e ∨ ∃ S, types (tr ++ [x]) e = Some S ∧ S ≠ ∅.
Proof.
  intros (tr1 & tr2 & S & Heq & Ht & Hne). destruct tr2 as [|y tr2 _] using rev_ind.
  - rewrite app_nil_r in Heq. subst tr1. right. by exists S.
  - rewrite app_assoc in Heq. apply app_inj_tail in Heq as [-> ->]. left. by exists tr1, tr2, S.
Qed.
Lemma had_types_more tr x e : had_types tr e → had_types (tr ++ [x]) e.
Proof. intros (tr1 & tr2 & S & -> & H). exists tr1, (tr2 ++ [x]), S. split; [by rewrite app_assoc|done]. Qed.
Lemma had_types_now tr e S : types tr e = Some S → S ≠ ∅ → had_types tr e.
Proof. intros H1 H2. exists tr, [], S. by rewrite app_nil_r. Qed.
Lemma had_had_types tr e : had_components tr e → had_types tr e.
Proof.
  intros (tr1 & tr2 & m & -> & Hm & Hne). apply comps_types in Hm. exists tr1, tr2, (dom m). split_and!; [done|done|].
  intros H%dom_empty_inv_L. done.
Qed.
Lemma hrun_prefix c cap tr1 tr2 s : hrun c cap (tr1 ++ tr2) s → ∃ s1, hrun c cap tr1 s1.
Proof.
  revert s. induction tr2 as [|x tr2 IH] using rev_ind; intros s H.
  - rewrite app_nil_r in H. by exists s.
  - rewrite app_assoc in H. remember ((tr1 ++ tr2) ++ [x]) as tr eqn:Heq. destruct H as [|tr s0 o r s' Hr]; [by destruct (tr1 ++ tr2)|].
    apply app_inj_tail in Heq as [-> _]. by eapply IH.
Qed.
Lemma had_types_had c cap tr s e : cfg_ok c → c_mode c = Debug → hrun c cap tr s → had_types tr e → had_components tr e.
Proof.
  intros Hc Hmd Hr (tr1 & tr2 & S & -> & Ht & Hne). destruct (hrun_prefix _ _ _ _ _ Hr) as [s1 Hr1].
  destruct (had_now c cap tr1 s1 e Hc Hmd Hr1) as (t1 & t2 & m & -> & H); [rewrite Ht; by apply bool_decide_eq_true|].
  exists t1, (t2 ++ tr2), m. split; [by rewrite app_assoc|done].
Qed.
Lemma explains_types tr tr' F : explains tr tr' F → ∀ e, e ∉ F →
  types tr' e = types (answered tr) e ∧ (had_types (answered tr) e → had_types tr' e).
Proof.
  induction 1 as [|tr tr' F o r H IH|tr tr' F o H IH Hcr|tr tr' F a e0 H IH]; intros e He.
  - done.
  - destruct (IH e He) as [Ht Hh]. rewrite answered_returned. assert (types (tr' ++ [(o, r)]) e = types (answered tr ++ [(o, r)]) e) as Heq by by rewrite !types_snoc, Ht.
    split; [done|]. intros [Hd|(S & HS & Hne)]%had_types_snoc; [by apply had_types_more, Hh|]. eapply had_types_now; [by rewrite Heq|done].
  - rewrite answered_panicked. by apply IH.
  - apply not_elem_of_app in He as [He He0]. rewrite elem_of_list_singleton in He0. destruct (IH e He) as [Ht Hh]. rewrite answered_panicked. split.
    + rewrite types_snoc. simpl. rewrite decide_False by congruence. done.
    + intros Hd. by apply had_types_more, Hh.
Qed.

(** ** Stores that differ in lost entities only *)
Section alike.
Context (P : N → Prop) (c : cfg).
Notation alike := (alike P).
Lemma alike_archetype e s s0 : alike s s0 → (is_alive c s e = POk true → ¬ P (e_id e)) → get_entity_archetype c s e = get_entity_archetype c s0 e.
Proof using. intros H Hp. unfold get_entity_archetype. by rewrite (alike_valid _ _ _ _ _ H Hp), (alike_page _ _ _ H), (alike_ac _ _ _ H). Qed.
Lemma alike_extend s s0 p l : alike s s0 → eq_extend c s p l = eq_extend c s0 p l.
Proof using.
  intros H. induction l as [|e l IH]; [done|]. simpl. unfold get_page_index. by rewrite (alike_page _ _ _ H), (alike_alive _ _ _ _ _ H), IH.
Qed.
Lemma alike_ranges q s s0 ents fuel n : alike s s0 → (∀ e, e ∈ ents → is_alive c s e = POk true → ¬ P (e_id e)) →
  eq_ranges c q s ents fuel n = eq_ranges c q s0 ents fuel n.
Proof using.
  intros H Hp. revert n. induction fuel as [|fuel IH]; intros n; [done|]. simpl. destruct (ents !! n) as [e|] eqn:E; [|done].
  apply elem_of_list_lookup_2 in E. unfold valid_for_query. rewrite (alike_archetype _ _ _ H (Hp e E)). unfold get_page_index.
  rewrite (alike_page _ _ _ H), (alike_ac _ _ _ H), IH. destruct (get_entity_archetype c s0 e) as [[a|]| |]; try done. simpl. destruct (negb (q_include c q a)); [done|].
  destruct (aget (st_page s0) (e_id e)) as [pi| |]; try done. simpl.
  destruct (arch_index_by_page (st_ac s0) pi) as [ai| |]; try done. simpl.
  destruct (arch_with_layout_unchecked (st_ac s0) ai) as [al| |]; try done. simpl.
  destruct (vget_unchecked (ac_pages (st_ac s0)) pi) as [p| |]; try done. simpl.
  destruct (q_offsets c q al.1 al.2) as [offs| |]; try done. simpl. rewrite (alike_extend _ _ _ _ H).
  destruct (eq_extend c s0 pi (drop (S n) ents)) as [k| |]; try done. simpl. by rewrite IH.
Qed.
Lemma alike_entity_query q s s0 ents : alike s s0 → (∀ e, e ∈ ents → is_alive c s e = POk true → ¬ P (e_id e)) →
  entity_query c q s ents = entity_query c q s0 ents.
Proof using. intros H Hp. unfold entity_query. by rewrite (alike_ranges _ _ _ _ _ _ H Hp), (alike_idx _ _ _ H). Qed.
Lemma alike_oextend s s0 fuel nm p k n : alike s s0 → oq_extend fuel s nm p k n = oq_extend fuel s0 nm p k n.
Proof using.
  intros H. revert k n. induction fuel as [|fuel IH]; intros k n; [done|]. simpl. rewrite (alike_eia _ _ _ _ H). destruct (n =? NULL_ID); [done|].
  destruct (get_eia s0 n); try done. destruct (_ || _); [done|]. by destruct (aget nm n).
Qed.
Lemma alike_oranges q s s0 fuel nm n : alike s s0 → oq_ranges fuel c q s nm n = oq_ranges fuel c q s0 nm n.
Proof using.
  intros H. revert n. induction fuel as [|fuel IH]; intros n; [done|]. simpl. destruct (n =? NULL_ID); [done|]. unfold oq_member.
  rewrite (alike_eia _ _ _ _ H), (alike_ac _ _ _ H). case_match; try done. case_match; [|case_match; done].
  case_match. case_match; try done. rewrite (alike_oextend _ _ _ _ _ _ _ H). destruct (oq_extend _ s0 _ _ _ _) as [[[k m]| |]|]; try done. simpl. by rewrite IH.
Qed.
Lemma alike_orders s s0 : alike s s0 → st_orders s = st_orders s0. Proof using. by intros (v & -> & _). Qed.
Lemma alike_ordered_query q s s0 fuel g : alike s s0 → ordered_query fuel c q s g = ordered_query fuel c q s0 g.
Proof using.
  intros H. unfold ordered_query. rewrite (alike_orders _ _ H). destruct (get_group_index c (st_orders s0) g) as [gi|]; [|done].
  destruct (vget_unchecked _ _); try done. destruct (vget_unchecked _ _); try done. by rewrite (alike_oranges _ _ _ _ _ _ H).
Qed.
End alike.

(** ** Debug builds *)
Section told.
Context (c : cfg) (cap : N) (Hc : cfg_ok c) (Hmd : c_mode c = Debug).
Lemma caught_had tr tr' F s0 e : tells tr tr' F → hrun c cap tr' s0 → e ∈ issued (answered tr) → had_components (answered tr) e → had_components tr' e.
Proof using Hc Hmd.
  intros Ht Hr0 Hi Hh. apply (had_types_had c cap _ s0); try done. apply (explains_types _ _ _ (tl_expl _ _ _ Ht)); [|by apply had_had_types].
  intros HF. by apply (tl_disj _ _ _ Ht e).
Qed.
Lemma caught_back tr tr' F s s0 e x : tells tr tr' F → hrun c cap tr' s0 → alike (lost F) s s0 → e ∈ issued (answered tr) → observed c s e x ↔ observed c s0 e x.
Proof using Hc Hmd.
  intros Ht Hr0 Hal He. pose proof (hrun_run _ _ _ _ Hr0) as Hrun.
  assert (∀ x, observed c s0 e x → observed c s e x) as Hob. { intros y Ho. eapply alike_observed; try done. by eapply lost_dead. }
  split; [|apply Hob]. intros Ho. destruct (values_persist c Hc Hmd cap tr' s0 e Hr0) as (y & _ & Hy & _).
  { apply (own_lt c Hmd _ _ _ _ Hrun), (tl_issued _ _ _ Ht). by left. }
  by rewrite (observed_inj _ _ _ _ _ Ho (Hob _ Hy)).
Qed.
Lemma had_issued tr e : had_components tr e → e ∈ issued tr.
Proof using.
  intros (tr1 & tr2 & m & -> & Hm & _). apply comps_types in Hm. unfold issued. rewrite omap_app. apply elem_of_app. left. by eapply types_issued.
Qed.
Lemma caught_entity_query tr s q ents : dcrun c cap tr s → NoDup (q_types q) → q_types q ≠ [] →
  (∀ e, e ∈ ents → e ∈ issued (answered tr)) →
  (∀ i e e', ents !! i = Some e → ents !! S i = Some e' → qualifies c s q e → had_components (answered tr) e') →
  ∃ it l it' f, entity_query c q s ents = POk it ∧ yields eiter_next_with it l it' ∧ yields eiter_next it l.*2 it' ∧
    l.*1 = List.filter f ents ∧ (∀ e, e ∈ ents → f e = true ↔ qualifies c s q e) ∧
    (∀ e rs, (e, rs) ∈ l → get_components_refs c s e (q_types q) = POk (Some rs)).
Proof using Hc Hmd.
  intros Hr Hq Hne Hiss Hhad. destruct (told _ _ Hc Hmd _ _ Hr) as (tr' & F & s0 & Ht & Hr0 & Hal & _). pose proof (hrun_run _ _ _ _ Hr0) as Hrun.
  destruct (entity_query_followed c cap tr' s0 q ents Hc Hmd Hr0 Hq Hne) as (it & l & it' & f & H1 & H2 & H3 & H4 & H5 & H6).
  { intros e He%Hiss. apply (tl_issued _ _ _ Ht). by left. }
  { intros i e e' H1 H2 (m & Hm & Hall). eapply caught_had; try done; [by apply Hiss, (elem_of_list_lookup_2 _ _ _ H2)|]. apply (Hhad _ _ _ H1 H2). exists m. split; [|done].
    apply (caught_back _ _ _ _ _ _ _ Ht Hr0 Hal); [|done]. by apply Hiss, (elem_of_list_lookup_2 _ _ _ H1). }
  exists it, l, it', f. rewrite (alike_entity_query (lost F) c q s s0 ents Hal).
  2:{ intros e He. eapply lost_dead; try done. by apply Hiss. }
  split_and!; try done.
  - intros e He. rewrite H5. pose proof (Hiss e He) as Hi. split; intros (m & Hm & Hall); exists m; (split; [|done]); by apply (caught_back _ _ _ _ _ _ _ Ht Hr0 Hal Hi).
  - intros e rs Hin. assert (e ∈ ents) as He. { assert (e ∈ l.*1) as Hx by (apply elem_of_list_fmap; by exists (e, rs)). rewrite H4 in Hx. apply elem_of_list_In, filter_In in Hx as [Hx _]. by apply elem_of_list_In. }
    rewrite (alike_refs _ _ _ _ _ _ Hal); [by apply H6|]. eapply lost_dead; try done. by apply Hiss.
Qed.
Lemma caught_ordered_query tr s q g fuel : dcrun c cap tr s → NoDup (q_types q) → q_types q ≠ [] →
  (∀ e, e ∈ members (answered tr) g → had_components (answered tr) e) → (length (members (answered tr) g) < fuel)%nat →
  ∃ it l it' f, ordered_query fuel c q s g = Some (POk it) ∧ yields oiter_next it l.*2 it' ∧ oiter_len it = length l ∧
    l.*1 = List.filter f (members (answered tr) g) ∧ (∀ e, e ∈ members (answered tr) g → f e = true ↔ qualifies c s q e) ∧
    (∀ e rs, (e, rs) ∈ l → get_components_refs c s e (q_types q) = POk (Some rs)).
Proof using Hc Hmd.
  intros Hr Hq Hne Hhad Hfuel. destruct (told _ _ Hc Hmd _ _ Hr) as (tr' & F & s0 & Ht & Hr0 & Hal & Hp). pose proof (hrun_run _ _ _ _ Hr0) as Hrun.
  rewrite <- (tl_members _ _ _ Ht g) in Hhad, Hfuel |- *.
  destruct (ordered_query_exact c cap tr' s0 q g fuel Hc Hmd Hr0 Hp Hq Hne) as (it & l & it' & f & H1 & H2 & H3 & H4 & H5 & H6 & _); [|done|].
  { intros e He. eapply caught_had; try done; [|by apply Hhad]. by apply had_issued, Hhad. }
  exists it, l, it', f. rewrite (alike_ordered_query (lost F) c q s s0 fuel g Hal). split_and!; try done.
  - intros e He. rewrite H5. pose proof (had_issued _ _ (Hhad e He)) as Hi. split; intros (m & Hm & Hall); exists m; (split; [|done]); by apply (caught_back _ _ _ _ _ _ _ Ht Hr0 Hal Hi).
  - intros e rs Hin. assert (e ∈ members tr' g) as He. { assert (e ∈ l.*1) as Hx by (apply elem_of_list_fmap; by exists (e, rs)). rewrite H4 in Hx. apply elem_of_list_In, filter_In in Hx as [Hx _]. by apply elem_of_list_In. }
    rewrite (alike_refs _ _ _ _ _ _ Hal); [by apply H6|]. eapply lost_dead; try done. by apply had_issued, Hhad.
Qed.
End told.

(** ** Both builds *)
Section both.
Context (c : cfg) (Hc : cfg_ok c).
Local Notation d := (in_mode Debug c).
Let Hd : cfg_ok d := cfg_ok_mode Debug c Hc.
Lemma both_qualifies cap tr s q e : crun c cap tr s → e ∈ issued (answered tr) → qualifies c s q e ↔ qualifies d s q e.
Proof using Hc. intros Hr He. split; intros (m & Hm & Hall); exists m; (split; [by apply (both_observed c Hc _ _ _ _ _ Hr He)|done]). Qed.
Lemma both_caught_entity_query cap tr s q ents : crun c cap tr s → NoDup (q_types q) → q_types q ≠ [] →
  (∀ e, e ∈ ents → e ∈ issued (answered tr)) →
  (∀ i e e', ents !! i = Some e → ents !! S i = Some e' → qualifies c s q e → had_components (answered tr) e') →
  ∃ it l it' f, entity_query c q s ents = POk it ∧ yields eiter_next_with it l it' ∧ yields eiter_next it l.*2 it' ∧
    l.*1 = List.filter f ents ∧ (∀ e, e ∈ ents → f e = true ↔ qualifies c s q e) ∧
    (∀ e rs, (e, rs) ∈ l → get_components_refs c s e (q_types q) = POk (Some rs)).
Proof using Hd.
  intros Hr Hq Hne Hiss Hhad. destruct (caught_entity_query d cap Hd eq_refl _ _ q ents (crun_debug c Hc _ _ _ Hr) Hq Hne Hiss) as (it & l & it' & f & H1 & H2 & H3 & H4 & H5 & H6).
  { intros i e e' H1 H2 Hm. apply (Hhad _ _ _ H1 H2), (both_qualifies _ _ _ _ _ Hr); [|done]. by apply Hiss, (elem_of_list_lookup_2 _ _ _ H1). }
  exists it, l, it', f. split_and!; try done; [by apply entity_query_own| |].
  - intros e He. rewrite (both_qualifies _ _ _ _ _ Hr); [by apply H5|]. by apply Hiss.
  - intros e rs Hin. by apply refs_own, H6.
Qed.
Lemma both_caught_ordered_query cap tr s q g fuel : crun c cap tr s → NoDup (q_types q) → q_types q ≠ [] →
  (∀ e, e ∈ members (answered tr) g → had_components (answered tr) e) → (length (members (answered tr) g) < fuel)%nat →
  ∃ it l it' f, ordered_query fuel c q s g = Some (POk it) ∧ yields oiter_next it l.*2 it' ∧ oiter_len it = length l ∧
    l.*1 = List.filter f (members (answered tr) g) ∧ (∀ e, e ∈ members (answered tr) g → f e = true ↔ qualifies c s q e) ∧
    (∀ e rs, (e, rs) ∈ l → get_components_refs c s e (q_types q) = POk (Some rs)).
Proof using Hd.
  intros Hr Hq Hne Hhad Hfuel. destruct (caught_ordered_query d cap Hd eq_refl _ _ q g fuel (crun_debug c Hc _ _ _ Hr) Hq Hne Hhad Hfuel) as (it & l & it' & f & H1 & H2 & H3 & H4 & H5 & H6).
  exists it, l, it', f. rewrite ordered_query_own in H1. split_and!; try done.
  - intros e He. rewrite (both_qualifies _ _ _ _ _ Hr); [by apply H5|]. by apply had_issued, Hhad.
  - intros e rs Hin. by apply refs_own, H6.
Qed.
End both.

(** ** References *)
Lemma explains_unset tr tr' F : explains tr tr' F → ∀ e, e ∉ F → unset tr' e = unset (answered tr) e.
Proof.
  induction 1 as [|tr tr' F o r H IH|tr tr' F o H IH Hcr|tr tr' F a0 e0 H IH]; intros e He.
  - done.
  - rewrite answered_returned, !unset_snoc, IH by done. f_equal. by apply (explains_types _ _ _ H).
  - rewrite answered_panicked. by apply IH.
  - rewrite answered_panicked, unset_snoc. apply not_elem_of_app in He as [He Hne%not_elem_of_cons]. simpl. rewrite decide_False by naive_solver. by apply IH.
Qed.
Lemma tells_assigned tr tr' F T : tells tr tr' F → assigned (answered tr) T → assigned tr' T.
Proof.
  intros Ht Ha e t Hal HT. destruct (decide (e ∈ F)) as [HF|HF].
  - pose proof (unset_types tr' e) as Hsub. rewrite (proj2 (tl_lost _ _ _ Ht e HF)) in Hsub. set_solver.
  - rewrite (explains_unset _ _ _ (tl_expl _ _ _ Ht) e HF). apply Ha; [|done]. by apply (tl_alive _ _ _ Ht e HF).
Qed.
Section refs.
Context (c : cfg) (Hc : cfg_ok c).
Local Notation d := (in_mode Debug c).
Let Hd : cfg_ok d := cfg_ok_mode Debug c Hc.
Lemma told_known cap tr tr' F s0 src : tells tr tr' F → hrun d cap tr' s0 → orders_proper tr' → known (answered tr) src → known tr' src.
Proof using Hd.
  intros Ht Hr0 Hp Hk. destruct src as [e| |ents|g]; simpl in *; try done.
  - apply (tl_issued _ _ _ Ht). by left.
  - intros e He%Hk. eapply (caught_had d cap Hd eq_refl); try done. by apply had_issued.
  - split; [done|]. rewrite (tl_members _ _ _ Ht). intros e He%Hk. eapply (caught_had d cap Hd eq_refl); try done. by apply had_issued.
Qed.
Lemma told_hands_out cap tr tr' F s s0 src q l : tells tr tr' F → hrun d cap tr' s0 → alike (lost F) s s0 → orders_proper tr' → NoDup (q_types q) → q_types q ≠ [] →
  known (answered tr) src → hands_out c s src q l → hands_out d s0 src q l.
Proof using Hd.
  intros Ht Hr0 Hal Hp Hnd Hne Hk Hh. pose proof (told_known _ _ _ _ _ _ Ht Hr0 Hp Hk) as Hk'. pose proof (hrun_run _ _ _ _ Hr0) as Hrun.
  assert (∀ e, e ∈ issued (answered tr) → is_alive d s e = POk true → ¬ lost F (e_id e)) as Hl by (intros e He; by eapply lost_dead).
  destruct src as [e| |ents|g]; simpl in *.
  - destruct Hh as (rs & Hrs & ->). exists rs. split; [|done]. destruct (refs_return c Hc _ _ _ _ _ Hr0 Hk' Hne) as [x Hx].
    assert (get_components_refs c s e (q_types q) = POk x) as Hx'. { apply refs_own. by rewrite (alike_refs _ _ _ _ _ _ Hal (Hl e Hk)). }
    congruence.
  - destruct Hh as (it & it' & Hit & Hy). exists it, it'. split; [|done]. by rewrite <- (alike_query _ _ _ _ _ Hal), component_query_own.
  - destruct Hh as (it & it' & Hit & Hy). exists it, it'. split; [|done].
    destruct (entity_query_exact d _ _ _ _ _ Hd eq_refl Hr0 Hnd Hne Hk') as (it0 & _ & _ & _ & Hx & _).
    assert (entity_query c q s ents = POk it0) as Hx'.
    { apply entity_query_own. rewrite (alike_entity_query (lost F) d q s s0 ents Hal); [done|]. intros e He. apply Hl. by apply had_issued, Hk. }
    congruence.
  - destruct Hh as (fuel & it & it' & Hit & Hy). exists fuel, it, it'. split; [|done]. by rewrite <- (alike_ordered_query (lost F) d q s s0 fuel g Hal), ordered_query_own.
Qed.
Lemma both_caught_references cap tr s src q l : crun c cap tr s → NoDup (q_types q) → q_types q ≠ [] → known (answered tr) src →
  hands_out c s src q l → (once src → exclusive q l) ∧ in_bounds c s q l ∧ (assigned (answered tr) (q_types q) → initialised s l) ∧
    ∀ base, rust_types c → (∀ p t, t ∈ q_types q → (ti_align (c_ty c t) | base p)) → aligned c base q l.
Proof using Hd.
  intros Hr Hnd Hne Hk Hh. destruct (told d cap Hd eq_refl _ _ (crun_debug c Hc _ _ _ Hr)) as (tr' & F & s0 & Ht & Hr0 & Hal & Hp).
  pose proof (told_known _ _ _ _ _ _ Ht Hr0 Hp Hk) as Hk'. pose proof (told_hands_out _ _ _ _ _ _ _ _ _ Ht Hr0 Hal Hp Hnd Hne Hk Hh) as Hh'. split_and!.
  - intros Ho. by eapply (source_exclusive d Hd eq_refl).
  - unfold in_bounds. rewrite (alike_ac _ _ _ Hal). by eapply (source_bounds d Hd eq_refl) in Hh'.
  - intros Hg. unfold initialised. rewrite (alike_ac _ _ _ Hal). eapply (source_init d Hd eq_refl); try done. by eapply tells_assigned.
  - intros base Hty Hb. by eapply (source_aligned d Hd eq_refl) in Hh'.
Qed.
Lemma both_caught_sources cap tr s src1 q1 l1 src2 q2 l2 : crun c cap tr s → NoDup (q_types q1) → q_types q1 ≠ [] → NoDup (q_types q2) → q_types q2 ≠ [] →
  known (answered tr) src1 → known (answered tr) src2 → compatible q1 q2 → hands_out c s src1 q1 l1 → hands_out c s src2 q2 l2 → exclusive_of q1 l1 q2 l2.
Proof using Hd.
  intros Hr Hn1 He1 Hn2 He2 Hk1 Hk2 Hcp H1 H2. destruct (told d cap Hd eq_refl _ _ (crun_debug c Hc _ _ _ Hr)) as (tr' & F & s0 & Ht & Hr0 & Hal & Hp).
  pose proof (told_known _ _ _ _ _ _ Ht Hr0 Hp Hk1) as Hk1'. pose proof (told_known _ _ _ _ _ _ Ht Hr0 Hp Hk2) as Hk2'.
  pose proof (told_hands_out _ _ _ _ _ _ _ _ _ Ht Hr0 Hal Hp Hn1 He1 Hk1 H1) as Hh1. pose proof (told_hands_out _ _ _ _ _ _ _ _ _ Ht Hr0 Hal Hp Hn2 He2 Hk2 H2) as Hh2.
  by apply (sources_exclusive d Hd eq_refl _ _ _ _ _ _ _ _ _ Hr0 Hn1 He1 Hn2 He2 Hk1' Hk2' Hcp Hh1 Hh2).
Qed.
End refs.
