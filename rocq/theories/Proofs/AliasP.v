(** AliasP.v — references handed out at the same time. *)
From Verif.Spec Require Export Aliasing.
From Verif.Proofs Require Export OrdQ SafeP.
Local Open Scope N_scope.

Lemma yields_det {I X} (next : I → pres (option X * I)) it l1 it1 l2 it2 : yields next it l1 it1 → yields next it l2 it2 → l1 = l2.
Proof.
  intros H. revert l2. induction H as [it it1 H|it x it1 l it' H _ IH]; intros l2; inversion 1; simplify_eq; try congruence.
  match goal with H1 : next it = _, H2 : next it = _ |- _ => rewrite H1 in H2; simplify_eq end. f_equal. by apply IH.
Qed.
Lemma extend_fuel s nm p fuel fuel' : (fuel ≤ fuel')%nat → ∀ k x r, oq_extend fuel s nm p k x = Some r → oq_extend fuel' s nm p k x = Some r.
Proof.
  revert fuel'. induction fuel as [|fuel IH]; intros fuel' Hle k x r; [done|]. destruct fuel' as [|fuel']; [lia|]. simpl.
  destruct (x =? NULL_ID); [done|]. destruct (get_eia s x); [|done..]. destruct (_ || _); [done|]. destruct (aget nm x); [|done..]. apply IH. lia.
Qed.
Lemma ranges_fuel c q s nm fuel fuel' : (fuel ≤ fuel')%nat → ∀ x r, oq_ranges fuel c q s nm x = Some r → oq_ranges fuel' c q s nm x = Some r.
Proof.
  revert fuel'. induction fuel as [|fuel IH]; intros fuel' Hle x r; [done|]. destruct fuel' as [|fuel']; [lia|]. simpl.
  destruct (x =? NULL_ID); [done|]. destruct (oq_member c q s x) as [[[l v]|]| |]; [| |done..].
  - destruct (aget nm x) as [n| |]; [|done..]. destruct (oq_extend fuel s nm (ea_page l) (S (ea_idx l)) n) as [y|] eqn:E; [|done].
    rewrite (extend_fuel s nm _ fuel fuel' ltac:(lia) _ _ _ E). simpl. destruct y as [[stop n']| |]; [|done..].
    destruct (oq_ranges fuel c q s nm n') as [z|] eqn:E2; [|done]. by rewrite (IH fuel' ltac:(lia) _ _ E2).
  - destruct (aget nm x) as [n| |]; [|done..]. apply IH. lia.
Qed.
Lemma ordered_fuel c q s g fuel fuel' r : (fuel ≤ fuel')%nat → ordered_query fuel c q s g = Some r → ordered_query fuel' c q s g = Some r.
Proof.
  intros Hle. unfold ordered_query. destruct (get_group_index c (st_orders s) g); [|done]. repeat (case_match; try done).
  destruct (oq_ranges fuel c q s _ _) as [z|] eqn:E2; [|done]. by rewrite (ranges_fuel _ _ _ _ fuel fuel' Hle _ _ E2).
Qed.

Section alias.
Context (c : cfg) (Hc : cfg_ok c) (Hmd : c_mode c = Debug).

Lemma handed cap tr s src q l : hrun c cap tr s → NoDup (q_types q) → q_types q ≠ [] → known tr src → hands_out c s src q l →
  ∃ es, Forall2 (λ e rs, e ∈ live tr ∧ get_components_refs c s e (q_types q) = POk (Some rs)) es l ∧ (once src → NoDup es).
Proof using Hc Hmd.
  intros Hr Hnd Hne Hk Hh.
  destruct (hrun_state c Hc Hmd _ _ _ Hr) as (D & Hs & _).
  assert (∀ e rs, e ∈ issued tr → get_components_refs c s e (q_types q) = POk (Some rs) → e ∈ live tr) as Hlive.
  { intros e rs He Hg. eapply refs_inv; [done|done| |done|done]. eapply (own_lt c Hmd); [by eapply hrun_run|done]. }
  assert (∀ (k : list (entity * list cref)), l = k.*2 → (∀ e rs, (e, rs) ∈ k → e ∈ issued tr ∧ get_components_refs c s e (q_types q) = POk (Some rs)) →
    Forall2 (λ e rs, e ∈ live tr ∧ get_components_refs c s e (q_types q) = POk (Some rs)) k.*1 l) as Hpairs.
  { intros k -> Hx. apply Forall2_fmap, Forall_Forall2_diag, Forall_forall. intros [e rs] He. destruct (Hx _ _ He). simpl. eauto. }
  assert (∀ f (m : list entity), NoDup m → NoDup (List.filter f m)) as Hfil.
  { intros f m Hm. apply NoDup_ListNoDup, List.NoDup_filter, NoDup_ListNoDup, Hm. }
  destruct src as [e| |ents|g]; simpl in *.
  - destruct Hh as (rs & Hg & ->). exists [e]. split; [|intros; apply NoDup_singleton]. repeat constructor; eauto.
  - destruct Hh as (it & it' & Hit & Hy). destruct (query_exact c Hc Hmd _ _ _ q Hr Hnd Hne) as (it0 & k & it1 & it2 & Hit0 & _ & Hy0 & _ & Hk1 & _ & _ & Hx).
    assert (it0 = it) as -> by congruence. pose proof (yields_det _ _ _ _ _ _ Hy Hy0). exists k.*1. split; [|done]. apply Hpairs; [done|].
    intros e rs Hin. destruct (Hx _ _ Hin) as (Hg & m & Hm & _). split; [|done]. 
    apply (observed_D c Hc Hmd _ _ _ _ _ _ Hr Hs) in Hm as [Hm _]. by apply (inv_live_issued _ _ _ (cs_ec _ _ _ _ _ Hs)).
  - destruct Hh as (it & it' & Hit & Hy). destruct (entity_query_exact c _ _ _ q ents Hc Hmd Hr Hnd Hne Hk) as (it0 & k & it1 & f & Hit0 & _ & Hy0 & Hk1 & _ & Hx).
    assert (it0 = it) as -> by congruence. pose proof (yields_det _ _ _ _ _ _ Hy Hy0). exists k.*1. split; [|rewrite Hk1; eauto]. apply Hpairs; [done|].
    intros e rs Hin. split; [|by apply Hx]. eapply had_issued, Hk. assert (e ∈ k.*1) as He by (apply elem_of_list_fmap; by exists (e, rs)).
    rewrite Hk1 in He. apply elem_of_list_In, filter_In in He as [He _]. by apply elem_of_list_In.
  - destruct Hh as (fuel & it & it' & Hit & Hy). destruct Hk as [Hp Hk].
    set (fuel' := (fuel + S (length (members tr g)))%nat).
    destruct (ordered_query_exact c _ _ _ q g fuel' Hc Hmd Hr Hp Hnd Hne Hk) as (it0 & k & it1 & f & Hit0 & Hy0 & _ & Hk1 & _ & Hx & _); [lia|].
    rewrite (ordered_fuel c q s g fuel fuel' _ ltac:(lia) Hit) in Hit0. injection Hit0 as ->.
    pose proof (yields_det _ _ _ _ _ _ Hy Hy0). destruct Hc as [Hbs _ _]. pose proof (proj1 (run_orders c cap Hbs Hmd _ _ (hrun_run _ _ _ _ Hr) Hp) g) as [Hm _].
    exists k.*1. split; [|rewrite Hk1; eauto]. apply Hpairs; [done|].
    intros e rs Hin. split; [|by apply Hx]. eapply had_issued, Hk. assert (e ∈ k.*1) as He by (apply elem_of_list_fmap; by exists (e, rs)).
    rewrite Hk1 in He. apply elem_of_list_In, filter_In in He as [He _]. by apply elem_of_list_In.
Qed.

(** A byte of two references: the same component of the same entity. *)
Lemma shared_byte cap tr s e1 e2 T1 T2 rs1 rs2 i1 i2 r1 r2 p b : hrun c cap tr s → T1 ≠ [] → T2 ≠ [] → e1 ∈ live tr → e2 ∈ live tr →
  get_components_refs c s e1 T1 = POk (Some rs1) → get_components_refs c s e2 T2 = POk (Some rs2) →
  rs1 !! i1 = Some r1 → rs2 !! i2 = Some r2 → covers r1 p b → covers r2 p b →
  e1 = e2 ∧ ∃ t, T1 !! i1 = Some t ∧ T2 !! i2 = Some t.
Proof using Hc Hmd.
  intros Hr HT1 HT2 He1 He2 Hg1 Hg2 Hr1 Hr2 Hb1 Hb2. destruct (hrun_state c Hc Hmd _ _ _ Hr) as (D & Hs & _).
  pose proof (live_lt _ _ _ _ (cs_ec _ _ _ _ _ Hs) He1) as Hlt1. pose proof (live_lt _ _ _ _ (cs_ec _ _ _ _ _ Hs) He2) as Hlt2.
  destruct (refs_inv c Hc _ _ _ _ _ _ _ Hs Hlt1 HT1 Hg1) as (_ & m1 & p1 & k1 & _ & _ & Hl1 & Hat1).
  destruct (refs_inv c Hc _ _ _ _ _ _ _ Hs Hlt2 HT2 Hg2) as (_ & m2 & p2 & k2 & _ & _ & Hl2 & Hat2).
  destruct (at_loc_disjoint c _ _ _ _ _ _ _ _ _ _ _ _ _ _ _ _ _ _ _ (ci_ac _ _ _ _ (cs_inv _ _ _ _ _ Hs)) Hl1 Hl2 Hat1 Hat2 Hr1 Hr2 Hb1 Hb2) as (-> & -> & Ht).
  assert (e_id e1 = e_id e2) as Hid by congruence. split.
  - pose proof (live_ids _ _ Hmd _ _ (hrun_run _ _ _ _ Hr)) as [Huniq _]. apply Huniq; [by apply live_alive|by apply live_alive|done].
  - apply lookup_lt_Some in Hr1. destruct Hat1 as (a & ly & _ & Hat1). apply Forall2_length in Hat1. rewrite <- Hat1 in Hr1.
    destruct (lookup_lt_is_Some_2 _ _ Hr1) as [t Ht1]. exists t. split; [done|]. congruence.
Qed.
Lemma source_exclusive cap tr s src q l : hrun c cap tr s → NoDup (q_types q) → q_types q ≠ [] → known tr src → once src →
  hands_out c s src q l → exclusive q l.
Proof using Hc Hmd.
  intros Hr Hnd Hne Hk Ho Hh. destruct (handed _ _ _ _ _ _ Hr Hnd Hne Hk Hh) as (es & Hes & Hone). specialize (Hone Ho).
  intros n1 n2 x1 x2 i1 i2 r1 r2 p b H1 H2 Hr1 Hr2 _ Hb1 Hb2.
  destruct (Forall2_lookup_r _ _ _ _ _ Hes H1) as (e1 & He1 & HL1 & Hg1). destruct (Forall2_lookup_r _ _ _ _ _ Hes H2) as (e2 & He2 & HL2 & Hg2).
  destruct (shared_byte _ _ _ _ _ _ _ _ _ _ _ _ _ _ _ Hr Hne Hne HL1 HL2 Hg1 Hg2 Hr1 Hr2 Hb1 Hb2) as (-> & t & Ht1 & Ht2).
  split; [by eapply NoDup_lookup|by eapply (NoDup_lookup (q_types q))].
Qed.
Lemma sources_exclusive cap tr s src1 q1 l1 src2 q2 l2 : hrun c cap tr s → NoDup (q_types q1) → q_types q1 ≠ [] → NoDup (q_types q2) → q_types q2 ≠ [] →
  known tr src1 → known tr src2 → compatible q1 q2 → hands_out c s src1 q1 l1 → hands_out c s src2 q2 l2 → exclusive_of q1 l1 q2 l2.
Proof using Hc Hmd.
  intros Hr Hnd1 Hne1 Hnd2 Hne2 Hk1 Hk2 [Hw1 Hw2] Hh1 Hh2. destruct (handed _ _ _ _ _ _ Hr Hnd1 Hne1 Hk1 Hh1) as (es1 & Hes1 & _).
  destruct (handed _ _ _ _ _ _ Hr Hnd2 Hne2 Hk2 Hh2) as (es2 & Hes2 & _).
  intros x1 x2 i1 i2 r1 r2 p b [n1 H1]%elem_of_list_lookup [n2 H2]%elem_of_list_lookup Hr1 Hr2 Hb1 Hb2.
  destruct (Forall2_lookup_r _ _ _ _ _ Hes1 H1) as (e1 & He1 & HL1 & Hg1). destruct (Forall2_lookup_r _ _ _ _ _ Hes2 H2) as (e2 & He2 & HL2 & Hg2).
  destruct (shared_byte _ _ _ _ _ _ _ _ _ _ _ _ _ _ _ Hr Hne1 Hne2 HL1 HL2 Hg1 Hg2 Hr1 Hr2 Hb1 Hb2) as (-> & t & Ht1 & Ht2).
  unfold q_types in *. split.
  - apply lookup_app_Some in Ht1 as [Ht1|[_ Ht1]]; [by eapply lookup_lt_Some|]. destruct (Hw1 t); by eapply elem_of_list_lookup_2.
  - apply lookup_app_Some in Ht2 as [Ht2|[_ Ht2]]; [by eapply lookup_lt_Some|]. destruct (Hw2 t); by eapply elem_of_list_lookup_2.
Qed.

Lemma source_bounds cap tr s src q l : hrun c cap tr s → NoDup (q_types q) → q_types q ≠ [] → known tr src →
  hands_out c s src q l → in_bounds c s q l.
Proof using Hc Hmd.
  intros Hr Hnd Hne Hk Hh. destruct (handed _ _ _ _ _ _ Hr Hnd Hne Hk Hh) as (es & Hes & _).
  intros x [n Hx]%elem_of_list_lookup. destruct (Forall2_lookup_r _ _ _ _ _ Hes Hx) as (e & _ & HL & Hg).
  destruct (hrun_state c Hc Hmd _ _ _ Hr) as (D & Hs & _). pose proof (live_lt _ _ _ _ (cs_ec _ _ _ _ _ Hs) HL) as Hlt.
  destruct (refs_inv c Hc _ _ _ _ _ _ _ Hs Hlt Hne Hg) as (_ & m & p & k & _ & _ & Hl & a & ly & Hpa & Hat).
  split; [symmetry; by eapply Forall2_length|]. intros i t r Ht Hr'.
  destruct (Forall2_lookup_lr _ _ _ _ _ _ Hat Ht Hr') as (j & o & Hj & Ho & ->). simpl.
  destruct (loc_page _ _ _ _ _ _ (ci_ac _ _ _ _ (cs_inv _ _ _ _ _ Hs)) Hl) as (pg & i' & a' & ly' & Hpg & _ & _ & _ & Hpa' & Hwf & (_ & Hcol & _) & Hk' & _).
  assert ((a', ly') = (a, ly)) as [= -> ->] by congruence. split; [done|]. split; [|by eexists].
  destruct (Hcol _ _ _ (arch_wf_lookup _ _ _ _ Hwf Hj) Ho) as (_ & Hle & _). unfold off_at, data_off. simpl in *.
  assert (ti_size (c_ty c t) * (N.of_nat k + 1) ≤ ti_size (c_ty c t) * ly_cap ly) by (apply N.mul_le_mono_l; lia). lia.
Qed.
Lemma source_aligned cap tr s src q l base : rust_types c → hrun c cap tr s → NoDup (q_types q) → q_types q ≠ [] → known tr src →
  (∀ p t, t ∈ q_types q → (ti_align (c_ty c t) | base p)) → hands_out c s src q l → aligned c base q l.
Proof using Hc Hmd.
  intros Hty Hr Hnd Hne Hk Hb Hh. destruct (handed _ _ _ _ _ _ Hr Hnd Hne Hk Hh) as (es & Hes & _).
  intros x i t r [n Hx]%elem_of_list_lookup Ht Hr'. destruct (Forall2_lookup_r _ _ _ _ _ Hes Hx) as (e & _ & HL & Hg).
  destruct (hrun_state c Hc Hmd _ _ _ Hr) as (D & Hs & _). pose proof (live_lt _ _ _ _ (cs_ec _ _ _ _ _ Hs) HL) as Hlt.
  destruct (refs_inv c Hc _ _ _ _ _ _ _ Hs Hlt Hne Hg) as (_ & m & p & k & _ & _ & Hl & a & ly & Hpa & Hat).
  destruct (Forall2_lookup_lr _ _ _ _ _ _ Hat Ht Hr') as (j & o & Hj & Ho & ->). simpl.
  destruct (loc_page _ _ _ _ _ _ (ci_ac _ _ _ _ (cs_inv _ _ _ _ _ Hs)) Hl) as (pg & i' & a' & ly' & Hpg & _ & _ & _ & Hpa' & Hwf & (_ & Hcol & _) & Hk' & _).
  assert ((a', ly') = (a, ly)) as [= -> ->] by congruence.
  destruct (Hcol _ _ _ (arch_wf_lookup _ _ _ _ Hwf Hj) Ho) as (_ & _ & Hal). unfold off_at, data_off. simpl in *.
  apply N.divide_add_r; [eapply Hb, elem_of_list_lookup_2; done|]. 
  apply N.divide_add_r; [done|]. apply N.divide_mul_r, Hty.
Qed.
Lemma unset_snoc tr o r e : unset (tr ++ [(o, r)]) e = unset_step e (types tr e) (unset tr e) o r.
Proof using.
  clear. unfold unset, types. rewrite foldl_snoc. simpl. f_equal. generalize (@None (gset tid)), (∅ : gset tid).
  induction tr as [|[o' r'] tr IH]; intros x u; simpl; [done|]. apply IH.
Qed.
Lemma unset_types tr e : unset tr e ⊆ default ∅ (types tr e).
Proof using.
  clear. induction tr as [|[o r] tr IH] using rev_ind; [done|]. rewrite unset_snoc. unfold types. rewrite foldl_snoc. fold (types tr e). simpl.
  destruct o; simpl; try done; try (destruct (decide _); [|done]); try done; try (destruct (types tr e); simpl in *; set_solver).
Qed.
Lemma given_unset tr e : given tr → unset tr e = ∅.
Proof using.
  clear. intros Hg. induction tr as [|[o r] tr IH] using rev_ind; [done|]. rewrite unset_snoc, IH by (intros a r' Hin; apply (Hg a r'), elem_of_app; by left).
  destruct o; simpl; try done; try (destruct (decide _); set_solver). destruct (Hg a r). apply elem_of_app. right. by left.
Qed.
Lemma put_init_at vals (m : gmap tid (list cell)) t v : (t ∉ vals.*1 → ∀ v, m !! t = Some v → Forall is_Some v) → put vals m !! t = Some v → Forall is_Some v.
Proof using.
  clear. revert m. induction vals as [|[t0 v0] vals IH]; intros m Hm; simpl; [apply Hm, not_elem_of_nil|]. apply IH. intros Hn w [[_ <-]|[Hne Hw]]%lookup_insert_Some.
  - apply Forall_fmap, Forall_true. intros x. by eexists.
  - apply Hm; [|done]. simpl. rewrite not_elem_of_cons. done.
Qed.
Lemma has_all_types tr e m T : comps tr e (Some m) → has_all m T = true ↔ list_to_set T ⊆ default ∅ (types tr e).
Proof using.
  clear. intros <-%comps_types. simpl. rewrite has_all_spec. split; [intros H t; rewrite elem_of_list_to_set, elem_of_dom; apply H|].
  intros H t Ht. by apply elem_of_dom, H, elem_of_list_to_set.
Qed.
Lemma unset_init cap tr s e m : hrun c cap tr s → comps tr e (Some m) → ∀ t v, t ∉ unset tr e → m !! t = Some v → Forall is_Some v.
Proof using.
  clear Hc Hmd. intros Hr. revert m. induction Hr as [s H|tr s o s' r Hr IH Hh Ha Hro H]; intros m Hm; [by inversion Hm; destruct tr|].
  inversion Hm as [|tr1 e1 x o1 r1 x' Hx Hst Heq]; subst. apply app_inj_tail in Heq as [-> [= -> ->]]. intros t v. rewrite unset_snoc.
  destruct o as [|a|e'|e' vals|e' T|e' vals|q f|t' e'|t' e'|g e'|g e' to|g e' to|g e']; simpl in Hst |- *; try (subst; by apply IH).
  - destruct (decide _); [injection Hst as ->; by rewrite lookup_empty|subst; by apply IH].
  - destruct (decide _); [|subst; by apply IH]. destruct Hst as (m1 & [= <-] & Hdom). rewrite elem_of_list_to_set, <- Hdom. intros Hn Hv. by destruct Hn.
  - destruct (decide _); [done|subst; by apply IH].
  - destruct (decide _) as [->|]; [|subst; by apply IH]. destruct x as [m'|]; [|done]. injection Hst as ->. intros Hn. apply put_init_at. intros Ht w Hw.
    apply (IH _ Hx t); [set_solver|done].
  - destruct (decide _) as [->|]; [|subst; by apply IH]. destruct x as [m'|]; [|done]. injection Hst as ->. intros Hn. rewrite forget_lookup. destruct (decide (t ∈ T)); [done|].
    apply (IH _ Hx). set_solver.
  - destruct (decide (e' = e)) as [->|Hne]; [|subst; rewrite decide_False by naive_solver; by apply IH]. destruct x as [m'|]; [|done]. injection Hst as ->.
    pose proof (has_all_types tr e m' vals.*1 Hx) as Hall. destruct (has_all m' vals.*1).
    + rewrite decide_True by naive_solver. intros Hn. apply put_init_at. intros Ht w Hw. apply (IH _ Hx t); [set_solver|done].
    + rewrite decide_False by naive_solver. by apply IH.
  - destruct x as [m'|]; [|done]. injection Hst as ->. pose proof (has_all_types tr e m' (q_types q) Hx) as Hall. destruct (has_all m' (q_types q)).
    + rewrite decide_True by naive_solver. intros Hn. apply put_init_at. intros Ht w Hw. apply (IH _ Hx t); [|done].
      destruct Ha as [_ Ha]. destruct (Ha e (values m' (q_read q))) as [Hl _]. rewrite fst_zip in Ht by lia. set_solver.
    + rewrite decide_False by naive_solver. by apply IH.
Qed.
Lemma reads_unset cap tr s e T vs : hrun c cap tr s → (∀ t, t ∈ T → t ∉ unset tr e) → T ≠ [] →
  read_components c s e T = POk (Some vs) → Forall (Forall is_Some) vs.
Proof using Hc Hmd.
  intros Hr Hno HT Hrd. destruct (N.lt_ge_cases (e_id e) (entities_capacity s)) as [Hlt|Hge].
  - destruct (values_persist c Hc Hmd _ _ _ e Hr Hlt) as (x & Hcs & (_ & Hx & _) & _). rewrite (Hx T HT) in Hrd. injection Hrd as Hrd.
    destruct x as [m|]; [|done]. simpl in Hrd. destruct (has_all m T) eqn:E; [|done]. injection Hrd as <-.
    rewrite has_all_spec in E. unfold values. apply Forall_fmap, Forall_forall. intros t Ht. simpl. destruct (E t Ht) as [v Hv]. rewrite Hv. simpl.
    eapply unset_init; try done. by apply Hno.
  - exfalso. unfold read_components, get_components_refs, is_valid_with_archetype in Hrd. apply pbind_ok in Hrd as (x & Hx & _). apply pbind_ok in Hx as (b & Hb & _).
    apply pbind_ok in Hb as (b' & Hb & _). destruct (hrun_state c Hc Hmd _ _ _ Hr) as (D & Hs & _). apply (alive_lt c Hmd _ _ _ _ _ (cs_ec _ _ _ _ _ Hs)) in Hb. unfold entities_capacity in Hge. lia.
Qed.
Lemma source_init cap tr s src q l : hrun c cap tr s → assigned tr (q_types q) → NoDup (q_types q) → q_types q ≠ [] → known tr src →
  hands_out c s src q l → initialised s l.
Proof using Hc Hmd.
  intros Hr Hgi Hnd Hne Hk Hh. destruct (handed _ _ _ _ _ _ Hr Hnd Hne Hk Hh) as (es & Hes & _).
  intros x r [n Hx]%elem_of_list_lookup Hin. destruct (Forall2_lookup_r _ _ _ _ _ Hes Hx) as (e & _ & HL & Hg).
  destruct (live_ids _ _ Hmd _ _ (hrun_run _ _ _ _ Hr)) as [_ Hlt]. specialize (Hlt e (proj1 (live_alive _ _) HL)).
  destruct (values_persist c Hc Hmd _ _ _ e Hr Hlt) as (y & Hy & (_ & Hread & _) & _). specialize (Hread _ Hne).
  unfold read_components in Hread. rewrite Hg in Hread. simpl in Hread. injection Hread as Hread.
  destruct y as [m|]; [|done]. simpl in Hread. destruct (has_all m (q_types q)); [|done]. injection Hread as Hread.
  assert (read_ref (ac_pages (st_ac s)) r ∈ values m (q_types q)) as Hv by (rewrite <- Hread; by apply elem_of_list_fmap_1).
  unfold values in Hv. apply elem_of_list_fmap in Hv as (t & Hv & Ht). rewrite Hv. destruct (m !! t) as [v|] eqn:E; simpl; [|constructor].
  eapply unset_init; try done. by apply Hgi; [apply live_alive|].
Qed.
Lemma given_assigned tr T : given tr → assigned tr T.
Proof using. clear. intros Hg e t _ _. rewrite given_unset by done. apply not_elem_of_empty. Qed.
Lemma given_source_init cap tr s src q l : hrun c cap tr s → given tr → NoDup (q_types q) → q_types q ≠ [] → known tr src →
  hands_out c s src q l → initialised s l.
Proof using Hc Hmd. intros Hr Hg. by apply (source_init cap tr), given_assigned. Qed.
End alias.

(** ** Witnesses: one entity with component 1, one with 1 and 2 *)
Definition two_ents : list (list entity → op) := [λ _, OCreateWith (ex_arch [1]); λ _, OCreateWith (ex_arch [1; 2])].
Lemma two_ents_run : hrun (ex_cfg Debug) 4 (end_trace (ex_cfg Debug) 4 two_ents) (end_store (ex_cfg Debug) 4 two_ents).
Proof. apply hend_run. vm_compute. reflexivity. Qed.
(** The references [drain] collects are handed out. *)
Lemma drain_components c s q it l : component_query c q s = POk it → drain 9 qiter_next it = POk l → (length l < 9)%nat → hands_out c s FromComponents q l.
Proof. intros H1 H2 H3. destruct (drain_yields qiter_next 9 _ _ H2 H3) as [it' ?]. by exists it, it'. Qed.
Lemma drain_entities c s ents q it l : entity_query c q s ents = POk it → drain 9 eiter_next it = POk l → (length l < 9)%nat → hands_out c s (FromEntities ents) q l.
Proof. intros H1 H2 H3. destruct (drain_yields eiter_next 9 _ _ H2 H3) as [it' ?]. by exists it, it'. Qed.
Lemma of_bind {A B} (m : pres A) (f : A → pres B) b : (x ← m; f x) = POk b → ∃ a, m = POk a ∧ f a = POk b.
Proof. apply pbind_ok. Qed.
Definition ref4 : cref := Ref 4 0 4.
Definition ref3 : cref := Ref 3 0 4.
Lemma first_byte_of r : 0 < r_len r → covers r (r_page r) (r_off r).
Proof. unfold covers. lia. Qed.

Lemma exclusive_not q l n1 n2 x1 x2 i1 i2 r : exclusive q l → l !! n1 = Some x1 → l !! n2 = Some x2 → x1 !! i1 = Some r → x2 !! i2 = Some r →
  (length (q_read q) ≤ i1)%nat → 0 < r_len r → (n1 ≠ n2 ∨ i1 ≠ i2) → False.
Proof. intros H H1 H2 H3 H4 H5 Hr%first_byte_of H6. destruct (H n1 n2 x1 x2 i1 i2 r r _ _ H1 H2 H3 H4 H5 Hr Hr). lia. Qed.
Lemma listed_twice : ¬ single_exclusive (λ _ q, NoDup (q_types q)).
Proof.
  intros H.
  assert ((it ← entity_query (ex_cfg Debug) (Access [] [1]) (end_store (ex_cfg Debug) 4 two_ents) [Entity 0 1; Entity 0 1]; drain 9 eiter_next it) = POk [[ref4]; [ref4]]) as Hd by (vm_compute; reflexivity).
  pose proof two_ents_run as Hr.
  assert (had_components (end_trace (ex_cfg Debug) 4 two_ents) (Entity 0 1)) as Hhad. { apply (had_now _ _ _ _ _ (ex_cfg_ok Debug) eq_refl two_ents_run). vm_compute. reflexivity. }
  revert Hd Hhad Hr. generalize (end_store (ex_cfg Debug) 4 two_ents) as s, (end_trace (ex_cfg Debug) 4 two_ents) as tr. intros s tr Hd Hhad Hr.
  apply of_bind in Hd as (it & H1 & H2).
  assert (exclusive (Access [] [1]) [[ref4]; [ref4]]) as Hx.
  { apply (H (ex_cfg Debug) 4 tr s (FromEntities [Entity 0 1; Entity 0 1])); [apply ex_cfg_ok|done|done|done| |apply NoDup_singleton|].
    - intros e He. repeat (apply elem_of_cons in He as [->|He]; [done|]). by apply elem_of_nil in He.
    - eapply drain_entities; [done|done|simpl; lia]. }
  apply (exclusive_not _ _ 0%nat 1%nat [ref4] [ref4] 0%nat 0%nat ref4 Hx); try done. by left.
Qed.
Lemma type_twice src : src = FromEntity (Entity 1 1) ∨ src = FromComponents → ¬ single_exclusive (λ x _, x = src).
Proof.
  intros Hsrc H.
  assert ((it ← component_query (ex_cfg Debug) (Access [] [1; 1]) (end_store (ex_cfg Debug) 4 two_ents); drain 9 qiter_next it) = POk [[ref3; ref3]]) as Hd by (vm_compute; reflexivity).
  assert (get_components_refs (ex_cfg Debug) (end_store (ex_cfg Debug) 4 two_ents) (Entity 1 1) [1; 1] = POk (Some [ref3; ref3])) as H3 by (vm_compute; reflexivity).
  assert (Entity 1 1 ∈ issued (end_trace (ex_cfg Debug) 4 two_ents)) as Hin by (vm_compute; right; left). pose proof two_ents_run as Hr.
  revert Hd H3 Hin Hr. generalize (end_store (ex_cfg Debug) 4 two_ents) as s, (end_trace (ex_cfg Debug) 4 two_ents) as tr. intros s tr Hd H3 Hin Hr.
  apply of_bind in Hd as (it & H1 & H2).
  assert (∃ l, hands_out (ex_cfg Debug) s src (Access [] [1; 1]) l ∧ l !! 0%nat = Some [ref3; ref3]) as (l & Hh & Hl).
  { destruct Hsrc as [-> | ->]; [by exists [[ref3; ref3]]; split; [exists [ref3; ref3]|]|].
    exists [[ref3; ref3]]. split; [|done]. eapply drain_components; [done|done|simpl; lia]. }
  assert (exclusive (Access [] [1; 1]) l) as Hx.
  { apply (H (ex_cfg Debug) 4 tr s src); [apply ex_cfg_ok|done|done|done| |done|done]. by destruct Hsrc as [-> | ->]. }
  apply (exclusive_not _ _ 0%nat 0%nat [ref3; ref3] [ref3; ref3] 0%nat 1%nat ref3 Hx); try done. by right.
Qed.
Lemma read_and_write : ¬ single_exclusive (λ x q, x = FromComponents ∧ NoDup (q_read q) ∧ NoDup (q_write q)).
Proof.
  intros H.
  assert ((it ← component_query (ex_cfg Debug) (Access [1] [1]) (end_store (ex_cfg Debug) 4 two_ents); drain 9 qiter_next it) = POk [[ref4; ref4]; [ref3; ref3]]) as Hd by (vm_compute; reflexivity).
  pose proof two_ents_run as Hr.
  revert Hd Hr. generalize (end_store (ex_cfg Debug) 4 two_ents) as s, (end_trace (ex_cfg Debug) 4 two_ents) as tr. intros s tr Hd Hr.
  apply of_bind in Hd as (it & H1 & H2).
  assert (exclusive (Access [1] [1]) [[ref4; ref4]; [ref3; ref3]]) as Hx.
  { apply (H (ex_cfg Debug) 4 tr s FromComponents); [apply ex_cfg_ok|done|done|done|done| |].
    - split_and!; [done|apply NoDup_singleton..].
    - eapply drain_components; [done|done|simpl; lia]. }
  apply (exclusive_not _ _ 0%nat 0%nat [ref4; ref4] [ref4; ref4] 1%nat 0%nat ref4 Hx); try done. by right.
Qed.
Lemma two_writers : ¬ ∀ c cap tr s q1 l1 q2 l2, cfg_ok c → c_mode c = Debug → hrun c cap tr s → NoDup (q_types q1) → NoDup (q_types q2) →
  hands_out c s FromComponents q1 l1 → hands_out c s FromComponents q2 l2 → exclusive_of q1 l1 q2 l2.
Proof.
  intros H.
  assert ((it ← component_query (ex_cfg Debug) (Access [] [1]) (end_store (ex_cfg Debug) 4 two_ents); drain 9 qiter_next it) = POk [[ref4]; [ref3]]) as Hd by (vm_compute; reflexivity).
  pose proof two_ents_run as Hr.
  revert Hd Hr. generalize (end_store (ex_cfg Debug) 4 two_ents) as s, (end_trace (ex_cfg Debug) 4 two_ents) as tr. intros s tr Hd Hr.
  apply of_bind in Hd as (it & H1 & H2).
  assert (hands_out (ex_cfg Debug) s FromComponents (Access [] [1]) [[ref4]; [ref3]]) as Hh by (eapply drain_components; [done|done|simpl; lia]).
  assert (exclusive_of (Access [] [1]) [[ref4]; [ref3]] (Access [] [1]) [[ref4]; [ref3]]) as Hx.
  { apply (H (ex_cfg Debug) 4 tr s); [apply ex_cfg_ok|done|done|apply NoDup_singleton|apply NoDup_singleton|done|done]. }
  destruct (Hx [ref4] [ref4] 0%nat 0%nat ref4 ref4 4%nat 0) as [Hlt _]; [by left|by left|done|done|by apply (first_byte_of ref4)|by apply (first_byte_of ref4)|].
  simpl in Hlt. lia.
Qed.

Lemma base_one_refuted : ¬ ∀ c cap tr s src q l base, cfg_ok c → c_mode c = Debug → rust_types c → hrun c cap tr s → NoDup (q_types q) → q_types q ≠ [] →
  known tr src → page_addresses base → hands_out c s src q l → aligned c base q l.
Proof.
  intros H.
  assert ((it ← component_query (ex_cfg Debug) (Access [] [1]) (end_store (ex_cfg Debug) 4 two_ents); drain 9 qiter_next it) = POk [[ref4]; [ref3]]) as Hd by (vm_compute; reflexivity).
  pose proof two_ents_run as Hr.
  revert Hd Hr. generalize (end_store (ex_cfg Debug) 4 two_ents) as s, (end_trace (ex_cfg Debug) 4 two_ents) as tr. intros s tr Hd Hr.
  apply of_bind in Hd as (it & H1 & H2).
  assert (rust_types (ex_cfg Debug)) as Hty.
  { intros t. unfold ex_cfg, ex_ty. simpl. repeat case_match; simpl; by apply N.mod_divide. }
  assert (aligned (ex_cfg Debug) (λ _, 1) (Access [] [1]) [[ref4]; [ref3]]) as Hx.
  { apply (H (ex_cfg Debug) 4 tr s FromComponents); [apply ex_cfg_ok|done|done|done|apply NoDup_singleton|done|done| |].
    - intros p. apply N.divide_refl.
    - eapply drain_components; [done|done|simpl; lia]. }
  specialize (Hx [ref4] 0%nat 1 ref4 ltac:(by left) eq_refl eq_refl). apply N.mod_divide in Hx; done.
Qed.
Lemma init_refuted : ¬ ∀ c cap tr s src q l, cfg_ok c → c_mode c = Debug → hrun c cap tr s → NoDup (q_types q) → q_types q ≠ [] →
  known tr src → hands_out c s src q l → initialised s l.
Proof.
  intros H.
  assert ((it ← component_query (ex_cfg Debug) (Access [] [1]) (end_store (ex_cfg Debug) 4 two_ents); drain 9 qiter_next it) = POk [[ref4]; [ref3]]) as Hd by (vm_compute; reflexivity).
  assert (read_ref (ac_pages (st_ac (end_store (ex_cfg Debug) 4 two_ents))) ref4 = [None; None; None; None]) as Hn by (vm_compute; reflexivity).
  pose proof two_ents_run as Hr.
  revert Hd Hn Hr. generalize (end_store (ex_cfg Debug) 4 two_ents) as s, (end_trace (ex_cfg Debug) 4 two_ents) as tr. intros s tr Hd Hn Hr.
  apply of_bind in Hd as (it & H1 & H2).
  assert (initialised s [[ref4]; [ref3]]) as Hx.
  { apply (H (ex_cfg Debug) 4 tr s FromComponents (Access [] [1])); [apply ex_cfg_ok|done|done|apply NoDup_singleton|done|done|].
    eapply drain_components; [done|done|simpl; lia]. }
  specialize (Hx [ref4] ref4 ltac:(by left) ltac:(by left)). rewrite Hn in Hx. apply Forall_cons in Hx as [[? ?] _]. done.
Qed.
