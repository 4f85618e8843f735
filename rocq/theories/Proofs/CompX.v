(** CompX.v — the component properties over histories; concrete page-healthy histories. *)
From Verif.Spec Require Export Components.
From Verif.Proofs Require Export CompH ExecP.
Local Open Scope N_scope.

Lemma hrun_run c cap tr s : hrun c cap tr s → run c cap tr s.
Proof. induction 1; [by constructor|by econstructor]. Qed.

Lemma expected_inj (m m' : gmap tid (list cell)) : (∀ t, expected (Some m) [t] = expected (Some m') [t]) → m = m'.
Proof.
  intros H. apply map_eq. intros t. specialize (H t). unfold expected, has_all, values in H. simpl in H.
  destruct (m !! t) as [v|], (m' !! t) as [v'|]; simpl in H; try done. congruence.
Qed.
Lemma observed_inj c s e x y : observed c s e x → observed c s e y → x = y.
Proof.
  intros (Ha & Hr & _) (Ha' & Hr' & _). rewrite Ha in Ha'. injection Ha' as Ha'.
  destruct x as [m|], y as [m'|]; try done. f_equal. apply expected_inj. intros t.
  specialize (Hr [t] ltac:(done)). specialize (Hr' [t] ltac:(done)). congruence.
Qed.

Section comp.
Context (c : cfg) (Hc : cfg_ok c) (Hmd : c_mode c = Debug).

Lemma init_state cap s : store_with_capacity (c_mode c) cap = POk s → comp_state c s [] ∅ ∅.
Proof using.
  clear Hc Hmd. intros H. unfold store_with_capacity in H. apply pbind_ok in H as (u & _ & [= <-]). split.
  - apply ec_new_inv.
  - split; simpl; try (unfold alloc_filled; by rewrite replicate_length).
    + apply ac_new_inv.
    + apply bv_alloc_sized.
    + intros id m Hm. by rewrite lookup_empty in Hm.
    + intros p k id m Hl. apply loc_Some in Hl as (pg & i & a & ly & _ & _ & Ha & _). simpl in Ha. by rewrite lookup_nil in Ha.
    + intros id m Hm. by rewrite lookup_empty in Hm.
  - intros id. rewrite lookup_empty. split; [by intros []|]. intros (e & He & _). set_solver.
Qed.
Lemma room_room_at tr D o : room c tr o → (∀ e, comps tr e (cview (live tr) D e)) → room_at c tr D o.
Proof using.
  clear Hc Hmd. intros Hr Hcs. destruct o; simpl in *; try done; intros m He HD; apply Hr;
    specialize (Hcs e); unfold cview in Hcs; by rewrite decide_True, HD in Hcs.
Qed.
Lemma healthy_at s tr D o : healthy c (st_ac s) (asks tr o) → (∀ e, comps tr e (cview (live tr) D e)) → health_at c s tr D o.
Proof using.
  clear Hc Hmd. intros Hh Hcs. assert (∀ e m, e ∈ live tr → D !! e_id e = Some m → types tr e = Some (dom m)) as Ht.
  { intros e m He HD. specialize (Hcs e). unfold cview in Hcs. rewrite decide_True, HD in Hcs by done. by apply comps_types in Hcs. }
  destruct o; simpl in *; try done; [by apply Hh|..]; intros m He HD; apply Hh; by rewrite (Ht _ _ He HD).
Qed.
Lemma hrun_state cap tr s : hrun c cap tr s →
  ∃ D, comp_state c s (issued tr) (live tr) D ∧ ∀ e, comps tr e (cview (live tr) D e).
Proof using Hc Hmd.
  induction 1 as [s H|tr s o s' r Hr (D & Hs & Hcs) Hh Ha Hro H].
  - exists ∅. split; [by eapply init_state|]. intros e. unfold cview, live. simpl. rewrite decide_False by set_solver. constructor.
  - destruct (step_comp c Hc Hmd _ _ _ _ _ _ Hs (healthy_at _ _ _ _ Hh Hcs) Ha (room_room_at _ _ _ Hro Hcs) H) as (D' & Hs' & Hst).
    exists D'. split; [done|]. intros e. econstructor; [apply Hcs|apply Hst].
Qed.

Lemma state_observed s I L D e : comp_state c s I L D → e_id e < ec_cap (st_ec s) → observed c s e (cview L D e).
Proof using Hc.
  clear Hmd. intros Hs Hlt. unfold observed, cview. rewrite (cs_alive _ _ _ _ _ _ Hs Hlt).
  pose proof (λ T, read_components_wp c Hc _ _ _ _ e T Hs Hlt) as Hread. pose proof (get_archetype_wp _ _ _ _ _ e Hs Hlt) as Har.
  destruct (decide (e ∈ L)) as [He|He].
  - destruct Har as (m & HD & Har). rewrite HD. split_and!.
    + by rewrite !bool_decide_true by (done || by eexists).
    + intros T HT. destruct (Hread T HT) as (m' & HD' & ->). congruence.
    + destruct (decide (m = ∅)); [done|]. destruct Har as (a & ? & (? & _) & ?). by exists a.
  - split_and!; [|done|done]. rewrite bool_decide_false by done. rewrite bool_decide_false; [done|]. by intros [? ?].
Qed.
Lemma cview_alive tr s D e : comp_state c s (issued tr) (live tr) D → is_Some (cview (live tr) D e) ↔ alive_in tr e.
Proof using.
  clear Hc Hmd. intros Hs. rewrite <- live_alive. unfold cview. destruct (decide (e ∈ live tr)) as [He|He].
  - split; [done|]. intros _. apply (cs_dom _ _ _ _ _ Hs). by exists e.
  - split; [by intros []|done].
Qed.

Lemma values_persist cap tr s e : hrun c cap tr s → e_id e < entities_capacity s →
  ∃ x, comps tr e x ∧ observed c s e x ∧ (is_Some x ↔ alive_in tr e).
Proof using Hc Hmd.
  intros Hr Hlt. destruct (hrun_state _ _ _ Hr) as (D & Hs & Hcs). exists (cview (live tr) D e).
  split; [done|]. split; [by eapply state_observed|by eapply cview_alive].
Qed.
Lemma step_observed cap tr s o s' r e x : hrun c cap tr s → healthy c (st_ac s) (asks tr o) → args_ok c o → room c tr o →
  step c o s = ROk s' r → e_id e < entities_capacity s → observed c s e x → ∃ x', comp_step e x o r x' ∧ observed c s' e x'.
Proof using Hc Hmd.
  intros Hr Hh Ha Hro H Hlt Hx. destruct (hrun_state _ _ _ Hr) as (D & Hs & Hcs).
  rewrite (observed_inj _ _ _ _ _ Hx (state_observed _ _ _ _ _ Hs Hlt)).
  destruct (step_comp c Hc Hmd _ _ _ _ _ _ Hs (healthy_at _ _ _ _ Hh Hcs) Ha (room_room_at _ _ _ Hro Hcs) H) as (D' & Hs' & Hst).
  exists (cview (live (tr ++ [(o, r)])) D' e). split; [apply Hst|]. eapply state_observed; [done|].
  pose proof (capacity_mono _ _ Hmd _ _ _ _ _ (hrun_run _ _ _ _ Hr) H). unfold entities_capacity in *. lia.
Qed.
Lemma others_untouched cap tr s o s' r e x : hrun c cap tr s → healthy c (st_ac s) (asks tr o) → args_ok c o → room c tr o →
  step c o s = ROk s' r → alive_in tr e → concerns o e = false → observed c s e x → observed c s' e x.
Proof using Hc Hmd.
  intros Hr Hh Ha Hro H He Hcon Hx.
  assert (e_id e < entities_capacity s) as Hlt.
  { apply (live_ids _ _ Hmd _ _ (hrun_run _ _ _ _ Hr)). done. }
  destruct (step_observed _ _ _ _ _ _ _ _ Hr Hh Ha Hro H Hlt Hx) as (x' & Hst & Hx').
  assert (r ≠ Some e) as Hnew.
  { intros ->. pose proof (run_step _ _ _ _ _ _ _ (hrun_run _ _ _ _ Hr) H) as Hr'.
    pose proof (run_ec _ _ Hmd _ _ (hrun_run _ _ _ _ Hr)) as Hec. apply live_alive in He.
    apply step_ec in H. rewrite Hmd in H. inversion H as [o' cr s1 Ho Hcr| |]; subst.
    pose proof (ec_create_spec True _ _ _ Hec) as Hsp. rewrite Hcr in Hsp. destruct Hsp as (_ & _ & _ & _ & _ & _ & Hbit & _).
    apply (inv_live _ _ _ Hec) in He as [Hb _]. congruence. }
  assert (x' = x) as ->; [|done].
  destruct o; simpl in *; try done.
  - by rewrite decide_False in Hst.
  - by rewrite decide_False in Hst.
  - apply bool_decide_eq_false in Hcon. by rewrite decide_False in Hst.
  - apply bool_decide_eq_false in Hcon. by rewrite decide_False in Hst.
  - apply bool_decide_eq_false in Hcon. by rewrite decide_False in Hst.
  - apply bool_decide_eq_false in Hcon. by rewrite decide_False in Hst.
Qed.

(** Values by type. *)
Lemma put_lookup vals m : NoDup vals.*1 →
  (∀ t v, (t, v) ∈ vals → put vals m !! t = Some (Some <$> v)) ∧ (∀ t, t ∉ vals.*1 → put vals m !! t = m !! t).
Proof using.
  clear Hc Hmd. unfold put. revert m. induction vals as [|[t0 v0] vals IH]; intros m Hnd; simpl in *.
  - split; [|done]. intros t v Hx. by apply elem_of_nil in Hx.
  - apply NoDup_cons in Hnd as [Hni Hnd]. destruct (IH (<[t0 := Some <$> v0]> m) Hnd) as [IH1 IH2]. split.
    + intros t v [[= -> ->]|Hin]%elem_of_cons; [|by apply IH1]. rewrite IH2 by done. by rewrite lookup_insert.
    + intros t [Hne Hn]%not_elem_of_cons. rewrite IH2 by done. by rewrite lookup_insert_ne.
Qed.
Lemma observed_live cap tr s e m : hrun c cap tr s → e_id e < entities_capacity s → observed c s e (Some m) → alive_in tr e ∧ 
  ∃ D, comp_state c s (issued tr) (live tr) D ∧ D !! e_id e = Some m ∧ (∀ e, comps tr e (cview (live tr) D e)).
Proof using Hc Hmd.
  intros Hr Hlt Hx. destruct (hrun_state _ _ _ Hr) as (D & Hs & Hcs).
  pose proof (observed_inj _ _ _ _ _ Hx (state_observed _ _ _ _ _ Hs Hlt)) as Heq.
  unfold cview in Heq. destruct (decide (e ∈ live tr)) as [He|He]; [|done]. split; [by apply live_alive|]. exists D. done.
Qed.
Lemma add_union cap tr s e vals m : hrun c cap tr s → healthy_for c (st_ac s) (dom m ∪ list_to_set vals.*1) →
  e_id e < entities_capacity s → observed c s e (Some m) → vals ≠ [] → NoDup vals.*1 → vals_ok c vals → fits_types c (dom m ∪ list_to_set vals.*1) →
  ∃ s' m', add_components c e vals s = ROk s' () ∧ observed c s' e (Some m') ∧
    (∀ t v, (t, v) ∈ vals → m' !! t = Some (Some <$> v)) ∧ (∀ t, t ∉ vals.*1 → m' !! t = m !! t).
Proof using Hc Hmd.
  intros Hr Hh Hlt Hx Hne Hnd Hok Hfit. destruct (observed_live _ _ _ _ _ Hr Hlt Hx) as (He & D & Hs & HD & Hcs).
  apply live_alive in He.
  assert (∀ m', e ∈ live tr → D !! e_id e = Some m' → healthy_for c (st_ac s) (dom m' ∪ list_to_set vals.*1)) as Hh'.
  { intros m' _ Hm'. by assert (m' = m) as -> by congruence. }
  assert (∃ s', add_components c e vals s = ROk s' ()) as [s' Hs'].
  { pose proof (add_components_wp c Hc s _ _ D e vals False (λ _, False) Hs Hh' Hlt Hne Hnd Hok) as Hsat.
    destruct (add_components c e vals s) as [s' []| |]; [by eauto|..]; exfalso; apply Hsat; intros m' _ Hm'; by assert (m' = m) as -> by congruence. }
  exists s', (put vals m). destruct (put_lookup vals m Hnd) as [H1 H2]. split_and!; [done| |done|done].
  pose proof (add_components_wp c Hc s _ _ D e vals False (λ _, False) Hs Hh' Hlt Hne Hnd Hok) as Hsat. rewrite Hs' in Hsat. simpl in Hsat.
  destruct Hsat as [Hids Hi']; [intros m' _ Hm'; by assert (m' = m) as -> by congruence|]. rewrite decide_True in Hi' by done. destruct Hi' as (m0 & Hm0 & Hi').
  assert (m0 = m) as -> by congruence. injection Hids as Hec _ _.
  assert (comp_state c s' (issued tr) (live tr) (<[e_id e := put vals m]> D)) as Hst'.
  { split; [rewrite Hec; apply Hs|done|]. intros id. rewrite lookup_insert_is_Some', (cs_dom _ _ _ _ _ Hs). split; [|by right].
    intros [<-|?]; [by exists e|done]. }
  assert (cview (live tr) (<[e_id e := put vals m]> D) e = Some (put vals m)) as <-.
  { unfold cview. rewrite decide_True by done. by rewrite lookup_insert. }
  eapply state_observed; [done|]. by rewrite Hec.
Qed.
Lemma remove_diff cap tr s e T m : hrun c cap tr s → healthy_for c (st_ac s) (dom m ∖ list_to_set T) →
  e_id e < entities_capacity s → observed c s e (Some m) → (m = ∅ ∨ ∃ t, is_Some (m !! t) ∧ t ∉ T) → fits_types c (dom m ∖ list_to_set T) →
  ∃ s' m', remove_components c e T s = ROk s' () ∧ observed c s' e (Some m') ∧
    (∀ t, t ∈ T → m' !! t = None) ∧ (∀ t, t ∉ T → m' !! t = m !! t).
Proof using Hc Hmd.
  intros Hr Hh Hlt Hx Hkeep Hfit. destruct (observed_live _ _ _ _ _ Hr Hlt Hx) as (He & D & Hs & HD & Hcs).
  apply live_alive in He.
  pose proof (remove_components_wp c Hc s _ _ D e T False (λ _, False) Hs Hlt) as Hsat.
  assert (∃ s', remove_components c e T s = ROk s' () ∧ ids_part s' = ids_part s ∧ comp_inv c s' None (<[e_id e := forget T m]> D)) as (s' & Hs' & Hids & Hi').
  { assert (sat False (remove_components c e T s) (λ s' _, ids_part s' = ids_part s ∧
      if decide (e ∈ live tr) then ∃ m, D !! e_id e = Some m ∧ (m = ∅ ∨ ¬ (dom m ⊆ list_to_set T)) ∧ comp_inv c s' None (<[e_id e := forget T m]> D)
      else s' = s) (λ _, False)) as Hsat'.
    { apply Hsat.
      - intros m' _ Hm' _. assert (m' = m) as -> by congruence. done.
      - intros m' _ Hm' Hne Hsub. assert (m' = m) as -> by congruence. destruct Hkeep as [?|(t & Ht & Hn)]; [done|]. apply Hn.
        apply (elem_of_list_to_set (C := gset N)), Hsub. by apply elem_of_dom. }
    destruct (remove_components c e T s) as [s' []| |]; [|done..]. simpl in Hsat'. exists s'. split; [done|]. destruct Hsat' as [Hids Hi'].
    rewrite decide_True in Hi' by done. destruct Hi' as (m0 & Hm0 & _ & Hi'). assert (m0 = m) as -> by congruence. done. }
  exists s', (forget T m). split_and!; [done| | |].
  - injection Hids as Hec _ _.
    assert (comp_state c s' (issued tr) (live tr) (<[e_id e := forget T m]> D)) as Hst'.
    { split; [rewrite Hec; apply Hs|done|]. intros id. rewrite lookup_insert_is_Some', (cs_dom _ _ _ _ _ Hs). split; [|by right].
      intros [<-|?]; [by exists e|done]. }
    assert (cview (live tr) (<[e_id e := forget T m]> D) e = Some (forget T m)) as <-.
    { unfold cview. rewrite decide_True by done. by rewrite lookup_insert. }
    eapply state_observed; [done|]. by rewrite Hec.
  - intros t Ht. rewrite forget_lookup. by rewrite decide_True.
  - intros t Ht. rewrite forget_lookup. by rewrite decide_False.
Qed.
Lemma remove_all_panics cap tr s e T m : hrun c cap tr s → e_id e < entities_capacity s →
  observed c s e (Some m) → m ≠ ∅ → (∀ t, is_Some (m !! t) → t ∈ T) → remove_components c e T s = RPanic s.
Proof using Hc Hmd.
  intros Hr Hlt Hx Hne Hall. destruct (observed_live _ _ _ _ _ Hr Hlt Hx) as (He & D & Hs & HD & Hcs).
  apply live_alive in He. assert (dom m ⊆ (list_to_set T : gset N)) as Hsub.
  { intros t Ht%elem_of_dom. apply elem_of_list_to_set. auto. }
  pose proof (remove_components_wp c Hc s _ _ D e T False (λ s', s' = s) Hs Hlt) as Hsat.
  assert (sat False (remove_components c e T s) (λ s' _, ids_part s' = ids_part s ∧
      if decide (e ∈ live tr) then ∃ m, D !! e_id e = Some m ∧ (m = ∅ ∨ ¬ (dom m ⊆ list_to_set T)) ∧ comp_inv c s' None (<[e_id e := forget T m]> D)
      else s' = s) (λ s', s' = s)) as Hsat'.
  { apply Hsat; [|done]. intros m' _ Hm' Hn. exfalso. apply Hn. assert (m' = m) as -> by congruence. done. }
  destruct (remove_components c e T s) as [s' []|s'|]; [|simpl in Hsat'; congruence|done]. simpl in Hsat'. destruct Hsat' as [_ Hx'].
  rewrite decide_True in Hx' by done. destruct Hx' as (m0 & Hm0 & Hor & _). assert (m0 = m) as -> by congruence. naive_solver.
Qed.

(** Access. *)
Lemma access_exact cap tr s e : hrun c cap tr s → e_id e < entities_capacity s →
  ∃ x, comps tr e x ∧ observed c s e x ∧ ∀ T, T ≠ [] →
    (∃ rs, get_components_refs c s e T = POk (Some rs) ∧ ∃ m, x = Some m ∧ ∀ t, t ∈ T → is_Some (m !! t)) ∨
    (get_components_refs c s e T = POk None ∧ ¬ ∃ m, x = Some m ∧ ∀ t, t ∈ T → is_Some (m !! t)).
Proof using Hc Hmd.
  intros Hr Hlt. destruct (hrun_state _ _ _ Hr) as (D & Hs & Hcs). exists (cview (live tr) D e).
  split; [done|]. split; [by eapply state_observed|]. intros T HT.
  pose proof (get_refs_wp c Hc s _ _ D e T Hs Hlt HT) as H. unfold cview. destruct (decide (e ∈ live tr)) as [He|He]; [|right; naive_solver].
  destruct H as (m & HD & H). rewrite HD. destruct (has_all m T) eqn:E.
  - left. destruct H as (p & k & rs & _ & _ & Hrs & _). exists rs. split; [done|]. exists m. split; [done|]. by apply has_all_spec.
  - right. split; [done|]. intros (m' & [= <-] & Hall). apply has_all_spec in Hall. congruence.
Qed.

(** Dead handles. *)
Lemma dead_noop s e vals T : is_alive c s e = POk false →
  add_components c e vals s = ROk s () ∧ remove_components c e T s = ROk s () ∧ set_components c e vals s = ROk s () ∧
  get_components_refs c s e T = POk None ∧ get_entity_archetype c s e = POk None.
Proof using.
  clear Hc Hmd. intros H. unfold add_components, remove_components, set_components, get_components_refs, get_entity_archetype, is_valid_with_archetype,
    mbind, M_bind, getS, lift. rewrite H. done.
Qed.
Lemma dead_alive cap tr s e : run c cap tr s → e_id e < entities_capacity s → ¬ alive_in tr e → is_alive c s e = POk false.
Proof using Hmd.
  clear Hc. intros Hr Hlt He. destruct (is_alive_exact _ _ Hmd _ _ e Hr Hlt) as (b & -> & Hb). destruct b; [|done]. naive_solver.
Qed.
End comp.

(** ** Concrete page-healthy histories *)
Fixpoint incrb (l : list N) : bool := match l with [] => true | x :: l => forallb (N.ltb x) l && incrb l end.
Lemma incrb_ok l : incrb l = true → StronglySorted N.lt l.
Proof.
  induction l as [|x l IH]; simpl; [constructor|]. intros [H1 H2]%andb_prop. constructor; [auto|].
  apply Forall_forall. intros y Hy%elem_of_list_In. rewrite forallb_forall in H1. by apply N.ltb_lt, H1.
Qed.
Definition foundb (c : cfg) (s : ac) (i : nat) : bool :=
  match c_bs c (N.of_nat <$> ac_free_archs s) (N.of_nat i) with
  | BFound n => bool_decide (ac_free_archs s !! n = Some i)
  | BMissing _ => bool_decide (i ∉ ac_free_archs s)
  end.
Definition roomy_atb (s : ac) (i : nat) : bool :=
  match ac_pages_of s !! i, ac_layouts s !! i with
  | Some ps, Some ly =>
    forallb (λ p, match ac_pages s !! p with
                  | Some pg => (pg_vcap pg <=? N.of_nat (length (pg_ids pg))) || (N.of_nat (length (pg_ids pg)) <? ly_cap ly)
                  | None => true end) ps
  | _, _ => true
  end.
Definition healthyb (c : cfg) (s : ac) (w : option (gset tid)) : bool :=
  match w with
  | Some X => forallb (λ i, match ac_archs s !! i with
                            | Some a => negb (bool_decide (list_to_set (arch_ids a) = X)) || (foundb c s i && roomy_atb s i)
                            | None => true end) (seq 0 (length (ac_archs s)))
  | None => true
  end.
Lemma foundb_ok c s i : foundb c s i = true → found_right c s i.
Proof. unfold foundb, found_right. destruct (c_bs c _ _); intros ?%bool_decide_eq_true; done. Qed.
Lemma roomy_atb_ok s i : roomy_atb s i = true → roomy_at s i.
Proof.
  intros H ps p pg ly Hps Hp Hpg Hly Hlt. unfold roomy_atb in H. rewrite Hps, Hly in H. rewrite forallb_forall in H.
  apply elem_of_list_In in Hp. apply H in Hp. rewrite Hpg in Hp. apply orb_prop in Hp as [Hp%N.leb_le|Hp%N.ltb_lt]; lia.
Qed.
Lemma healthyb_ok c s w : healthyb c s w = true → healthy c s w.
Proof.
  intros H S -> i a Ha HS. simpl in H. rewrite forallb_forall in H. specialize (H i). rewrite Ha in H.
  destruct (orb_prop _ _ (H ltac:(apply elem_of_list_In, elem_of_seq; apply lookup_lt_Some in Ha; lia))) as [Hn|[H1%foundb_ok H2%roomy_atb_ok]%andb_prop]; [|done].
  by rewrite bool_decide_true in Hn.
Qed.

Definition fitsb (c : cfg) (a : archetype) : bool :=
  match layout_new (c_mode c) a with POk ly => 1 <=? ly_cap ly | _ => false end.
Definition arch_of (c : cfg) (S : gset tid) : archetype := sort_cts (ctype_of c <$> elements S).
Definition fits_typesb (c : cfg) (S : gset tid) : bool := fitsb c (arch_of c S).
Lemma arch_of_eq c a S : arch_wf c a → (∀ t, t ∈ arch_ids a ↔ t ∈ S) → a = arch_of c S.
Proof.
  intros (Hinc & Hne & Heq) HS. rewrite Heq. unfold arch_of. set (b := sort_cts _).
    assert (NoDup (arch_ids (ctype_of c <$> elements S))) as Hnd by (rewrite ctype_of_ids; apply NoDup_elements).
    assert (arch_ids a = arch_ids b) as ->.
    { apply incr_ext; [done|by apply sort_cts_incr|]. intros t. unfold b. rewrite sort_cts_ids, ctype_of_ids, HS. by rewrite elem_of_elements. }
    destruct (decide (elements S = [])) as [E|E]; [unfold b; rewrite E; done|].
    symmetry. apply (arch_wf_intro c (ctype_of c <$> elements S)); [done|by destruct (elements S)|].
    by intros x (t & -> & _)%elem_of_list_fmap.
Qed.
Lemma fits_typesb_ok c S : fits_typesb c S = true → fits_types c S.
Proof.
  intros H a Hwf HS. assert (a = arch_of c S) as -> by by apply arch_of_eq.
  unfold fits_typesb, fitsb in H. unfold fits. destruct (layout_new (c_mode c) (arch_of c S)) as [ly| |]; try done. exists ly. split; [done|]. by apply N.leb_le.
Qed.
Definition vals_okb (c : cfg) (vals : list (tid * list N)) : bool :=
  forallb (λ tv, N.of_nat (length tv.2) =? ti_size (c_ty c tv.1)) vals.
Global Instance ctype_eq_dec : EqDecision ctype.
Proof. solve_decision. Defined.
Definition nonemptyb {A} (l : list A) : bool := match l with [] => false | _ => true end.
Definition argsb (c : cfg) (tr : trace) (o : op) : bool :=
  match o with
  | OCreateWith a => incrb (arch_ids a) && nonemptyb a && bool_decide (a = ctype_of c <$> arch_ids a) && fitsb c a
  | OAdd e vals => nonemptyb vals && bool_decide (NoDup vals.*1) && vals_okb c vals &&
      match types tr e with Some ts => fits_typesb c (ts ∪ list_to_set vals.*1) | None => true end
  | OSet e vals => nonemptyb vals && bool_decide (NoDup vals.*1) && vals_okb c vals
  | ORemove e T => nonemptyb T && bool_decide (NoDup T) &&
      match types tr e with Some ts => fits_typesb c (ts ∖ list_to_set T) | None => true end
  | OWrite _ _ => false
  | _ => true
  end.
Definition okb (c : cfg) (tr : trace) (s : store) (o : op) : bool := healthyb c (st_ac s) (asks tr o) && argsb c tr o.
Lemma nonemptyb_ok {A} (l : list A) : nonemptyb l = true → l ≠ [].
Proof. by destruct l. Qed.
Lemma vals_okb_ok c vals : vals_okb c vals = true → vals_ok c vals.
Proof.
  unfold vals_okb. rewrite forallb_forall. intros H t v Hin. apply N.eqb_eq. apply (H (t, v)). by apply elem_of_list_In.
Qed.
Lemma argsb_ok c tr o : argsb c tr o = true → args_ok c o ∧ room c tr o.
Proof.
  intros H2. destruct o; simpl in *; try done.
  - apply andb_prop in H2 as [H2 Hf]. apply andb_prop in H2 as [H2 Hb%bool_decide_eq_true]. apply andb_prop in H2 as [Hi%incrb_ok Hn%nonemptyb_ok].
    split; [done|]. unfold fitsb in Hf. unfold fits. destruct (layout_new (c_mode c) a) as [ly| |]; try done. exists ly. split; [done|]. by apply N.leb_le.
  - apply andb_prop in H2 as [H2 Hf]. apply andb_prop in H2 as [H2 Hv%vals_okb_ok]. apply andb_prop in H2 as [Hn%nonemptyb_ok Hnd%bool_decide_eq_true].
    split; [done|]. intros m Hm%comps_types. simpl in Hm. rewrite <- Hm in Hf. by apply fits_typesb_ok.
  - apply andb_prop in H2 as [H2 Hf]. apply andb_prop in H2 as [Hn%nonemptyb_ok Hnd%bool_decide_eq_true].
    split; [done|]. intros m Hm%comps_types. simpl in Hm. rewrite <- Hm in Hf. by apply fits_typesb_ok.
  - apply andb_prop in H2 as [H2 Hv%vals_okb_ok]. apply andb_prop in H2 as [Hn%nonemptyb_ok Hnd%bool_decide_eq_true]. done.
Qed.
Lemma okb_ok c tr s o : okb c tr s o = true → healthy c (st_ac s) (asks tr o) ∧ args_ok c o ∧ room c tr o.
Proof. intros [H1%healthyb_ok H2%argsb_ok]%andb_prop. done. Qed.
Fixpoint hexec (c : cfg) (ops : list (list entity → op)) (hs : list entity) (tr : trace) (s : store) : bool :=
  match ops with
  | [] => true
  | o :: r =>
    okb c tr s (o hs) &&
    match step c (o hs) s with
    | ROk s' x => hexec c r (match x with Some e => hs ++ [e] | None => hs end) (tr ++ [(o hs, x)]) s'
    | _ => false
    end
  end.
Definition hend_ok (c : cfg) (cap : N) (ops : list (list entity → op)) : bool :=
  match store_with_capacity (c_mode c) cap with POk s => hexec c ops [] [] s | _ => false end.
Lemma hexec_run c cap ops hs tr s : hrun c cap tr s → hexec c ops hs tr s = true →
  ∃ s' tr' hs', exec c ops hs tr s = ROk s' (tr', hs') ∧ hrun c cap tr' s'.
Proof.
  revert hs tr s. induction ops as [|o ops IH]; intros hs tr s Hr; simpl.
  - intros _. eauto 10.
  - intros [(H1 & H2 & H3)%okb_ok H]%andb_prop. destruct (step c (o hs) s) as [s1 r| |] eqn:E; [|done..].
    apply IH; [|done]. by econstructor.
Qed.
Lemma hend_run c cap ops : hend_ok c cap ops = true → hrun c cap (end_trace c cap ops) (end_store c cap ops).
Proof.
  unfold hend_ok, end_trace, end_store, exec0. destruct (store_with_capacity (c_mode c) cap) as [s| |] eqn:E; [|done..].
  intros H. destruct (hexec_run c cap ops [] [] s) as (s' & tr' & hs' & -> & ?); [by constructor|done|done].
Qed.

(** ** A concrete history: growth, moves between archetypes, swap-removal, destruction, recycling, a write query. *)
Definition ex_comps : list (list entity → op) :=
  [ λ _, OCreateWith (ex_arch [1; 2]);
    λ hs, OAdd (h 0 hs) [(1, [10; 11; 12; 13]); (2, [1; 2; 3; 4; 5; 6; 7; 8])];
    λ _, OCreateWith (ex_arch [2; 1]);
    λ hs, OAdd (h 1 hs) [(2, [21; 22; 23; 24; 25; 26; 27; 28]); (1, [31; 32; 33; 34])];
    λ _, OCreate;
    λ hs, OAdd (h 2 hs) [(3, [77])];
    λ hs, OAdd (h 0 hs) [(3, [99]); (1, [50; 51; 52; 53])];       (* leaves the first page: the last row moves *)
    λ hs, OSet (h 1 hs) [(1, [60; 61; 62; 63])];
    λ hs, ORemove (h 0 hs) [2; 4];
    λ _, OCreateWith (ex_arch [3]);
    λ hs, ODestroy (h 2 hs);
    λ _, OCreate;
    λ hs, OAdd (h 4 hs) [(4, [8; 9])] ].
Definition ex_wq : access := Access [1] [3].
Definition ex_wf (e : entity) (l : list (list cell)) : list (list N) := [[200 + e_id e]].
Definition ids_of_arch (r : pres (option archetype)) : option (list tid) :=
  match r with POk (Some a) => Some (arch_ids a) | _ => None end.
