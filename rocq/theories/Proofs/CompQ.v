(** CompQ.v — component queries of a store: items and entities. *)
From Verif.Proofs Require Export CompX.
Local Open Scope N_scope.

Lemma refs_at_inj c a ly p k T rs rs' : NoDup (arch_ids a) → refs_at c a ly p k T rs → refs_at c a ly p k T rs' → rs = rs'.
Proof.
  intros Hnd H. revert rs'. induction H as [|t r T rs (i & o & Hi & Ho & ->) _ IH]; intros rs' H'; inversion H' as [|? r' ? rs1 Hr Hrest]; subst; [done|].
  destruct Hr as (i' & o' & Hi' & Ho' & ->). assert (i' = i) as -> by (by eapply NoDup_lookup). assert (o' = o) as -> by congruence.
  f_equal. by apply IH.
Qed.

Section q.
Context (c : cfg) (Hc : cfg_ok c).

Lemma at_loc_inj s p k id m T rs rs' : ac_inv c s → loc s p k = Some (id, m) → at_loc c s p k T rs → at_loc c s p k T rs' → rs = rs'.
Proof using.
  clear Hc. intros Hi Hl (a & ly & Hpa & H) (a' & ly' & Hpa' & H'). assert ((a', ly') = (a, ly)) as [= -> ->] by congruence.
  destruct (loc_page _ _ _ _ _ _ Hi Hl) as (pg & i & a1 & ly1 & _ & _ & _ & _ & Hpa1 & (Hinc & _) & _).
  assert ((a1, ly1) = (a, ly)) as [= -> ->] by congruence. eapply refs_at_inj; [|done|done]. by apply incr_nodup.
Qed.
Lemma at_loc_disjoint s p1 k1 id1 m1 T1 rs1 i1 r1 p2 k2 id2 m2 T2 rs2 i2 r2 p b : ac_inv c s →
  loc s p1 k1 = Some (id1, m1) → loc s p2 k2 = Some (id2, m2) → at_loc c s p1 k1 T1 rs1 → at_loc c s p2 k2 T2 rs2 →
  rs1 !! i1 = Some r1 → rs2 !! i2 = Some r2 → covers r1 p b → covers r2 p b → p1 = p2 ∧ k1 = k2 ∧ T1 !! i1 = T2 !! i2.
Proof using.
  clear Hc. intros Hi Hl1 Hl2 (a1 & ly1 & Hpa1 & H1) (a2 & ly2 & Hpa2 & H2) Hr1 Hr2 [Hp1 Hb1] [Hp2 Hb2].
  destruct (Forall2_lookup_r _ _ _ _ _ H1 Hr1) as (t1 & Ht1 & n1 & o1 & Hn1 & Ho1 & Hx1).
  destruct (Forall2_lookup_r _ _ _ _ _ H2 Hr2) as (t2 & Ht2 & n2 & o2 & Hn2 & Ho2 & Hx2).
  subst r1 r2. simpl in *. subst p1 p2. assert ((a2, ly2) = (a1, ly1)) as [= -> ->] by congruence.
  destruct (loc_page _ _ _ _ _ _ Hi Hl1) as (pg & i & a & ly & _ & _ & _ & _ & Hpa & Hwf & Hcol & Hk1 & _).
  destruct (loc_page _ _ _ _ _ _ Hi Hl2) as (pg2 & i3 & a3 & ly3 & _ & _ & _ & _ & Hpa3 & _ & _ & Hk2 & _).
  assert ((a, ly) = (a1, ly1)) as [= -> ->] by congruence. assert ((a3, ly3) = (a1, ly1)) as [= -> ->] by congruence.
  destruct (columns_disj _ _ _ _ n1 _ o1 k1 n2 _ o2 k2 b Hcol (arch_wf_lookup _ _ _ _ Hwf Hn1) Ho1 (arch_wf_lookup _ _ _ _ Hwf Hn2) Ho2) as [-> ->]; try done.
  split_and!; [done|done|]. congruence.
Qed.

Lemma refs_of_loc s I L D e p k m T rs : comp_state c s I L D → e ∈ L → loc (st_ac s) p k = Some (e_id e, m) → T ≠ [] →
  at_loc c (st_ac s) p k T rs → has_all m T = true → get_components_refs c s e T = POk (Some rs).
Proof using Hc.
  intros Hs He Hl HT Hat Hall. destruct (cs_row _ _ _ _ _ _ Hs He) as (m' & HD & Hlt & _).
  pose proof (get_refs_wp c Hc s I L D e T Hs Hlt HT) as H. rewrite decide_True in H by done.
  destruct H as (m1 & HD1 & H). destruct (ci_rows _ _ _ _ (cs_inv _ _ _ _ _ Hs) _ _ _ _ Hl) as [HD2 Hlk]; [done|].
  assert (m1 = m) as -> by congruence. rewrite Hall in H. destruct H as (p' & k' & rs' & Hlk' & Hl' & -> & Hat').
  destruct (linked_fun _ _ _ _ _ _ Hlk Hlk') as [<- <-]. do 2 f_equal. symmetry. eapply at_loc_inj; try done. apply Hs.
Qed.
Lemma refs_inv s I L D e T rs : comp_state c s I L D → e_id e < ec_cap (st_ec s) → T ≠ [] →
  get_components_refs c s e T = POk (Some rs) → e ∈ L ∧ ∃ m p k, D !! e_id e = Some m ∧ has_all m T = true ∧
    loc (st_ac s) p k = Some (e_id e, m) ∧ at_loc c (st_ac s) p k T rs.
Proof using Hc.
  intros Hs Hlt HT Hrs. pose proof (get_refs_wp c Hc s I L D e T Hs Hlt HT) as H.
  destruct (decide (e ∈ L)) as [He|He]; [|congruence]. split; [done|]. destruct H as (m & HD & H). exists m.
  destruct (has_all m T); [|congruence]. destruct H as (p & k & rs' & _ & Hl & Hrs' & Hat). exists p, k. assert (rs' = rs) as -> by congruence. done.
Qed.
Lemma items_disjoint s I L D T (l : list (entity * list cref)) : comp_state c s I L D → NoDup T → T ≠ [] → NoDup l.*1 →
  (∀ e rs, (e, rs) ∈ l → e_id e < ec_cap (st_ec s) ∧ get_components_refs c s e T = POk (Some rs)) → disjoint_items l.
Proof using Hc.
  intros Hs HT Hne Hnd Hl n1 n2 [e1 rs1] [e2 rs2] i1 i2 r1 r2 p b H1 H2 Hr1 Hr2 Hb1 Hb2. simpl in *.
  destruct (Hl e1 rs1) as [Hlt1 Hg1]; [by eapply elem_of_list_lookup_2|]. destruct (Hl e2 rs2) as [Hlt2 Hg2]; [by eapply elem_of_list_lookup_2|].
  destruct (refs_inv _ _ _ _ _ _ _ Hs Hlt1 Hne Hg1) as (He1 & m1 & p1 & k1 & _ & _ & Hl1 & Hat1).
  destruct (refs_inv _ _ _ _ _ _ _ Hs Hlt2 Hne Hg2) as (He2 & m2 & p2 & k2 & _ & _ & Hl2 & Hat2).
  destruct (at_loc_disjoint _ _ _ _ _ _ _ _ _ _ _ _ _ _ _ _ _ _ _ (ci_ac _ _ _ _ (cs_inv _ _ _ _ _ Hs)) Hl1 Hl2 Hat1 Hat2 Hr1 Hr2 Hb1 Hb2) as (-> & -> & Ht).
  assert (e_id e1 = e_id e2) as Hid by congruence.
  assert (e1 = e2) as <-.
  { destruct (inv_live _ _ _ (cs_ec _ _ _ _ _ Hs) e1) as [X1 _]. destruct (inv_live _ _ _ (cs_ec _ _ _ _ _ Hs) e2) as [X2 _].
    destruct (X1 He1) as [_ V1]. destruct (X2 He2) as [_ V2]. rewrite Hid, V2 in V1. destruct e1, e2; simpl in *. congruence. }
  split.
  - eapply (NoDup_lookup l.*1); [done| |]; rewrite list_lookup_fmap, ?H1, ?H2; done.
  - apply lookup_lt_Some in Hr1. destruct Hat1 as (a & ly & _ & Hat1). apply Forall2_length in Hat1. rewrite <- Hat1 in Hr1.
    destruct (lookup_lt_is_Some_2 _ _ Hr1) as [t Ht1]. eapply NoDup_lookup; [exact HT|exact Ht1|]. congruence.
Qed.

(** Component queries. *)
Definition item_refs (v : pview) (k : nat) : list cref :=
  match ptrs_to_refs (add_to_ptrs (pv_ptrs v) k) with POk rs => rs | _ => [] end.
Definition item_ent (vers : arr N) (v : pview) (k : nat) : entity :=
  match pv_ids v !! k with
  | Some id => match aget vers id with POk x => Entity id x | _ => entity_null end
  | None => entity_null
  end.
Lemma query_items s I L D q : comp_state c s I L D → NoDup (q_types q) → q_types q ≠ [] →
  ∃ it l, component_query c q s = POk it ∧ views_ok it ∧ qi_count it = length l ∧
    (∃ it', yields (qiter_next_with (ec_ver (st_ec s))) it l it' ∧ qrest it' = [] ∧ views_ok it') ∧
    (∃ it', yields qiter_next it l.*2 it' ∧ qrest it' = [] ∧ views_ok it') ∧
    NoDup l.*1 ∧ (∀ e rs, (e, rs) ∈ l → e ∈ L ∧ e_id e < ec_cap (st_ec s) ∧ get_components_refs c s e (q_types q) = POk (Some rs)) ∧
    (∀ e, e ∈ l.*1 ↔ e ∈ L ∧ ∃ m, D !! e_id e = Some m ∧ has_all m (q_types q) = true).
Proof using Hc.
  intros Hs Hq Hne. pose proof (cs_inv _ _ _ _ _ Hs) as Hi. pose proof (cs_ec _ _ _ _ _ Hs) as Hec. pose proof Hc as [Hbs _ _].
  destruct (component_query_spec c q s Hbs (ci_ac _ _ _ _ Hi) Hq) as (it & locs & Hit & Hok & Hcnt & Hg & Hnd & Hin).
  set (vers := ec_ver (st_ec s)) in *. set (g := item_ent vers).
  assert (∀ n v k p k', qrest it !! n = Some (v, k) → locs !! n = Some (p, k') → k' = k ∧
    ∃ e m, loc (st_ac s) p k = Some (e_id e, m) ∧ has_all m (q_types q) = true ∧ e ∈ L ∧ D !! e_id e = Some m ∧ g v k = e ∧
      pv_ids v !! k = Some (e_id e) ∧ aget vers (e_id e) = POk (e_ver e) ∧
      ptrs_to_refs (add_to_ptrs (pv_ptrs v) k) = POk (item_refs v k) ∧ at_loc c (st_ac s) p k (q_types q) (item_refs v k)) as Hitem.
  { intros n v k p k' Hn Hn'. destruct (Forall2_lookup_lr _ _ _ _ _ _ Hg Hn Hn') as (Hk & Hv & Hlt). simpl in *. subst k'. split; [done|].
    destruct (proj1 (Hin p k) (elem_of_list_lookup_2 _ _ _ Hn')) as (id & m & Hl & Hall).
    destruct (ci_rows _ _ _ _ Hi _ _ _ _ Hl) as [HD _]; [done|]. destruct (proj1 (cs_dom _ _ _ _ _ Hs id)) as (e & He & <-); [by rewrite HD|].
    exists e, m. destruct Hv as (pg & a & ly & Hp & Hpa & _ & Hids & _ & _ & Hrefs). destruct (Hrefs k Hlt) as (rs & Hrs & Hat).
    assert (pv_ids v !! k = Some (e_id e)) as Hvid.
    { rewrite Hids. apply loc_Some in Hl as (pg1 & ? & ? & ? & Hp1 & _ & _ & _ & Hid1 & _). congruence. }
    assert (aget vers (e_id e) = POk (e_ver e)) as Hver. { apply aget_ver. by apply (inv_live _ _ _ Hec). }
    assert (item_refs v k = rs) as Hir by (unfold item_refs; by rewrite Hrs).
    rewrite Hir. split_and!; try done.
    - unfold g, item_ent. rewrite Hvid, Hver. by destruct e.
    - by exists a, ly. }
  assert (∀ x, x ∈ qrest it → ∃ n p k', qrest it !! n = Some x ∧ locs !! n = Some (p, k')) as Hfind.
  { intros x [n Hn]%elem_of_list_lookup. destruct (Forall2_lookup_l _ _ _ _ _ Hg Hn) as ([p k'] & Hn' & _). eauto. }
  set (l := (λ x, (g x.1 x.2, item_refs x.1 x.2)) <$> qrest it).
  assert (∀ v k, (v, k) ∈ qrest it → ptrs_to_refs (add_to_ptrs (pv_ptrs v) k) = POk (item_refs v k)) as Hf.
  { intros v k Hx. destruct (Hfind _ Hx) as (n & p & k' & Hn & Hn'). destruct (Hitem _ _ _ _ _ Hn Hn') as (-> & e & m & ?). naive_solver. }
  assert (∀ v k, (v, k) ∈ qrest it → pv_ids v !! k = Some (e_id (g v k)) ∧ aget vers (e_id (g v k)) = POk (e_ver (g v k))) as Hgv.
  { intros v k Hx. destruct (Hfind _ Hx) as (n & p & k' & Hn & Hn'). destruct (Hitem _ _ _ _ _ Hn Hn') as (-> & e & m & _ & _ & _ & _ & -> & ? & ? & _). done. }
  exists it, l. split; [done|]. split; [done|]. split; [unfold l; by rewrite fmap_length|].
  split. { destruct (qiter_yields_with item_refs g vers (qrest it) it Hok eq_refl Hf Hgv) as (it' & ? & ? & ? & _). by exists it'. }
  split. { destruct (qiter_yields item_refs (qrest it) it Hok eq_refl Hf) as (it' & Hy & ? & ? & _). exists it'. split; [|done].
    unfold l. rewrite <- list_fmap_compose. done. }
  split.
  { unfold l. rewrite <- list_fmap_compose. apply NoDup_alt. intros n1 n2 e. rewrite !list_lookup_fmap.
    destruct (qrest it !! n1) as [[v1 k1]|] eqn:E1; [|done]. destruct (qrest it !! n2) as [[v2 k2]|] eqn:E2; [|done]. simpl. intros [= H1] [= H2].
    destruct (Forall2_lookup_l _ _ _ _ _ Hg E1) as ([p1 k1'] & L1 & _). destruct (Forall2_lookup_l _ _ _ _ _ Hg E2) as ([p2 k2'] & L2 & _).
    destruct (Hitem _ _ _ _ _ E1 L1) as (-> & e1 & m1 & Hl1 & _ & _ & _ & Hg1 & _).
    destruct (Hitem _ _ _ _ _ E2 L2) as (-> & e2 & m2 & Hl2 & _ & _ & _ & Hg2 & _).
    assert (e1 = e2) as <- by congruence. destruct (ci_rows _ _ _ _ Hi _ _ _ _ Hl1) as [_ K1]; [done|]. destruct (ci_rows _ _ _ _ Hi _ _ _ _ Hl2) as [_ K2]; [done|].
    destruct (linked_fun _ _ _ _ _ _ K1 K2) as [-> ->]. by eapply (NoDup_lookup locs). }
  split.
  - intros e rs ([v k] & [= -> ->] & Hx)%elem_of_list_fmap. destruct (Hfind _ Hx) as (n & p & k' & Hn & Hn').
    destruct (Hitem _ _ _ _ _ Hn Hn') as (-> & e & m & Hl & Hall & He & HD & Hge & _ & _ & _ & Hat). simpl. rewrite Hge. split_and!; [done|by eapply live_lt|]. by eapply refs_of_loc.
  - intros e. split.
    + intros ([e' rs] & -> & ([v k] & [= -> ->] & Hx)%elem_of_list_fmap)%elem_of_list_fmap. destruct (Hfind _ Hx) as (n & p & k' & Hn & Hn').
      destruct (Hitem _ _ _ _ _ Hn Hn') as (-> & e & m & Hl & Hall & He & HD & Hge & _). simpl. rewrite Hge. eauto.
    + intros (He & m & HD & Hall). destruct (ci_data _ _ _ _ Hi _ _ HD) as [(p & k & _ & Hlk & Hl)|[_ ->]].
      * assert ((p, k) ∈ locs) as Hx by (apply Hin; eauto). apply elem_of_list_lookup in Hx as [n Hn].
        destruct (Forall2_lookup_r _ _ _ _ _ Hg Hn) as ([v k'] & Hn' & _). destruct (Hitem _ _ _ _ _ Hn' Hn) as (-> & e' & m' & Hl' & _ & He' & _ & Hge & _).
        assert (e' = e) as ->.
        { assert (e_id e' = e_id e) as Hid by congruence. apply (inv_live _ _ _ Hec) in He as [_ V1], He' as [_ V2]. rewrite Hid, V1 in V2. destruct e, e'; simpl in *. congruence. }
        apply elem_of_list_fmap. exists (e, item_refs v k'). split; [done|]. apply elem_of_list_fmap. exists (v, k'). split; [by rewrite <- Hge|]. by eapply elem_of_list_lookup_2.
      * exfalso. apply Hne. rewrite has_all_spec in Hall. destruct (q_types q) as [|t T]; [done|]. destruct (Hall t) as [? Hx]; [by left|]. by rewrite lookup_empty in Hx.
Qed.
End q.
