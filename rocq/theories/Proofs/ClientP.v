(** ClientP.v — the programs in examples/. *)
From Verif.Model Require Export Examples.
From Verif.Spec Require Export Clients.
From Verif.Proofs Require Export VisitP OrdW.
Local Open Scope N_scope.

(** ** Histories in which all entities get the same types *)
Lemma settled_app tr1 tr2 : settled (tr1 ++ tr2) → settled tr1.
Proof. intros H tr11 o r tr12 ->. apply (H tr11 o r (tr12 ++ tr2)). by rewrite <- app_assoc. Qed.
Lemma types_snoc tr o r e : types (tr ++ [(o, r)]) e = types_step e (types tr e) o r.
Proof. unfold types. by rewrite foldl_app. Qed.
Lemma settled_types tr1 tr2 e S : NoDup (issued (tr1 ++ tr2)) → settled (tr1 ++ tr2) → types tr1 e = Some S → S ≠ ∅ → types (tr1 ++ tr2) e = Some S.
Proof.
  intros Hnd Hset Ht Hne. induction tr2 as [|[o r] tr2 IH] using rev_ind; [by rewrite app_nil_r|]. rewrite app_assoc in *.
  rewrite issued_snoc in Hnd. apply NoDup_app in Hnd as (Hnd & Hnew & _). apply settled_snoc in Hset as [Hset Hst]. specialize (IH Hnd Hset).
  assert (r ≠ Some e) as Hr. { intros ->. apply (Hnew e); [|by left]. by eapply types_issued. }
  rewrite types_snoc. destruct o; simpl in *; try done.
  - by rewrite decide_False.
  - by rewrite decide_False.
  - case_decide; [|done]. subst. destruct Hst; congruence.
  - case_decide; [|done]. subst. rewrite IH. simpl. f_equal. destruct (Hst _ IH) as [?|?]; [done|]. set_solver.
  - case_decide; [|done]. subst. destruct Hst; congruence.
Qed.
Lemma page_holds_fun c S n n' : page_holds c S n → page_holds c S n' → n = n'.
Proof.
  intros (a & ly & Hwf & Hs & Hly & <-) (a' & ly' & Hwf' & Hs' & Hly' & <-). assert (a = a') as ->; [|congruence].
  apply (arch_wf_eq c); [done..|]. apply incr_ext; [apply Hwf|apply Hwf'|]. intros t. by rewrite <- !(elem_of_list_to_set (C:=gset tid)), Hs, Hs'.
Qed.

Lemma firsts_const {X} `{EqDecision X} (x : X) l : (∀ y, y ∈ l → y = x) → firsts (x :: l) = [x].
Proof.
  intros H. simpl. f_equal. apply elem_of_nil_inv. intros y. rewrite elem_of_list_filter, elem_of_firsts. intros [Hne Hy]. by apply H in Hy.
Qed.
Lemma filter_all {X} (P : X → Prop) `{∀ x, Decision (P x)} (l : list X) : (∀ x, x ∈ l → P x) → filter P l = l.
Proof. induction l as [|x l IH]; intros Hl; [done|]. rewrite filter_cons_True by (apply Hl; by left). f_equal. apply IH. intros; apply Hl; by right. Qed.
Lemma in_order_same T l : (∀ x, x ∈ l → x.2 = list_to_set T) → in_order T l = l.*1.
Proof.
  intros H. unfold in_order. destruct l as [|x l]; [done|]. rewrite fmap_cons.
  rewrite firsts_const by (intros y (z & -> & Hz)%elem_of_list_fmap; rewrite (H x), (H z); [done|by right|by left]).
  rewrite filter_cons_True by by rewrite (H x ltac:(by left)). rewrite filter_nil. simpl. rewrite app_nil_r.
  rewrite filter_all; [done|]. intros y Hy. rewrite (H x), (H y); [done|done|by left].
Qed.

(** ** Rows that came in one order are in the pages in this order *)
Definition ahead {X} (x y : X) (l : list X) : Prop := ∃ i j, (i < j)%nat ∧ l !! i = Some x ∧ l !! j = Some y.
Lemma ahead_not {X} (x y : X) l : NoDup l → ahead x y l → ¬ ahead y x l.
Proof.
  intros Hnd (i & j & Hij & Hi & Hj) (j' & i' & Hji & Hj' & Hi').
  pose proof (NoDup_lookup _ _ _ _ Hnd Hi Hi'). pose proof (NoDup_lookup _ _ _ _ Hnd Hj Hj'). lia.
Qed.
Lemma ahead_concat {X} (x y : X) (ls : list (list X)) a b l1 l2 : (a < b)%nat → ls !! a = Some l1 → ls !! b = Some l2 → x ∈ l1 → y ∈ l2 → ahead x y (concat ls).
Proof.
  revert a b. induction ls as [|l ls IH]; intros [|a] [|b] Hab Ha Hb Hx Hy; simpl in *; try done; try lia.
  - injection Ha as ->. apply elem_of_list_lookup in Hx as [i Hi].
    assert (y ∈ concat ls) as [j Hj]%elem_of_list_lookup. { apply elem_of_list_In, in_concat. exists l2. split; apply elem_of_list_In; [by eapply elem_of_list_lookup_2|done]. }
    exists i, (length l1 + j)%nat. split_and!; [apply lookup_lt_Some in Hi; lia|by apply lookup_app_l_Some|]. rewrite lookup_app_r by lia. by replace (length l1 + j - length l1)%nat with j by lia.
  - destruct (IH a b) as (i & j & Hij & Hi & Hj); [lia|done..|]. exists (length l + i)%nat, (length l + j)%nat. split_and!; [lia|..]; rewrite lookup_app_r by lia.
    + by replace (length l + i - length l)%nat with i by lia.
    + by replace (length l + j - length l)%nat with j by lia.
Qed.
Section order.
Context (c : cfg) (Hc : cfg_ok c) (Hmd : c_mode c = Debug).
(** If the page of an earlier entity is another one, it is full. *)
Lemma earlier_full cap tr s e1 e2 S p1 k1 p2 k2 : hrun c cap tr s → settled tr →
  types tr e1 = Some S → types tr e2 = Some S → NoDup (entries tr).*1 → ahead e1 e2 (filter (λ x, x.2 = S) (entries tr)).*1 →
  linked s (e_id e1) p1 k1 → linked s (e_id e2) p2 k2 → p1 ≠ p2 → is_Some (resident s p1 k2).
Proof using Hc Hmd.
  intros Hr Hset Ht1 Ht2 Hnd Hah Hlk1 Hlk2 Hne. pose proof (hrun_filled c Hc Hmd _ _ _ Hr Hset) as [_ F2 F3 F4 F5].
  destruct (hrun_state c Hc Hmd _ _ _ Hr) as (D & Hs & Hcs). pose proof (cs_inv _ _ _ _ _ Hs) as Hci. pose proof (ci_ac _ _ _ _ Hci) as Hi.
  destruct (hrun_usage c Hc Hmd _ _ _ Hr) as [_ _ _ _ [_ UL]].
  assert (∀ e S', types tr e = Some S' → e ∈ live tr) as Hty.
  { intros e S' Ht. specialize (Hcs e). apply comps_types in Hcs. unfold cview in Hcs. case_decide; [done|]. by rewrite Ht in Hcs. }
  assert (∀ e p k, types tr e = Some S → linked s (e_id e) p k → ∃ pg i a ly ps, ac_pages (st_ac s) !! p = Some pg ∧ ac_p2a (st_ac s) !! p = Some i ∧
    ac_archs (st_ac s) !! i = Some a ∧ ac_layouts (st_ac s) !! i = Some ly ∧ pg_ids pg !! k = Some (e_id e) ∧ ac_pages_of (st_ac s) !! i = Some ps ∧ p ∈ ps ∧
    N.of_nat (length (pg_ids pg)) ≤ ly_cap ly ∧ akind a = S) as Hpl.
  { intros e p k Ht Hlk. assert (e ∈ live tr) as HeL by by eapply Hty.
    destruct (cs_row _ _ _ _ _ _ Hs HeL) as (m & HD & _ & [(p' & k' & Hlk' & Hl & _)|(Hb & _)]); [|destruct Hlk; congruence].
    destruct (linked_fun _ _ _ _ _ _ Hlk Hlk') as [<- <-]. pose proof Hl as (pg & i & a & ly & Hpg & Hpi & Ha & Hly & Hid & Hm)%loc_Some.
    destruct (used_facts _ _ _ _ Hi Hpg) as (i' & ps & a' & ly' & H1 & H2 & H3 & H4 & H5 & H6 & H7 & H8 & H9); [by intros E; rewrite E in Hid|].
    assert (i' = i) as -> by congruence. assert (ly' = ly) as -> by congruence.
    exists pg, i, a, ly, ps. split_and!; try done.
    specialize (Hcs e). apply comps_types in Hcs. unfold cview in Hcs. rewrite decide_True, HD, Ht in Hcs by done. injection Hcs as <-.
    apply set_eq. intros t. unfold akind. rewrite elem_of_list_to_set, elem_of_dom, Hm. symmetry. assert (a' = a) as -> by congruence.
    destruct (ac_arch_ok _ _ Hi _ _ _ Ha Hly) as ((Hinc & _) & (Hlen & _) & _). apply row_map_dom; [by apply incr_nodup|done]. }
  destruct (Hpl _ _ _ Ht1 Hlk1) as (pg1 & i & a & ly & ps & Hpg1 & Hpi1 & Ha & Hly & Hid1 & Hps & Hp1 & Hle1 & Hk).
  destruct (Hpl _ _ _ Ht2 Hlk2) as (pg2 & i2 & a2 & ly2 & ps2 & Hpg2 & Hpi2 & Ha2 & Hly2 & Hid2 & Hps2 & Hp2 & Hle2 & Hk2).
  assert (i2 = i) as ->.
  { apply (NoDup_lookup (fmap (M:=list) akind (ac_archs (st_ac s))) i2 i S); [by rewrite F2|rewrite list_lookup_fmap..]; [by rewrite Ha2; simpl; rewrite Hk2|by rewrite Ha; simpl; rewrite Hk]. }
  assert (ps2 = ps) as -> by congruence. assert (ly2 = ly) as -> by congruence.
  assert (concat (ids_at (st_ac s) <$> ps) = e_id <$> (filter (λ x, x.2 = S) (entries tr)).*1) as Hids.
  { apply (F4 i); [|done]. rewrite <- F2, list_lookup_fmap, Ha. simpl. by rewrite Hk. }
  apply elem_of_list_lookup in Hp1 as [n1 Hn1]. apply elem_of_list_lookup in Hp2 as [n2 Hn2].
  assert (n1 < n2)%nat as Hlt.
  { destruct (Nat.lt_trichotomy n1 n2) as [?|[->|Hgt]]; [done|congruence|]. exfalso.
    assert (ahead (e_id e1) (e_id e2) (concat (ids_at (st_ac s) <$> ps))) as Hah'.
    { rewrite Hids. destruct Hah as (x & y & Hxy & Hx & Hy). exists x, y. by rewrite !(list_lookup_fmap e_id), Hx, Hy. }
    revert Hah'. apply ahead_not.
    - rewrite Hids. apply NoDup_fmap_2_strong.
      + assert (∀ x, x ∈ (filter (λ x, x.2 = S) (entries tr)).*1 → x ∈ live tr) as Hlive.
        { intros x ([x' S'] & -> & Hx)%elem_of_list_fmap. apply elem_of_list_filter in Hx as [_ Hx]. destruct (hrun_entries c Hc Hmd _ _ _ Hr Hset _ _ Hx) as [Ht _]. by eapply Hty. }
        intros x y Hx%Hlive Hy%Hlive. by eapply same_ids; [exact (cs_ec _ _ _ _ _ Hs)|..].
      + eapply sublist_nodup; [|exact Hnd]. apply sublist_fmap. clear. induction (entries tr) as [|x l IH]; [constructor|]. rewrite filter_cons. case_decide; by constructor.
    - eapply (ahead_concat _ _ _ n2 n1); [done|by rewrite list_lookup_fmap, Hn2|by rewrite list_lookup_fmap, Hn1|unfold ids_at; rewrite Hpg2|unfold ids_at; rewrite Hpg1]; simpl; by eapply elem_of_list_lookup_2. }
  assert (has_free_space pg1 = false) as Hfull.
  { apply (F5 i (take n1 ps) p1 (drop (Datatypes.S n1) ps)); [by rewrite take_drop_middle| |done]. intros E. apply (f_equal length) in E.
    rewrite drop_length in E. simpl in E. apply lookup_lt_Some in Hn2. lia. }
  destruct (UL i ps p1 pg1 ly) as (v & _ & Hv); [done|by eapply elem_of_list_lookup_2|done..|].
  assert (ly_cap ly ≤ pg_vcap pg1) as Hcap. { rewrite Hv. unfold reserve_vec. destruct (N.ltb_spec v (ly_cap ly)); [|done]. apply (cfg_grow _ Hc). }
  assert (k2 < length (pg_ids pg1))%nat as Hk2'.
  { unfold has_free_space, page_count in Hfull. apply N.ltb_ge in Hfull. apply lookup_lt_Some in Hid2. lia. }
  apply lookup_lt_is_Some in Hk2' as [id Hid]. pose proof (resident_ids c s _ _ D Hs p1 k2) as Hres. rewrite Hpg1 in Hres. simpl in Hres. rewrite Hid in Hres.
  destruct (resident s p1 k2); [by eexists|done].
Qed.
End order.

Section client.
Context (c : cfg) (Hc : cfg_ok c) (cap : N) (T : list tid) (HT : NoDup T) (HTne : T ≠ []).
Notation d := (in_mode Debug c).
Notation S0 := (list_to_set T : gset tid).
Context (Hfit : fits_types d S0) (Hgrow : ∀ K, page_holds d S0 K → c_grow c 0 K = K).

Lemma S0_ne : S0 ≠ ∅.
Proof using HTne. clear -HTne. destruct T as [|t T']; [done|]. intros H. assert (t ∈ (∅ : gset tid)) as Ht; [|by apply elem_of_empty in Ht]. rewrite <- H. simpl. set_solver. Qed.
Lemma S0_arch : ∃ a, arch_wf d a ∧ with_components d T = POk a ∧ list_to_set (arch_ids a) = S0 ∧ fits d a.
Proof using HT HTne Hfit.
  destruct (with_arch d T HTne HT) as (a & Ha & Hwf & Hids). exists a. split_and!; try done.
  - apply set_eq. intros t. by rewrite !elem_of_list_to_set.
  - apply Hfit; [done|]. intros t. by rewrite Hids, elem_of_list_to_set.
Qed.

Record cst (tr : trace) (s : store) : Prop := Cst {
  cst_run : drun (λ _ _, True) c cap tr s;
  cst_nodup : NoDup (issued tr);
  cst_set : settled tr;
  cst_types : ∀ e S, types tr e = Some S → S = ∅ ∨ S = S0;
}.
Lemma cst_frugal tr s : cst tr s → frugal c tr.
Proof using Hc HT HTne Hfit Hgrow.
  intros [Hr Hnd Hset Hty].
  assert (∀ tr1 tr2 S, tr = tr1 ++ tr2 → used tr1 S → occupied tr1 S ∧ S = S0) as Hused.
  { intros tr1 tr2 S -> (tr11 & tr12 & -> & Hne & e & He).
    assert (types (tr11 ++ tr12) e = Some S) as He1.
    { apply settled_types; [|by eapply settled_app|done..]. unfold issued in Hnd. rewrite omap_app in Hnd. by apply NoDup_app in Hnd as (? & _). }
    split; [split; [done|by exists e]|]. destruct (Hty e S) as [?| ->]; [|done..]. by apply settled_types. }
  split.
  - intros tr1 tr2 S1 S2 Heq (Hu & Hno & _). by destruct (Hused _ _ _ Heq Hu).
  - left. destruct S0_arch as (a & Hwf & _ & Hids & ly & Hly & _). exists (ly_cap ly).
    assert (page_holds d S0 (ly_cap ly)) as Hp by by exists a, ly. split; [by apply Hgrow|].
    intros S n Hu Hn. destruct (Hused tr [] S) as [_ ->]; [by rewrite app_nil_r|done|]. by eapply page_holds_fun.
Qed.
Lemma cst_drun tr s : cst tr s → drun (healthy c) c cap tr s.
Proof using Hc HT HTne Hfit Hgrow. intros Hs. by destruct (frugal_drun _ _ _ _ Hc (cst_run _ _ Hs) (cst_frugal _ _ Hs)). Qed.
Lemma cst_step tr s o : cst tr s → disciplined c tr o → stays tr o →
  (∀ e S r, types tr e = None ∨ types tr e = Some ∅ ∨ types tr e = Some S0 → types_step e (types tr e) o r = Some S → S = ∅ ∨ S = S0) →
  ∃ s' r, step c o s = ROk s' r ∧ cst (tr ++ [(o, r)]) s'.
Proof using Hc HT HTne Hfit Hgrow.
  intros Hs Ho Hst Hty. destruct (frugal_returns _ _ _ _ o Hc (cst_run _ _ Hs) (cst_frugal _ _ Hs) Ho) as (s' & r & H). exists s', r. split; [done|]. split.
  - econstructor; [by apply Hs|done..].
  - destruct (frugal_drun _ _ _ _ Hc (cst_run _ _ Hs) (cst_frugal _ _ Hs)) as [Hd Hh].
    destruct (drun_debug c cap (tr ++ [(o, r)]) s' Hc) as [Hr _]; [econstructor; try done; by apply Hh|].
    eapply (handles_nodup d); [done|by eapply hrun_run].
  - intros tr1 o1 r1 tr2 Heq. destruct tr2 as [|x tr2 _] using rev_ind.
    + apply app_inj_tail in Heq as [<- [= <- <-]]. done.
    + rewrite app_comm_cons, app_assoc in Heq. apply app_inj_tail in Heq as [-> _]. by eapply (cst_set _ _ Hs).
  - intros e S. rewrite types_snoc. apply Hty. destruct (types tr e) as [S'|] eqn:E; [|by left]. right.
    destruct (cst_types _ _ Hs _ _ E) as [->| ->]; [by left|by right].
Qed.

Lemma members_snoc tr o r g : members (tr ++ [(o, r)]) g = order_step g (members tr g) o.
Proof using. unfold members. by rewrite foldl_app. Qed.
Lemma tags_on_live_snoc tr o r : tags_on_live tr → (∀ t e, o = OTagAdd t e ∨ o = OTagDel t e → alive_in tr e) → tags_on_live (tr ++ [(o, r)]).
Proof using.
  intros Htr Ho tr1 o1 r1 tr2 t e Heq Hoe. destruct tr2 as [|x tr2 _] using rev_ind.
  - apply app_inj_tail in Heq as [<- [= <- <-]]. by eapply Ho.
  - rewrite app_comm_cons, app_assoc in Heq. apply app_inj_tail in Heq as [-> _]. by eapply Htr.
Qed.

Lemma comps_snoc_inv tr o r e x : comps (tr ++ [(o, r)]) e x → ∃ x0, comps tr e x0 ∧ comp_step e x0 o r x.
Proof using. inversion 1 as [? Heq|? ? x0 ? ? ? H1 H2 Heq]; [by destruct tr|]. apply app_inj_tail in Heq as [-> [= -> ->]]. by exists x0. Qed.
Lemma put_values v (m : gmap tid (list cell)) : NoDup v.*1 → values (put v m) v.*1 = bytes v.
Proof using.
  intros Hnd. unfold values, bytes. rewrite <- list_fmap_compose. apply list_fmap_ext. intros i [t w] Hi. simpl. 
  destruct (put_lookup v m Hnd) as [H _]. by rewrite (H t w) by by eapply elem_of_list_lookup_2.
Qed.
(** The components of [e] are the given values, whatever create_entity_with_archetype left. *)
Definition has_values (tr : trace) (e : entity) (v : list (tid * list N)) : Prop :=
  ∀ x, comps tr e x → ∃ m, x = Some m ∧ values m T = bytes v.

(** ** query_bench.rs *)
Section bench.
Context (tag : tid).
Definition sel {X} (es : list (entity * (X * bool))) : list (entity * (X * bool)) := List.filter (λ x, x.2.2) es.
Record binv (tr : trace) (s : store) (es : list (entity * (list (tid * list N) * bool))) : Prop := Binv {
  bi_cst : cst tr s;
  bi_issued : issued tr = es.*1;
  bi_comps : ∀ e v b, (e, (v, b)) ∈ es → has_values tr e v;
  bi_types : ∀ e S, types tr e = Some S → S = S0;
  bi_alive : ∀ e, e ∈ issued tr → alive_in tr e;
  bi_members : members tr tag = (sel es).*1;
  bi_tagged : ∀ e, tagged tr tag e ↔ e ∈ (sel es).*1;
  bi_tags : tags_on_live tr;
  bi_entries : entries tr = (λ x, (x.1, S0)) <$> es;
}.

Lemma comps_some tr s e : cst tr s → ∃ x, comps tr e x.
Proof using Hc HT HTne Hfit Hgrow.
  intros Hs%cst_drun. apply (drun_debug _ _ _ _ Hc) in Hs as [Hr _]. destruct (hrun_state _ (cfg_ok_mode Debug c Hc) eq_refl _ _ _ Hr) as (D & _ & H). eauto.
Qed.
Lemma bench_plain tr s es v : binv tr s es → of_type c T v → N.of_nat (length es) < 2 ^ 32 - 1 →
  ∃ tr' s1 s' e, create_entity c s = ROk s1 e ∧ add_components c e v s1 = ROk s' tt ∧ binv tr' s' (es ++ [(e, (v, false))]).
Proof using Hc HT HTne Hfit Hgrow.
  intros [Hs Hiss Hco Hty Hal Hmem Htag Hlive Hent] [HvT Hvok] Hlen.
  destruct (cst_step _ _ OCreate Hs) as (s1 & r1 & H1 & Hs1); [|done| |].
  { split_and!; [done..| |]; [by intros e ?%elem_of_nil|]. simpl. by rewrite Hiss, fmap_length. }
  { intros e S r Ht. simpl. case_decide; [intros [= <-]; by left|]. intros E. rewrite E in Ht. destruct Ht as [?|[[= ->]|[= ->]]]; [done|by left|by right]. }
  simpl in H1. apply bind_ok in H1 as (s1' & e & Hcr & [-> ->]%ret_ok).
  pose proof (cst_nodup _ _ Hs1) as Hnd. rewrite issued_snoc in Hnd. apply NoDup_app in Hnd as (_ & Hnew & _).
  assert (e ∉ issued tr) as He. { intros He. apply (Hnew e He). by left. }
  assert (types tr e = None) as Hxe. { destruct (types tr e) as [S|] eqn:E; [|done]. destruct He. by eapply types_issued. }
  assert (types (tr ++ [(OCreate, Some e)]) e = Some ∅) as Ht1. { rewrite types_snoc. simpl. by rewrite decide_True. }
  assert (∀ e', e' ≠ e → types (tr ++ [(OCreate, Some e)]) e' = types tr e') as Ht1'. { intros e' He'. rewrite types_snoc. simpl. by rewrite decide_False by congruence. }
  destruct (cst_step _ _ (OAdd e v) Hs1) as (s2 & r2 & H2 & Hs2).
  { split_and!; [split_and!; [intros ->; by destruct HTne|by rewrite HvT|done]| |done| |done].
    - intros m Hm. apply comps_types in Hm. rewrite Ht1 in Hm. injection Hm as ->. rewrite HvT. by rewrite union_empty_l_L.
    - intros e' He'. apply elem_of_list_singleton in He' as ->. rewrite issued_snoc. apply elem_of_app. right. by left. }
  { intros S. rewrite Ht1. intros [= <-]. by left. }
  { intros e' S r Ht. simpl. case_decide as E; [|intros E'; rewrite E' in Ht; destruct Ht as [?|[[= ->]|[= ->]]]; [done|by left|by right]].
    subst e'. rewrite Ht1. simpl. rewrite HvT, union_empty_l_L. intros [= <-]. by right. }
  simpl in H2. apply no_out_ok in H2 as [Hadd ->].
  exists ((tr ++ [(OCreate, Some e)]) ++ [(OAdd e v, None)]), s1', s2, e. split_and!; [done..|].
  assert (sel (es ++ [(e, (v, false))]) = sel es) as Hsel. { unfold sel. rewrite List.filter_app. simpl. by rewrite app_nil_r. }
  split; rewrite ?Hsel.
  - done.
  - rewrite !issued_snoc, app_nil_r, Hiss, fmap_app. done.
  - intros e' v' b'. rewrite elem_of_app, elem_of_list_singleton. intros [Hin|[= -> -> ->]].
    + assert (e' ≠ e) as Hne. { intros ->. apply He. rewrite Hiss. apply elem_of_list_fmap. by eexists (_, _). }
      intros y (x1 & (x0 & Hx0 & H0)%comps_snoc_inv & Hy)%comps_snoc_inv. simpl in H0, Hy. rewrite decide_False in H0 by congruence. rewrite decide_False in Hy by congruence. subst. by eapply Hco.
    + intros y (x1 & (x0 & Hx0 & H0)%comps_snoc_inv & Hy)%comps_snoc_inv. simpl in H0, Hy. rewrite decide_True in H0 by done. rewrite decide_True in Hy by done. subst x1 y. simpl.
      eexists. split; [done|]. rewrite <- HvT. apply put_values. by rewrite HvT.
  - intros e' S. rewrite types_snoc. simpl. case_decide as E; [subst e'; rewrite Ht1; simpl; rewrite HvT, union_empty_l_L; by intros [= <-]|].
    rewrite Ht1' by congruence. apply Hty.
  - intros e'. rewrite !issued_snoc, app_nil_r, elem_of_app, elem_of_list_singleton, !alive_snoc. intros [H| ->]; [|right; split; [by left|done]].
    right. split; [|done]. right. split; [by apply Hal|done].
  - rewrite !members_snoc. done.
  - intros e'. unfold tagged. rewrite !since_snoc. fold (tagged tr tag e'). rewrite Htag. naive_solver.
  - do 2 (apply tags_on_live_snoc; [|naive_solver]). done.
  - rewrite !entries_snoc. simpl. rewrite decide_True by done. rewrite app_nil_r, Hent, fmap_app, HvT. done.
Qed.
Lemma bench_mark tr s es e v : binv tr s (es ++ [(e, (v, false))]) →
  ∃ tr' s1 s', add_order c tag e s = ROk s1 tt ∧ add_tag c tag e s1 = ROk s' tt ∧ binv tr' s' (es ++ [(e, (v, true))]).
Proof using Hc HT HTne Hfit Hgrow.
  intros [Hs Hiss Hco Hty Hal Hmem Htag Hlive Hent].
  assert (sel (es ++ [(e, (v, false))]) = sel es) as Hsel. { unfold sel. rewrite List.filter_app. simpl. by rewrite app_nil_r. }
  assert (sel (es ++ [(e, (v, true))]) = sel es ++ [(e, (v, true))]) as Hsel'. { unfold sel. by rewrite List.filter_app. }
  rewrite Hsel in *. pose proof (cst_nodup _ _ Hs) as Hnd. rewrite Hiss, fmap_app in Hnd. apply NoDup_app in Hnd as (_ & Hnew & _).
  assert (e ∈ issued tr) as Hei. { rewrite Hiss, fmap_app. apply elem_of_app. right. by left. }
  destruct (cst_step _ _ (OOrdAdd tag e) Hs) as (s1 & r1 & H1 & Hs1); [|done| |].
  { split_and!; [done..| | |done]; [split; [by apply Hal|]|].
    - rewrite Hmem. intros Hin. apply (Hnew e); [|by left]. apply elem_of_list_fmap in Hin as (x & -> & Hx). apply elem_of_list_fmap. exists x. split; [done|].
      apply elem_of_list_In, filter_In in Hx as [Hx _]. by apply elem_of_list_In.
    - by intros e' ->%elem_of_list_singleton. }
  { intros e' S r Ht. simpl. intros E. rewrite E in Ht. destruct Ht as [?|[[= ->]|[= ->]]]; [done|by left|by right]. }
  simpl in H1. apply no_out_ok in H1 as [H1 ->].
  destruct (cst_step _ _ (OTagAdd tag e) Hs1) as (s2 & r2 & H2 & Hs2); [|done| |].
  { split_and!; [done..| |done]. intros e' ->%elem_of_list_singleton. rewrite issued_snoc, app_nil_r. done. }
  { intros e' S r Ht. simpl. intros E. rewrite E in Ht. destruct Ht as [?|[[= ->]|[= ->]]]; [done|by left|by right]. }
  simpl in H2. apply no_out_ok in H2 as [H2 ->].
  exists ((tr ++ [(OOrdAdd tag e, None)]) ++ [(OTagAdd tag e, None)]), s1, s2. split_and!; [done..|].
  split; rewrite ?Hsel'.
  - done.
  - rewrite !issued_snoc, !app_nil_r, Hiss, !fmap_app. done.
  - intros e' v' b' Hin y (x1 & (x0 & Hx0 & ->)%comps_snoc_inv & ->)%comps_snoc_inv. revert Hx0. apply elem_of_app in Hin as [Hin|[= -> -> ->]%elem_of_list_singleton].
    + apply (Hco e' v' b'). apply elem_of_app. by left.
    + apply (Hco e v false). apply elem_of_app. right. by left.
  - intros e' S. rewrite !types_snoc. apply Hty.
  - intros e'. rewrite !issued_snoc, !app_nil_r, !alive_snoc. naive_solver.
  - rewrite !members_snoc. simpl. rewrite bool_decide_true by done. by rewrite Hmem, fmap_app.
  - intros e'. unfold tagged. rewrite !since_snoc. fold (tagged tr tag e'). rewrite Htag. rewrite fmap_app, elem_of_app. simpl. rewrite elem_of_list_singleton. naive_solver.
  - apply tags_on_live_snoc; [apply tags_on_live_snoc; [done|naive_solver]|]. intros t e' [[= -> ->]|?]; [|done]. apply alive_snoc. right. split; [by apply Hal|done].
  - rewrite !entries_snoc. simpl. by rewrite !app_nil_r, Hent, !fmap_app.
Qed.
Lemma bench_fill_ok items : ∀ tr s es, binv tr s es → (∀ v b, (v, b) ∈ items → of_type c T v) → N.of_nat (length es + length items) < 2 ^ 32 →
  ∃ tr' s' es', bench_fill c tag items s = ROk s' tt ∧ es'.*2 = items ∧ binv tr' s' (es ++ es').
Proof using Hc HT HTne Hfit Hgrow.
  induction items as [|[v b] items IH]; intros tr s es Hb Hok Hlen.
  - exists tr, s, []. by rewrite app_nil_r.
  - simpl in Hlen. destruct (bench_plain _ _ _ v Hb) as (tr1 & s1 & s2 & e & H1 & H2 & Hb2); [eapply Hok; by left|lia|].
    assert (∃ tr3 s3, (if b then _ ← add_order c tag e; add_tag c tag e else mret tt) s2 = ROk s3 tt ∧ binv tr3 s3 (es ++ [(e, (v, b))])) as (tr3 & s3 & H3 & Hb3).
    { destruct b; [|by exists tr1, s2]. destruct (bench_mark _ _ _ _ _ Hb2) as (tr3 & s' & s3 & Ho & Ht & Hb3). exists tr3, s3. split; [|done]. apply bind_ok. eauto. }
    destruct (IH tr3 s3 (es ++ [(e, (v, b))]) Hb3) as (tr' & s' & es' & H & He & Hb'); [intros; eapply Hok; by right|rewrite app_length; simpl; lia|].
    exists tr', s', ((e, (v, b)) :: es'). split_and!.
    + cbn [bench_fill]. apply bind_ok. exists s1, e. split; [done|]. apply bind_ok. exists s2, tt. split; [done|]. apply bind_ok. exists s3, tt. done.
    + by rewrite fmap_cons, He.
    + by rewrite <- app_assoc in Hb'.
Qed.


Lemma sel_all {X} (es : list (entity * (X * bool))) : (sel es).*2 = List.filter snd es.*2.
Proof using. clear. induction es as [|[e [v b]] es IH]; [done|]. rewrite fmap_cons. cbn [sel List.filter snd fst]. destruct b; [rewrite fmap_cons; f_equal|]; exact IH. Qed.
Lemma skip_map {X Y} (f : X → bool) (g : Y → bool) n l l' : f <$> l = g <$> l' → none_skipped f n l → none_skipped g n l'.
Proof using.
  clear. intros Hfg Hn l1 l2 l3 -> Hlen. rewrite !fmap_app in Hfg.
  apply fmap_app_inv in Hfg as (k1 & k & E1 & E & ->). symmetry in E. apply fmap_app_inv in E as (k2 & k3 & E2 & E3 & ->).
  destruct (Hn k1 k2 k3 eq_refl) as (x & Hx & Hfx). { apply (f_equal length) in E2. rewrite !fmap_length in E2. congruence. }
  apply elem_of_list_lookup in Hx as [i Hi]. assert ((g <$> l2) !! i = Some true) as H by by rewrite E2, list_lookup_fmap, Hi; simpl; rewrite Hfx.
  rewrite list_lookup_fmap in H. apply fmap_Some in H as (y & Hy & Hg). exists y. split; [by eapply elem_of_list_lookup_2|done].
Qed.
Lemma filter_same {X Y Z} (f : X → bool) (g : Y → bool) (u : X → Z) (v : Y → Z) l l' :
  Forall2 (λ x y, f x = g y ∧ u x = v y) l l' → u <$> List.filter f l = v <$> List.filter g l'.
Proof using. clear. induction 1 as [|x y l l' [H1 H2] _ IH]; [done|]. simpl. rewrite H1. destruct (g y); [|done]. rewrite !fmap_cons. by f_equal. Qed.

Lemma bench_item tr s es e v b : binv tr s es → (e, (v, b)) ∈ es →
  (∃ m, observed c s e (Some m) ∧ types tr e = Some (dom m) ∧ values m T = bytes v) ∧ has_tag c s tag e = POk b.
Proof using Hc HT HTne Hfit Hgrow.
  intros Hb He. pose proof (cst_drun _ _ (bi_cst _ _ _ Hb)) as Hd. destruct (drun_debug _ _ _ _ Hc Hd) as [Hr _].
  assert (e ∈ issued tr) as Hei. { rewrite (bi_issued _ _ _ Hb). apply elem_of_list_fmap. by eexists (_, _). }
  split.
  - destruct (drun_values _ _ _ _ _ Hc Hd Hei) as (x & Hx & Ho & _). destruct (bi_comps _ _ _ Hb _ _ _ He _ Hx) as (m & -> & Hm).
    exists m. split_and!; [done| |done]. by apply comps_types in Hx.
  - destruct (has_tag_exact d (cfg_search _ (cfg_ok_mode Debug c Hc)) eq_refl _ _ _ tag e (hrun_run _ _ _ _ Hr) (bi_tags _ _ _ Hb) (bi_alive _ _ _ Hb _ Hei)) as (b' & Hb' & Hiff).
    rewrite has_tag_mode in Hb'. rewrite Hb'. f_equal. apply eq_true_iff_eq. rewrite Hiff, (bi_tagged _ _ _ Hb).
    pose proof (cst_nodup _ _ (bi_cst _ _ _ Hb)) as Hnd. rewrite (bi_issued _ _ _ Hb) in Hnd. split.
    + intros ([e' [v' b2]] & -> & Hx)%elem_of_list_fmap. apply elem_of_list_In, filter_In in Hx as [Hx%elem_of_list_In Hb2]. simpl in Hb2. subst b2.
      apply elem_of_list_lookup in He as [i Hi]. apply elem_of_list_lookup in Hx as [j Hj].
      assert (i = j) as ->; [|congruence]. eapply (NoDup_lookup es.*1); [done|by rewrite list_lookup_fmap, Hi|by rewrite list_lookup_fmap, Hj].
    + intros ->. apply elem_of_list_fmap. exists (e, (v, true)). split; [done|]. apply elem_of_list_In, filter_In. split; [by apply elem_of_list_In|done].
Qed.
Lemma types_S0 m tr s es e : binv tr s es → types tr e = Some (dom (m : gmap tid (list cell))) → has_all m T = true.
Proof using.
  intros Hb Ht. apply (bi_types _ _ _ Hb) in Ht. unfold has_all. apply forallb_forall. intros t Hin%elem_of_list_In. apply bool_decide_eq_true.
  apply elem_of_dom. rewrite Ht. by apply elem_of_list_to_set.
Qed.

Lemma bench_tags tr s es depth : binv tr s es → sel es ≠ [] → none_skipped snd depth es.*2 →
  ∃ bv it l it', filter_tag c s tag = POk bv ∧ component_query c (Access T []) s = POk it ∧ yields (filtering depth s bv) it l it' ∧
    l.*1 = (sel es).*1 ∧ (λ x, seen s x.2) <$> l = (λ x, bytes x.1) <$> (sel es).*2.
Proof using Hc HT HTne Hfit Hgrow.
  intros Hb Hne Hskip. pose proof (cst_drun _ _ (bi_cst _ _ _ Hb)) as Hd. set (q := Access T []).
  assert (q_types q = T) as Hqt by (unfold q_types; simpl; by rewrite app_nil_r).
  destruct (both_filter_tag c Hc cap tr s q tag Hd) as (bv & it & l & it1 & Hbv & Hit & Hy & Hf); [by rewrite Hqt..| |].
  { destruct (sel es) as [|x l] eqn:E; [done|]. assert (tagged tr tag x.1) as (tr1 & [o r] & tr2 & -> & Hx & _). { apply (bi_tagged _ _ _ Hb). rewrite E. by left. }
    simpl in Hx. subst o. exists x.1, r. apply elem_of_app. right. by left. }
  destruct (both_visits c cap tr s q Hc Hd (cst_set _ _ (bi_cst _ _ _ Hb))) as (it' & l' & it1' & Hit' & Hy' & Hl & Hv); [by rewrite Hqt..|].
  assert (it' = it) as -> by congruence. destruct (yields_fun _ _ _ _ _ _ Hy Hy') as [<- _]. rewrite Hqt in *.
  rewrite (bi_entries _ _ _ Hb), in_order_same in Hl by by intros x (y & -> & _)%elem_of_list_fmap.
  assert (l.*1 = es.*1) as Hes. { rewrite Hl, <- list_fmap_compose. done. }
  assert (Forall2 (λ x y, x.1 = y.1 ∧ item_tagged c s tag x = y.2.2 ∧ seen s x.2 = bytes y.2.1) l es) as Hall.
  { apply Forall2_same_length_lookup_2; [by rewrite <- (fmap_length fst l), Hes, fmap_length|]. intros i [e rs] [e' [v b]] Hi Hi'.
    assert (l.*1 !! i = es.*1 !! i) as Heq by by rewrite Hes. rewrite !list_lookup_fmap, Hi, Hi' in Heq. injection Heq as <-. simpl.
    apply elem_of_list_lookup_2 in Hi, Hi'. destruct (bench_item _ _ _ _ _ _ Hb Hi') as [(m & Hm & _ & Hval) Htag]. destruct (Hv _ _ Hi) as (m' & Hm' & Hval').
    pose proof (observed_inj _ _ _ _ _ Hm Hm') as [= <-]. split_and!; [done|unfold item_tagged; cbn [fst]; by rewrite Htag|]. unfold seen. by rewrite Hval'. }
  exists bv, it, (List.filter (item_tagged c s tag) l), it1. split_and!; [done|done|apply Hf|..].
  - revert Hskip. apply skip_map. rewrite <- list_fmap_compose. clear -Hall. induction Hall as [|x y l es (H1 & H2 & H3) _ IH]; [done|]. rewrite !fmap_cons. by rewrite IH, H2.
  - apply filter_same. eapply Forall2_impl; [exact Hall|]. intros x y (H1 & H2 & H3). done.
  - rewrite <- list_fmap_compose. apply filter_same. eapply Forall2_impl; [exact Hall|]. intros x y (H1 & H2 & H3). done.
Qed.

(** *** The order group *)
Lemma paired_in_some s p run : (∀ e n p', e ∈ run → place s e = Some (p', n) → match p with Some p => is_Some (resident s p n) | None => True end) → Forall is_Some (paired_in s p run).
Proof using.
  clear. induction run as [|e [|e' run] IH]; intros H; [constructor|by repeat constructor|].
  change (Forall is_Some (match p, place s e with Some p, Some (_, k) => resident s p k | _, _ => Some e end :: paired_in s p (e' :: run))).
  constructor; [|apply IH; intros; eapply H; [by right|done]]. destruct p as [p|]; [|done]. destruct (place s e) as [[p' k]|] eqn:E; [|done]. apply (H e k p'); [by left|done].
Qed.
Lemma paired_some s rs : ∀ p, (∀ e n p', e ∈ concat rs → place s e = Some (p', n) → match p with Some p => is_Some (resident s p n) | None => True end) →
  (∀ i j e1 e2 p1 k1 p2 k2, (i < j)%nat → concat rs !! i = Some e1 → concat rs !! j = Some e2 → place s e1 = Some (p1, k1) → place s e2 = Some (p2, k2) → is_Some (resident s p1 k2)) →
  Forall is_Some (paired s p rs).
Proof using.
  clear. induction rs as [|run rs IH]; intros p Hp Hij; [constructor|]. simpl in *. apply Forall_app. split.
  - apply paired_in_some. intros e n p' He. apply Hp. apply elem_of_app. by left.
  - apply IH.
    + intros e n p' He Hpl. unfold page_of. destruct run as [|e1 run]; [done|]. simpl. destruct (place s e1) as [[p1 k1]|] eqn:E; [|done]. simpl.
      apply elem_of_list_lookup in He as [j Hj]. apply (Hij 0%nat (length (e1 :: run) + j)%nat e1 e p1 k1 p' n); [simpl; lia|done| |done..].
      rewrite lookup_app_r by lia. by replace (length (e1 :: run) + j - length (e1 :: run))%nat with j by lia.
    + intros i j e1 e2 p1 k1 p2 k2 Hlt Hi Hj. apply (Hij (length run + i)%nat (length run + j)%nat); [lia|rewrite lookup_app_r by lia..].
      * by replace (length run + i - length run)%nat with i by lia.
      * by replace (length run + j - length run)%nat with j by lia.
Qed.
Lemma paired_length s rs : ∀ p, length (paired s p rs) = length (concat rs).
Proof using. clear. induction rs as [|r rs IH]; intros p; [done|]. cbn [paired concat]. by rewrite !app_length, paired_in_length, IH. Qed.
Lemma somes {X} (l : list (option X)) : Forall is_Some l → ∃ l', l = Some <$> l'.
Proof using. clear. induction 1 as [|x l [y ->] _ [l' ->]]; [by exists []|]. by exists (y :: l'). Qed.
Lemma filter_id {X} (f : X → bool) l : (∀ x, x ∈ l → f x = true) → List.filter f l = l.
Proof using. clear. induction l as [|x l IH]; intros H; [done|]. simpl. rewrite H by by left. f_equal. apply IH. intros; apply H; by right. Qed.
Lemma filter_ahead {X} (f : X → bool) (l : list X) : ∀ i j x y, (i < j)%nat → List.filter f l !! i = Some x → List.filter f l !! j = Some y → ahead x y l.
Proof using.
  clear. induction l as [|z l IH]; intros i j x y Hij Hi Hj; [done|]. simpl in Hi, Hj. destruct (f z).
  - destruct j as [|j]; [lia|]. destruct i as [|i].
    + injection Hi as <-. simpl in Hj. apply elem_of_list_lookup_2, elem_of_list_In, filter_In in Hj as [Hj%elem_of_list_In _]. apply elem_of_list_lookup in Hj as [k Hk].
      exists 0%nat, (S k). split_and!; [lia|done..].
    + destruct (IH i j x y) as (a & b & Hab & Ha & Hb); [lia|done..|]. exists (S a), (S b). split_and!; [lia|done..].
  - destruct (IH i j x y) as (a & b & Hab & Ha & Hb); [lia|done..|]. exists (S a), (S b). split_and!; [lia|done..].
Qed.
Lemma ahead_fmap {X Y} (f : X → Y) x y l : ahead x y l → ahead (f x) (f y) (f <$> l).
Proof using. clear. intros (i & j & H & Hi & Hj). exists i, j. by rewrite !list_lookup_fmap, Hi, Hj. Qed.

Lemma bench_types tr s es e : binv tr s es → e ∈ es.*1 → types tr e = Some S0.
Proof using Hc HT HTne Hfit Hgrow.
  intros Hb ([e' [v b]] & -> & He)%elem_of_list_fmap. destruct (bench_item _ _ _ _ _ _ Hb He) as [(m & _ & Ht & _) _]. simpl. rewrite Ht. f_equal. by eapply bi_types.
Qed.
Lemma bench_order tr s es fuel : binv tr s es → (length (sel es) < fuel)%nat →
  ∃ it l it', ordered_query fuel c (Access T []) s tag = Some (POk it) ∧ yields (oiter_next_with (ec_ver (st_ec s))) it l it' ∧
    (λ x : entity * list cref, seen s x.2) <$> l = (λ x : list (tid * list N) * bool, bytes x.1) <$> (sel es).*2.
Proof using Hc HT HTne Hfit Hgrow.
  intros Hb Hfuel. pose proof (cst_drun _ _ (bi_cst _ _ _ Hb)) as Hd. destruct (drun_debug _ _ _ _ Hc Hd) as [Hr Ho]. set (q := Access T []).
  pose proof (cfg_ok_mode Debug c Hc) as Hcd.
  assert (q_types q = T) as Hqt by (unfold q_types; simpl; by rewrite app_nil_r).
  assert (∀ e, e ∈ (sel es).*1 → e ∈ es.*1) as Hsub.
  { intros e (x & -> & Hx)%elem_of_list_fmap. apply elem_of_list_fmap. exists x. split; [done|]. apply elem_of_list_In, filter_In in Hx as [Hx _]. by apply elem_of_list_In. }
  destruct (ordered_with_exact d cap tr s q tag fuel Hcd eq_refl Hr Ho) as (it & l & it1 & f & Hf & Hit & Hy & Hl & Hrefs & Hpair & _); [by rewrite Hqt..| | |].
  { intros e He. rewrite (bi_members _ _ _ Hb) in He. eapply (had_now d); [done..|]. rewrite (bench_types _ _ _ _ Hb (Hsub _ He)). apply bool_decide_eq_true, S0_ne. }
  { by rewrite (bi_members _ _ _ Hb), fmap_length. }
  assert (∀ e, e ∈ (sel es).*1 → f e = true) as Hall.
  { intros e He. apply Hf. apply Hsub in He. apply elem_of_list_fmap in He as ([e' [v b]] & -> & He). destruct (bench_item _ _ _ _ _ _ Hb He) as [(m & Hm & Ht & _) _].
    exists m. split; [by eapply (observed_both c Hc)|]. rewrite Hqt. intros t Hin. apply elem_of_dom. apply (bi_types _ _ _ Hb) in Ht. rewrite Ht. by apply elem_of_list_to_set. }
  pose proof (runs_concat s (members tr tag)) as Hcat. rewrite filter_id in Hl, Hpair.
  2: { intros run Hrun. apply forallb_forall. intros e He. apply Hall. rewrite <- (bi_members _ _ _ Hb), <- Hcat. apply elem_of_list_In, in_concat. exists run. split; [by apply elem_of_list_In|done]. }
  2: { intros run Hrun. apply forallb_forall. intros e He. apply Hall. rewrite <- (bi_members _ _ _ Hb), <- Hcat. apply elem_of_list_In, in_concat. exists run. split; [by apply elem_of_list_In|done]. }
  rewrite Hcat, (bi_members _ _ _ Hb) in Hl.
  destruct (somes (paired s None (runs s (members tr tag)))) as [es' Hes'].
  { apply paired_some; [done|]. rewrite Hcat, (bi_members _ _ _ Hb). intros i j e1 e2 p1 k1 p2 k2 Hij Hi Hj Hp1 Hp2.
    assert (ahead e1 e2 es.*1) as Hah.
    { rewrite list_lookup_fmap in Hi, Hj. apply fmap_Some in Hi as (x1 & Hi & ->). apply fmap_Some in Hj as (x2 & Hj & ->). apply ahead_fmap. by eapply filter_ahead. }
    destruct (hrun_state d Hcd eq_refl _ _ _ Hr) as (D & Hs & Hcs).
    assert (∀ e p k, e ∈ (sel es).*1 → place s e = Some (p, k) → e ∈ live tr ∧ linked s (e_id e) p k) as Hlk.
    { intros e p k He Hpl. pose proof (bench_types _ _ _ _ Hb (Hsub _ He)) as Ht. specialize (Hcs e). pose proof (comps_types _ _ _ Hcs) as Hty. rewrite Ht in Hty. unfold cview in Hty. case_decide as HeL; [|done].
      split; [done|]. destruct (cs_row _ _ _ _ _ _ Hs HeL) as (m & HD & _ & [(p' & k' & Hlk' & _)|(Hb' & _ & Hm0)]).
      - pose proof (linked_place _ _ _ _ Hlk') as E. rewrite Hpl in E. by injection E as -> ->.
      - exfalso. rewrite HD in Hty. simpl in Hty. rewrite Hm0, dom_empty_L in Hty. injection Hty as E. by apply S0_ne. }
    destruct (Hlk e1 p1 k1) as [HL1 Hlk1]; [by eapply elem_of_list_lookup_2|done|]. destruct (Hlk e2 p2 k2) as [HL2 Hlk2]; [by eapply elem_of_list_lookup_2|done|].
    destruct (decide (p1 = p2)) as [->|Hne].
    - exists e2. by apply (resident_linked _ _ _ _ _ Hs).
    - eapply (earlier_full d Hcd eq_refl _ _ _ e1 e2 S0); [done|by eapply cst_set, bi_cst|eapply bench_types; [done|]|eapply bench_types; [done|]| | |done..].
      + by apply Hsub; eapply elem_of_list_lookup_2.
      + by apply Hsub; eapply elem_of_list_lookup_2.
      + rewrite (bi_entries _ _ _ Hb), <- list_fmap_compose. change (NoDup (es.*1)). rewrite <- (bi_issued _ _ _ Hb). by eapply cst_nodup, bi_cst.
      + rewrite (bi_entries _ _ _ Hb), filter_all by by intros x (y & -> & _)%elem_of_list_fmap. rewrite <- list_fmap_compose. exact Hah. }
  destruct (Hpair _ Hes') as [it2 Hy2]. exists it, (zip es' l.*2), it2. rewrite ordered_query_own in Hit. split_and!; [done..|].
  assert (length es' = length l) as Hlen.
  { apply (f_equal length) in Hes'. rewrite fmap_length in Hes'. rewrite <- Hes', <- (fmap_length fst l), Hl, <- (bi_members _ _ _ Hb). transitivity (length (concat (runs s (members tr tag)))); [|by rewrite Hcat]. apply paired_length. }
  transitivity (seen s <$> l.*2).
  { rewrite <- (snd_zip es' l.*2) at 2 by by rewrite fmap_length, Hlen. by rewrite <- list_fmap_compose. }
  apply list_eq. intros i. rewrite !list_lookup_fmap. assert (l.*1 !! i = (sel es).*1 !! i) as Heq by by rewrite Hl. rewrite !list_lookup_fmap in Heq.
  destruct (l !! i) as [[e rs]|] eqn:Hi, (sel es !! i) as [[e' [v b]]|] eqn:Hi'; try done. injection Heq as <-. simpl. f_equal.
  apply elem_of_list_lookup_2 in Hi, Hi'. apply elem_of_list_In, filter_In in Hi' as [Hi'%elem_of_list_In _].
  destruct (bench_item _ _ _ _ _ _ Hb Hi') as [(m & (_ & Hm & _) & Ht & Hval) _]. apply Hrefs, refs_own in Hi. rewrite Hqt in Hi.
  specialize (Hm T HTne). unfold read_components in Hm. rewrite Hi in Hm. simpl in Hm. unfold expected in Hm. rewrite (types_S0 _ _ _ _ _ Hb Ht) in Hm. injection Hm as Hm. by rewrite <- Hval, <- Hm.
Qed.
End bench.

(** The programs start with an empty store. *)
Lemma cst_nil s : store_with_capacity (c_mode c) cap = POk s → 0 < cap → cst [] s.
Proof using.
  intros Hs Hcap. split.
  - by constructor.
  - constructor.
  - intros tr1 o r tr2 Heq. by destruct tr1.
  - done.
Qed.
Lemma query_bench_ok tag items depth fuel : 0 < cap → (∀ v b, (v, b) ∈ items → of_type c T v) → N.of_nat (length items) < 2 ^ 32 →
  (∃ v, (v, true) ∈ items) → none_skipped snd depth items → (length items < fuel)%nat →
  ∃ s0 s bv it l it' oit l' oit', store_with_capacity (c_mode c) cap = POk s0 ∧ bench_fill c tag items s0 = ROk s tt ∧
    filter_tag c s tag = POk bv ∧ component_query c (Access T []) s = POk it ∧ yields (filtering depth s bv) it l it' ∧
    ordered_query fuel c (Access T []) s tag = Some (POk oit) ∧ yields (oiter_next_with (ec_ver (st_ec s))) oit l' oit' ∧
    seen s <$> l.*2 = bytes <$> (List.filter snd items).*1 ∧ seen s <$> l'.*2 = bytes <$> (List.filter snd items).*1.
Proof using Hc HT HTne Hfit Hgrow.
  intros Hcap Hok Hlen [v Hv] Hskip Hfuel.
  assert (∃ s0, store_with_capacity (c_mode c) cap = POk s0) as [s0 Hs0].
  { unfold store_with_capacity. rewrite (proj2 (N.ltb_lt _ _) Hcap). destruct (c_mode c); by eexists. }
  assert (binv tag [] s0 []) as Hb0.
  { split; try done; [by apply cst_nil|by intros e v' b ?%elem_of_nil|by intros e ?%elem_of_nil| |].
    - intros e. split; [|by intros ?%elem_of_nil]. intros (tr1 & x & tr2 & E & _). by destruct tr1.
    - intros tr1 o r tr2 t e Heq. by destruct tr1. }
  destruct (bench_fill_ok tag items [] s0 [] Hb0 Hok) as (tr & s & es & Hfill & Hes & Hb); [done|]. simpl in Hb.
  assert ((sel es).*2 = List.filter snd items) as Hsel by by rewrite sel_all, Hes.
  destruct (bench_tags tag tr s es depth Hb) as (bv & it & l & it' & Hbv & Hit & Hy & _ & Hl); [|by rewrite Hes|].
  { intros E. rewrite E in Hsel. symmetry in Hsel. assert ((v, true) ∈ List.filter snd items) as Hin; [|rewrite Hsel in Hin; by apply elem_of_nil in Hin].
    apply elem_of_list_In, filter_In. split; [by apply elem_of_list_In|done]. }
  destruct (bench_order tag tr s es fuel Hb) as (oit & l' & oit' & Hoit & Hoy & Hl').
  { eapply Nat.le_lt_trans; [|exact Hfuel]. rewrite <- (fmap_length snd (sel es)), Hsel. clear. induction items as [|[? []] items IH]; simpl; lia. }
  exists s0, s, bv, it, l, it', oit, l', oit'. split_and!; try done.
  - by rewrite <- !list_fmap_compose, <- Hsel.
  - by rewrite <- !list_fmap_compose, <- Hsel.
Qed.

(** ** cache_test.rs *)
Record kinv (tr : trace) (s : store) (es : list (entity * list (tid * list N))) : Prop := Kinv {
  ki_cst : cst tr s;
  ki_issued : issued tr = es.*1;
  ki_comps : ∀ e v, (e, v) ∈ es → has_values tr e v;
  ki_types : ∀ e S, types tr e = Some S → S = S0;
  ki_entries : entries tr = (λ x, (x.1, S0)) <$> es;
}.
Lemma cache_arch : ∃ a, cache_archetype c T = POk a ∧ arch_wf d a ∧ list_to_set (arch_ids a) = S0 ∧ fits d a.
Proof using HT HTne Hfit Hgrow.
  unfold cache_archetype. rewrite bld_build_eq. destruct (bld_include_spec bld_new (ctype_of c <$> T)) as (H1 & H2 & H3); [constructor|].
  set (b := bld_include bld_new (ctype_of c <$> T)) in *. assert (∀ t, t ∈ arch_ids b ↔ t ∈ T) as Hb.
  { intros t. rewrite H2, ctype_of_ids. split; [by intros [?%elem_of_nil|?]|by right]. }
  rewrite bool_decide_false. 2: { intros E. destruct T as [|t T']; [done|]. specialize (Hb t). rewrite E in Hb. apply (elem_of_nil t), Hb. by left. }
  exists (sort_cts b). assert (arch_wf d (sort_cts b)) as Hwf.
  { apply arch_wf_intro; [done| |].
    - intros E. destruct T as [|t T']; [done|]. specialize (Hb t). rewrite E in Hb. apply (elem_of_nil t), Hb. by left.
    - intros x [?%elem_of_nil|(t & -> & _)%elem_of_list_fmap]%H3; done. }
  split_and!; [done..| |].
  - apply set_eq. intros t. by rewrite !elem_of_list_to_set, sort_cts_ids.
  - apply Hfit; [done|]. intros t. by rewrite sort_cts_ids, Hb, elem_of_list_to_set.
Qed.
Lemma cache_step tr s es a v : kinv tr s es → of_type c T v → N.of_nat (length es) < 2 ^ 32 - 1 → arch_wf d a → list_to_set (arch_ids a) = S0 → fits d a →
  ∃ tr' s1 s' e refs, create_entity_with_archetype c a s = ROk s1 e ∧ get_components_refs c s1 e v.*1 = POk (Some refs) ∧
    s' = st_set_ac (ac_set_pages (assign_to_refs (ac_pages (st_ac s1)) refs v.*2) (st_ac s1)) s1 ∧ kinv tr' s' (es ++ [(e, v)]).
Proof using Hc HT HTne Hfit Hgrow.
  intros [Hs Hiss Hco Hty Hent] [HvT Hvok] Hlen Hwf Hids Hfits.
  destruct (cst_step _ _ (OCreateWith a) Hs) as (s1 & r1 & H1 & Hs1); [|done| |].
  { split_and!; [done..| |]; [by intros e ?%elem_of_nil|]. simpl. by rewrite Hiss, fmap_length. }
  { intros e S r Ht. simpl. case_decide; [intros [= <-]; by right|]. intros E. rewrite E in Ht. destruct Ht as [?|[[= ->]|[= ->]]]; [done|by left|by right]. }
  simpl in H1. apply bind_ok in H1 as (s1' & e & Hcr & [-> ->]%ret_ok).
  pose proof (cst_nodup _ _ Hs1) as Hnd. rewrite issued_snoc in Hnd. apply NoDup_app in Hnd as (_ & Hnew & _).
  assert (e ∉ issued tr) as He. { intros He. apply (Hnew e He). by left. }
  assert (types (tr ++ [(OCreateWith a, Some e)]) e = Some S0) as Ht1. { rewrite types_snoc. simpl. rewrite decide_True by done. by rewrite Hids. }
  assert (∀ e', e' ≠ e → types (tr ++ [(OCreateWith a, Some e)]) e' = types tr e') as Ht1'. { intros e' He'. rewrite types_snoc. simpl. by rewrite decide_False by congruence. }
  assert (∃ refs, get_components_refs c s1' e v.*1 = POk (Some refs)) as [refs Hrefs].
  { pose proof (cst_drun _ _ Hs1) as Hd. assert (e ∈ issued (tr ++ [(OCreateWith a, Some e)])) as Hei. { rewrite issued_snoc. apply elem_of_app. right. by left. }
    destruct (drun_values _ _ _ _ _ Hc Hd Hei) as (x & Hx & (_ & Ho & _) & _). apply comps_types in Hx. rewrite Ht1 in Hx. destruct x as [m|]; [|done]. simpl in Hx. injection Hx as Hx.
    specialize (Ho v.*1). rewrite HvT in Ho. specialize (Ho HTne). unfold read_components in Ho. rewrite HvT. destruct (get_components_refs c s1' e T) as [[refs|]| |]; [by eexists| |done..].
    simpl in Ho. unfold has_all in Ho. assert (forallb (λ t, bool_decide (is_Some (m !! t))) T = true) as E; [|by rewrite E in Ho].
    apply forallb_forall. intros t Hin%elem_of_list_In. apply bool_decide_eq_true, elem_of_dom. rewrite Hx. by apply elem_of_list_to_set. }
  destruct (cst_step _ _ (OSet e v) Hs1) as (s2 & r2 & H2 & Hs2); [|done| |].
  { split_and!; [split_and!; [intros ->; by destruct HTne|by rewrite HvT|done]|done|done| |done].
    intros e' He'. apply elem_of_list_singleton in He' as ->. rewrite issued_snoc. apply elem_of_app. right. by left. }
  { intros e' S r Ht. simpl. intros E. rewrite E in Ht. destruct Ht as [?|[[= ->]|[= ->]]]; [done|by left|by right]. }
  simpl in H2. apply no_out_ok in H2 as [Hset ->].
  assert (s2 = st_set_ac (ac_set_pages (assign_to_refs (ac_pages (st_ac s1')) refs v.*2) (st_ac s1')) s1') as Hs2'.
  { unfold set_components in Hset. apply bind_ok in Hset as (s3 & s4 & [-> ->]%get_ok & Hset). apply bind_ok in Hset as (s3 & x & Hx & Hset). rewrite Hrefs in Hx. apply lift_ok in Hx as [Hx ->]; injection Hx as <-. by apply put_ok in Hset. }
  exists ((tr ++ [(OCreateWith a, Some e)]) ++ [(OSet e v, None)]), s1', s2, e, refs. split_and!; [done..|].
  split.
  - done.
  - rewrite !issued_snoc, app_nil_r, Hiss, fmap_app. done.
  - intros e' v'. rewrite elem_of_app, elem_of_list_singleton. intros [Hin|[= -> ->]].
    + assert (e' ≠ e) as Hne. { intros ->. apply He. rewrite Hiss. apply elem_of_list_fmap. by eexists (_, _). }
      intros y (x1 & (x0 & Hx0 & H0)%comps_snoc_inv & Hy)%comps_snoc_inv. simpl in H0, Hy. rewrite decide_False in H0 by congruence. rewrite decide_False in Hy by congruence. subst. by eapply Hco.
    + intros y (x1 & (x0 & Hx0 & H0)%comps_snoc_inv & Hy)%comps_snoc_inv. simpl in H0, Hy. rewrite decide_True in H0 by done. rewrite decide_True in Hy by done. destruct H0 as (m & -> & Hm). subst y. simpl.
      assert (has_all m v.*1 = true) as ->. { unfold has_all. apply forallb_forall. intros t Hin%elem_of_list_In. apply bool_decide_eq_true, Hm. rewrite <- (elem_of_list_to_set (C:=gset tid)), Hids, elem_of_list_to_set. by rewrite HvT in Hin. }
      eexists. split; [done|]. rewrite <- HvT. apply put_values. by rewrite HvT.
  - intros e' S. rewrite types_snoc. simpl. destruct (decide (e' = e)) as [->|Hne]; [rewrite Ht1; by intros [= <-]|]. rewrite Ht1' by done. apply Hty.
  - rewrite !entries_snoc. simpl. rewrite Hids, app_nil_r, Hent, fmap_app. done.
Qed.
Lemma cache_fill_ok a data : arch_wf d a → list_to_set (arch_ids a) = S0 → fits d a → ∀ tr s es, kinv tr s es → (∀ v, v ∈ data → of_type c T v) → N.of_nat (length es + length data) < 2 ^ 32 →
  ∃ tr' s' es', cache_fill_with c a data s = ROk s' tt ∧ es'.*2 = data ∧ kinv tr' s' (es ++ es').
Proof using Hc HT HTne Hfit Hgrow.
  intros Hwf Hids Hfits. induction data as [|v data IH]; intros tr s es Hb Hok Hlen.
  - exists tr, s, []. by rewrite app_nil_r.
  - simpl in Hlen. destruct (cache_step _ _ _ a v Hb) as (tr1 & s1 & s2 & e & refs & H1 & H2 & Hs2 & Hb2); [eapply Hok; by left|lia|done..|].
    destruct (IH tr1 s2 (es ++ [(e, v)]) Hb2) as (tr' & s' & es' & H & He & Hb'); [intros; eapply Hok; by right|rewrite app_length; simpl; lia|].
    exists tr', s', ((e, v) :: es'). split_and!.
    + cbn [cache_fill_with]. apply bind_ok. exists s1, e. split; [done|]. apply bind_ok. exists s1, s1. split; [done|]. apply bind_ok. exists s1, (Some refs). split; [by rewrite H2|].
      apply bind_ok. exists s2, tt. split; [by rewrite Hs2|done].
    + by rewrite fmap_cons, He.
    + by rewrite <- app_assoc in Hb'.
Qed.
Lemma cache_test_ok data : 0 < cap → (∀ v, v ∈ data → of_type c T v) → N.of_nat (length data) < 2 ^ 32 →
  ∃ s0 s it l it1 it2, store_with_capacity (c_mode c) cap = POk s0 ∧ cache_fill c T data s0 = ROk s tt ∧
    component_query c (Access T []) s = POk it ∧ yields (qiter_next_with (ec_ver (st_ec s))) it l it1 ∧ yields qiter_next it l.*2 it2 ∧
    NoDup l.*1 ∧ seen s <$> l.*2 = bytes <$> data.
Proof using Hc HT HTne Hfit Hgrow.
  intros Hcap Hok Hlen.
  assert (∃ s0, store_with_capacity (c_mode c) cap = POk s0) as [s0 Hs0].
  { unfold store_with_capacity. rewrite (proj2 (N.ltb_lt _ _) Hcap). destruct (c_mode c); by eexists. }
  assert (kinv [] s0 []) as Hb0.
  { split; try done; [by apply cst_nil|by intros e v' ?%elem_of_nil]. }
  destruct cache_arch as (a & Ha & Hwf & Hids & Hfits).
  destruct (cache_fill_ok a data Hwf Hids Hfits [] s0 [] Hb0 Hok) as (tr & s & es & Hfill & Hes & Hb); [done|]. simpl in Hb.
  pose proof (cst_drun _ _ (ki_cst _ _ _ Hb)) as Hd. set (q := Access T []).
  assert (q_types q = T) as Hqt by (unfold q_types; simpl; by rewrite app_nil_r).
  destruct (both_component_query c Hc cap tr s q Hd) as (it & l & it1 & it2 & Hit & Hy & Hy2 & _ & Hndl & _); [by rewrite Hqt..|].
  destruct (both_visits c cap tr s q Hc Hd (cst_set _ _ (ki_cst _ _ _ Hb))) as (it' & l' & it1' & Hit' & Hy' & Hl & Hv); [by rewrite Hqt..|].
  assert (it' = it) as -> by congruence. destruct (yields_fun _ _ _ _ _ _ Hy Hy') as [<- _]. rewrite Hqt in *.
  rewrite (ki_entries _ _ _ Hb), in_order_same in Hl by by intros x (y & -> & _)%elem_of_list_fmap.
  assert (l.*1 = es.*1) as Hles. { rewrite Hl, <- list_fmap_compose. done. }
  exists s0, s, it, l, it1, it2. split_and!; try done.
  - unfold cache_fill. apply bind_ok. exists s0, a. split; [by rewrite Ha|done].
  - rewrite <- Hes. apply list_eq. intros i. rewrite !list_lookup_fmap. assert (l.*1 !! i = es.*1 !! i) as Heq by by rewrite Hles. rewrite !list_lookup_fmap in Heq.
    destruct (l !! i) as [[e rs]|] eqn:Hi, (es !! i) as [[e' v]|] eqn:Hi'; try done. injection Heq as <-. simpl. f_equal.
    apply elem_of_list_lookup_2 in Hi, Hi'. destruct (Hv _ _ Hi) as (m & Hm & Hval).
    assert (e ∈ issued tr) as Hei. { rewrite (ki_issued _ _ _ Hb). apply elem_of_list_fmap. by eexists (_, _). }
    destruct (drun_values _ _ _ _ _ Hc Hd Hei) as (x & Hx & Ho & _). destruct (ki_comps _ _ _ Hb _ _ Hi' _ Hx) as (m' & -> & Hm').
    pose proof (observed_inj _ _ _ _ _ Hm Ho) as [= <-]. by rewrite <- Hm'.
Qed.
End client.
