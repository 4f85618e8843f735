(** AlikeP.v — queries see no more than what reading the components tells. *)
From Verif.Spec Require Export Alike.
From Verif.Proofs Require Import UnwindQ UnwindB LawsC.
From Verif.Proofs Require Export DiscQ QueryX SwapP TakeBackP OverrideP.
Local Open Scope N_scope.

Lemma qualifies_read c s q e x : q_types q ≠ [] → observed c s e x →
  qualifies c s q e ↔ ∃ vs, read_components c s e (q_types q) = POk (Some vs).
Proof.
  intros Hne Ho. split.
  - intros (m & (_ & Hm & _) & Hall). rewrite (Hm _ Hne). simpl. unfold has_all. rewrite (proj2 (forallb_forall _ _)); [by eauto|].
    intros t Ht. apply bool_decide_eq_true. apply Hall. by apply elem_of_list_In.
  - intros [vs Hv]. pose proof Ho as (_ & Hr & _). rewrite (Hr _ Hne) in Hv. injection Hv as Hv. destruct x as [m|]; [|done]. exists m. split; [done|].
    simpl in Hv. destruct (has_all m (q_types q)) eqn:E; [|done]. intros t Ht. unfold has_all in E. eapply forallb_forall in E; [by apply bool_decide_eq_true in E|]. by apply elem_of_list_In.
Qed.
Lemma refs_read c s e T rs : get_components_refs c s e T = POk (Some rs) → read_components c s e T = POk (Some (read_ref (ac_pages (st_ac s)) <$> rs)).
Proof. intros H. unfold read_components. by rewrite H. Qed.
Lemma view_in s l e vs : (e, vs) ∈ viewed s l ↔ ∃ rs, (e, rs) ∈ l ∧ vs = read_ref (ac_pages (st_ac s)) <$> rs.
Proof.
  unfold viewed. rewrite elem_of_list_fmap. split.
  - intros ([e' rs] & [= -> ->] & H). by exists rs.
  - intros (rs & H & ->). by exists (e, rs).
Qed.
Lemma view_keys s l : (viewed s l).*1 = l.*1.
Proof. unfold viewed. rewrite <- list_fmap_compose. by apply list_fmap_ext. Qed.
(** Items that are determined by their entities. *)
Lemma views_perm s l s' l' : NoDup l.*1 → NoDup l'.*1 → (∀ e, e ∈ l.*1 ↔ e ∈ l'.*1) →
  (∀ e rs rs', (e, rs) ∈ l → (e, rs') ∈ l' → read_ref (ac_pages (st_ac s)) <$> rs = read_ref (ac_pages (st_ac s')) <$> rs') →
  viewed s l ≡ₚ viewed s' l'.
Proof.
  intros Hn Hn' He Hv. apply NoDup_Permutation.
  - apply (NoDup_fmap_1 fst). change (NoDup (viewed s l).*1). by rewrite view_keys.
  - apply (NoDup_fmap_1 fst). change (NoDup (viewed s' l').*1). by rewrite view_keys.
  - intros [e vs]. rewrite !view_in. split.
    + intros (rs & H & ->). assert (e ∈ l'.*1) as H'. { apply He. by apply (elem_of_list_fmap_1 fst _ (e, rs)). }
      apply elem_of_list_fmap in H' as ([e' rs'] & -> & H'). exists rs'. split; [done|by eapply Hv].
    + intros (rs' & H' & ->). assert (e ∈ l.*1) as H. { apply He. by apply (elem_of_list_fmap_1 fst _ (e, rs')). }
      apply elem_of_list_fmap in H as ([e' rs] & -> & H). exists rs. split; [done|]. symmetry. by eapply Hv.
Qed.
Lemma views_eq s l s' l' : l.*1 = l'.*1 →
  (∀ e rs rs', (e, rs) ∈ l → (e, rs') ∈ l' → read_ref (ac_pages (st_ac s)) <$> rs = read_ref (ac_pages (st_ac s')) <$> rs') →
  viewed s l = viewed s' l'.
Proof.
  revert l'. induction l as [|[e rs] l IH]; intros [|[e' rs'] l'] He Hv; try done. injection He as -> He. unfold viewed. simpl. f_equal.
  - f_equal. apply (Hv e'); by left.
  - apply IH; [done|]. intros e rs0 rs1 H H'. apply (Hv e); by right.
Qed.
Lemma filter_ext_on {A} (f f' : A → bool) l : (∀ x, x ∈ l → f x = true ↔ f' x = true) → List.filter f l = List.filter f' l.
Proof.
  induction l as [|x l IH]; intros H; [done|]. simpl. rewrite IH by (intros y Hy; apply H; by right).
  assert (f x = f' x) as ->; [|done]. apply Bool.eq_iff_eq_true, H. by left.
Qed.

Lemma filter_keys_nodup {A B} (f : A * B → bool) (l : list (A * B)) : NoDup l.*1 → NoDup (List.filter f l).*1.
Proof.
  induction l as [|x l IH]; simpl; [done|]. intros [H1 H2]%NoDup_cons. destruct (f x); simpl; [|by apply IH]. apply NoDup_cons. split; [|by apply IH].
  intros (y & Hxy & Hy)%elem_of_list_fmap. apply H1. rewrite Hxy. apply elem_of_list_In, filter_In in Hy as [Hy%elem_of_list_In _]. by apply (elem_of_list_fmap_1 fst).
Qed.
Lemma tagged_keys {B} c s t (l : list (entity * B)) e : e ∈ (List.filter (item_tagged c s t) l).*1 ↔ e ∈ l.*1 ∧ has_tag c s t e = POk true.
Proof.
  rewrite !elem_of_list_fmap. split.
  - intros (x & -> & [Hx Ht]%elem_of_list_In%filter_In). split; [exists x; split; [done|by apply elem_of_list_In]|].
    unfold item_tagged in Ht. destruct (has_tag c s t x.1) as [[]| |]; done.
  - intros [(x & -> & Hx) Ht]. exists x. split; [done|]. apply elem_of_list_In, filter_In. split; [by apply elem_of_list_In|]. unfold item_tagged. by rewrite Ht.
Qed.

(** What is known of each side: the components of the entities issued, and the items. *)
Definition known_values (c : cfg) (tr : trace) (s : store) : Prop :=
  ∀ e, e ∈ issued tr → ∃ x, observed c s e x ∧ (is_Some x ↔ alive_in tr e).
Lemma known_alive c tr s q e : known_values c tr s → e ∈ issued tr → qualifies c s q e → alive_in tr e.
Proof.
  intros Hk Hi Hq. destruct (Hk e Hi) as (x & Ho & Hx). apply Hx. destruct Hq as (m & (Ha & _) & _). destruct Ho as [Ha' _].
  rewrite Ha in Ha'. injection Ha' as Ha'. symmetry in Ha'. by apply bool_decide_eq_true in Ha'.
Qed.
Section sides.
Context (c : cfg) (tr : trace) (s : store) (c' : cfg) (tr' : trace) (s' : store) (q : access) (Hne : q_types q ≠ []).
Context (Hk : known_values c tr s) (Hk' : known_values c' tr' s') (Ha : reads_alike c tr s c' tr' s' (q_types q)).
Lemma qualifies_alike e : e ∈ issued tr → e ∈ issued tr' → qualifies c s q e ↔ qualifies c' s' q e.
Proof using All.
  intros Hi Hi'. destruct (Hk e Hi) as (x & Ho & _), (Hk' e Hi') as (x' & Ho' & _). split; intros Hq.
  - pose proof (known_alive _ _ _ _ _ Hk Hi Hq) as Hal. apply (qualifies_read _ _ _ _ _ Hne Ho) in Hq as [vs Hv]. apply (qualifies_read _ _ _ _ _ Hne Ho').
    exists vs. by rewrite <- (proj2 (Ha e) Hal).
  - pose proof (proj2 (proj1 (Ha e)) (known_alive _ _ _ _ _ Hk' Hi' Hq)) as Hal. apply (qualifies_read _ _ _ _ _ Hne Ho') in Hq as [vs Hv].
    apply (qualifies_read _ _ _ _ _ Hne Ho). exists vs. by rewrite (proj2 (Ha e) Hal).
Qed.
Lemma issued_alike e : e ∈ issued tr ∧ qualifies c s q e ↔ e ∈ issued tr' ∧ qualifies c' s' q e.
Proof using All.
  split; intros [Hi Hq].
  - assert (e ∈ issued tr') as Hi'. { apply alive_is_issued, (Ha e). by eapply known_alive. }
    split; [done|]. by apply (qualifies_alike e Hi Hi').
  - assert (e ∈ issued tr) as Hi'. { apply alive_is_issued, (Ha e). by eapply known_alive. }
    split; [done|]. by apply (qualifies_alike e Hi' Hi).
Qed.
Lemma refs_alike e rs rs' : e ∈ issued tr → get_components_refs c s e (q_types q) = POk (Some rs) → get_components_refs c' s' e (q_types q) = POk (Some rs') →
  read_ref (ac_pages (st_ac s)) <$> rs = read_ref (ac_pages (st_ac s')) <$> rs'.
Proof using All.
  intros Hi H H'. apply refs_read in H, H'. destruct (Hk e Hi) as (x & Ho & Hx).
  assert (alive_in tr e) as Hal. { apply (known_alive c tr s q); try done. apply (qualifies_read _ _ _ _ _ Hne Ho). eauto. }
  rewrite (proj2 (Ha e) Hal), H' in H. by injection H.
Qed.
Lemma component_alike l l' : NoDup l.*1 → NoDup l'.*1 →
  (∀ e, e ∈ l.*1 ↔ e ∈ issued tr ∧ qualifies c s q e) → (∀ e, e ∈ l'.*1 ↔ e ∈ issued tr' ∧ qualifies c' s' q e) →
  (∀ e rs, (e, rs) ∈ l → get_components_refs c s e (q_types q) = POk (Some rs)) →
  (∀ e rs, (e, rs) ∈ l' → get_components_refs c' s' e (q_types q) = POk (Some rs)) → viewed s l ≡ₚ viewed s' l'.
Proof using All.
  intros Hn Hn' He He' Hr Hr'. apply views_perm; [done|done|..].
  - intros e. rewrite He, He'. apply issued_alike.
  - intros e rs rs' H H'. eapply refs_alike; [|by apply Hr|by apply Hr']. apply He. by apply (elem_of_list_fmap_1 fst _ (e, rs)).
Qed.
Lemma listed_alike l l' ents f f' : (∀ e, e ∈ ents → e ∈ issued tr) → (∀ e, e ∈ ents → e ∈ issued tr') →
  l.*1 = List.filter f ents → l'.*1 = List.filter f' ents →
  (∀ e, e ∈ ents → f e = true ↔ qualifies c s q e) → (∀ e, e ∈ ents → f' e = true ↔ qualifies c' s' q e) →
  (∀ e rs, (e, rs) ∈ l → get_components_refs c s e (q_types q) = POk (Some rs)) →
  (∀ e rs, (e, rs) ∈ l' → get_components_refs c' s' e (q_types q) = POk (Some rs)) → viewed s l = viewed s' l'.
Proof using All.
  intros Hi Hi' E E' Hf Hf' Hr Hr'. apply views_eq.
  - rewrite E, E'. apply filter_ext_on. intros e He. rewrite (Hf e He), (Hf' e He). by apply qualifies_alike; [apply Hi|apply Hi'].
  - intros e rs rs' H H'. eapply refs_alike; [|by apply Hr|by apply Hr']. apply Hi.
    assert (e ∈ l.*1) as Hl by by apply (elem_of_list_fmap_1 fst _ (e, rs)). rewrite E in Hl. by apply elem_of_list_In, filter_In in Hl as [Hl%elem_of_list_In _].
Qed.
End sides.
Lemma drun_known c cap tr s : cfg_ok c → drun (healthy c) c cap tr s → known_values c tr s.
Proof. intros Hc Hr e He. destruct (drun_values c cap tr s e Hc Hr He) as (x & _ & Ho & Hx). by exists x. Qed.
Lemma crun_known c cap tr s : cfg_ok c → crun c cap tr s → known_values c (answered tr) s.
Proof. intros Hc Hr e He. destruct (both_values c Hc cap tr s e Hr He) as (x & _ & Ho & Hx). by exists x. Qed.

(** ** Histories without panics *)
Section runs.
Context (c c' : cfg) (Hc : cfg_ok c) (Hc' : cfg_ok c') (cap cap' : N) (tr tr' : trace) (s s' : store).
Context (Hr : drun (healthy c) c cap tr s) (Hr' : drun (healthy c') c' cap' tr' s').
Let Hk := drun_known _ _ _ _ Hc Hr.
Let Hk' := drun_known _ _ _ _ Hc' Hr'.
Lemma alike_component q : NoDup (q_types q) → q_types q ≠ [] → reads_alike c tr s c' tr' s' (q_types q) →
  visited_alike c s c' s' q.
Proof using All.
  intros Hn Hne Ha. destruct (both_component_query c Hc _ _ _ q Hr Hn Hne) as (it & l & it1 & _ & H1 & H2 & _ & H3 & H4 & _ & H5 & H6).
  destruct (both_component_query c' Hc' _ _ _ q Hr' Hn Hne) as (it' & l' & it1' & _ & H1' & H2' & _ & H3' & H4' & _ & H5' & H6').
  assert (viewed s l ≡ₚ viewed s' l') as Hv.
  { apply (component_alike c tr s c' tr' s' q); try done.
    - intros e. rewrite H5. split; [|by intros [_ ?]]. intros Hq. split; [exact (qualifies_issued c Hc _ _ _ _ _ Hr Hq)|done].
    - intros e. rewrite H5'. split; [|by intros [_ ?]]. intros Hq. split; [exact (qualifies_issued c' Hc' _ _ _ _ _ Hr' Hq)|done].
    - intros e rs H. by apply H6.
    - intros e rs H. by apply H6'. }
  exists it, l, it1, it', l', it1'. split_and!; try done. rewrite H3, H3'. apply Permutation_length in Hv. unfold viewed in Hv. by rewrite !fmap_length in Hv.
Qed.
Lemma alike_entity q ents : NoDup (q_types q) → q_types q ≠ [] → reads_alike c tr s c' tr' s' (q_types q) →
  (∀ e, e ∈ ents → e ∈ issued tr ∧ e ∈ issued tr') →
  (∀ i e e', ents !! i = Some e → ents !! S i = Some e' → qualifies c s q e → had_components tr e' ∧ had_components tr' e') →
  looked_up_alike c s c' s' q ents.
Proof using All.
  intros Hn Hne Ha Hi Hh.
  destruct (both_entity_query c Hc _ _ _ q ents Hr Hn Hne) as (it & l & it1 & f & H1 & H2 & _ & H3 & H4 & H5).
  { intros e He. by apply Hi. }
  { intros i e e' E E' Hq. by destruct (Hh i e e' E E' Hq). }
  destruct (both_entity_query c' Hc' _ _ _ q ents Hr' Hn Hne) as (it' & l' & it1' & f' & H1' & H2' & _ & H3' & H4' & H5').
  { intros e He. by apply Hi. }
  { intros i e e' E E' Hq. apply (Hh i e e' E E'). destruct (Hi e) as [Hi1 Hi2]; [by eapply elem_of_list_lookup_2|].
    by apply (qualifies_alike c tr s c' tr' s' q). }
  exists it, l, it1, it', l', it1'. split_and!; try done.
  apply (listed_alike c tr s c' tr' s' q Hne Hk Hk' Ha l l' ents f f'); try done; intros e He; first [exact (proj1 (Hi e He))|exact (proj2 (Hi e He))|exact (H4 e)|exact (H4' e)].
Qed.
Lemma alike_ordered q g fuel : NoDup (q_types q) → q_types q ≠ [] → reads_alike c tr s c' tr' s' (q_types q) →
  members tr g = members tr' g → (∀ e, e ∈ members tr g → had_components tr e ∧ had_components tr' e) → (length (members tr g) < fuel)%nat →
  ordered_alike c s c' s' q g fuel.
Proof using All.
  intros Hn Hne Ha Hm Hh Hf.
  destruct (both_ordered_query c Hc _ _ _ q g fuel Hr Hn Hne) as (it & l & it1 & f & H1 & H2 & H0 & H3 & H4 & H5); [intros e He; by apply Hh|done|].
  destruct (both_ordered_query c' Hc' _ _ _ q g fuel Hr' Hn Hne) as (it' & l' & it1' & f' & H1' & H2' & H0' & H3' & H4' & H5').
  { rewrite <- Hm. intros e He. by apply Hh. } { by rewrite <- Hm. }
  rewrite <- Hm in H3'.
  assert (viewed s l = viewed s' l') as Hv.
  { apply (listed_alike c tr s c' tr' s' q Hne Hk Hk' Ha l l' (members tr g) f f'); try done; intros e He; try first [exact (H4 e)|exact (H4' e)].
    - apply had_issued. by apply Hh.
    - apply had_issued. by apply Hh. }
  exists it, l, it1, it', l', it1'. split_and!; try done. rewrite H0, H0'. apply (f_equal length) in Hv. unfold viewed in Hv. by rewrite !fmap_length in Hv.
Qed.
Lemma alike_filter q t : NoDup (q_types q) → q_types q ≠ [] → reads_alike c tr s c' tr' s' (q_types q) →
  (∀ e, alive_in tr e → has_tag c s t e = has_tag c' s' t e) → (∃ e r, (OTagAdd t e, r) ∈ tr) → (∃ e r, (OTagAdd t e, r) ∈ tr') →
  ∃ bv it l it1 bv' it' l' it1', filter_tag c s t = POk bv ∧ component_query c q s = POk it ∧
    filter_tag c' s' t = POk bv' ∧ component_query c' q s' = POk it' ∧
    (∀ depth, none_skipped (item_tagged c s t) depth l → yields (filtering depth s bv) it (List.filter (item_tagged c s t) l) it1) ∧
    (∀ depth, none_skipped (item_tagged c' s' t) depth l' → yields (filtering depth s' bv') it' (List.filter (item_tagged c' s' t) l') it1') ∧
    viewed s (List.filter (item_tagged c s t) l) ≡ₚ viewed s' (List.filter (item_tagged c' s' t) l').
Proof using All.
  intros Hn Hne Ha Ht Hex Hex'.
  destruct (both_component_query c Hc _ _ _ q Hr Hn Hne) as (it & l & it1 & _ & H1 & H2 & _ & H3 & H4 & _ & H5 & H6).
  destruct (both_component_query c' Hc' _ _ _ q Hr' Hn Hne) as (it' & l' & it1' & _ & H1' & H2' & _ & H3' & H4' & _ & H5' & H6').
  destruct (both_filter_tag c Hc _ _ _ q t Hr Hn Hne Hex) as (bv & it0 & l0 & it10 & F1 & F2 & F3 & F4). rewrite H1 in F2. injection F2 as <-.
  destruct (both_filter_tag c' Hc' _ _ _ q t Hr' Hn Hne Hex') as (bv' & it0' & l0' & it10' & F1' & F2' & F3' & F4'). rewrite H1' in F2'. injection F2' as <-.
  destruct (yields_fun _ _ _ _ _ _ H2 F3) as [<- <-], (yields_fun _ _ _ _ _ _ H2' F3') as [<- <-].
  assert (∀ e, e ∈ l.*1 ↔ e ∈ issued tr ∧ qualifies c s q e) as I1.
  { intros e. rewrite H5. split; [|by intros [_ ?]]. intros Hq. split; [exact (qualifies_issued c Hc _ _ _ _ _ Hr Hq)|done]. }
  assert (∀ e, e ∈ l'.*1 ↔ e ∈ issued tr' ∧ qualifies c' s' q e) as I2.
  { intros e. rewrite H5'. split; [|by intros [_ ?]]. intros Hq. split; [exact (qualifies_issued c' Hc' _ _ _ _ _ Hr' Hq)|done]. }
  exists bv, it, l, it1, bv', it', l', it1'. split_and!; try done. apply views_perm.
  - by apply filter_keys_nodup.
  - by apply filter_keys_nodup.
  - intros e. rewrite !tagged_keys, I1, I2, (issued_alike c tr s c' tr' s' q) by done. split; intros [HI HT]; (split; [done|]).
    + rewrite <- Ht; [done|]. apply (Ha e). destruct HI as [HI HQ]. by eapply known_alive.
    + rewrite Ht; [done|]. apply (Ha e). destruct HI as [HI HQ]. by eapply known_alive.
  - intros e rs rs' [HI _]%elem_of_list_In%filter_In [HI' _]%elem_of_list_In%filter_In. apply elem_of_list_In in HI, HI'.
    eapply (refs_alike c tr s c' tr' s' q); try done; [|by apply H6|by apply H6']. apply I1. by apply (elem_of_list_fmap_1 fst _ (e, rs)).
Qed.
End runs.

(** ** Histories with caught panics *)
Section caught.
Context (c c' : cfg) (Hc : cfg_ok c) (Hc' : cfg_ok c') (cap cap' : N) (tr tr' : list (op * outcome)) (s s' : store).
Context (Hr : crun c cap tr s) (Hr' : crun c' cap' tr' s').
Notation T1 := (answered tr).
Notation T2 := (answered tr').
Let Hk := crun_known _ _ _ _ Hc Hr.
Let Hk' := crun_known _ _ _ _ Hc' Hr'.
Lemma caught_component q : NoDup (q_types q) → q_types q ≠ [] → reads_alike c T1 s c' T2 s' (q_types q) →
  visited_alike c s c' s' q.
Proof using All.
  intros Hn Hne Ha. destruct (both_query c Hc _ _ _ q Hr Hn Hne) as (it & l & it1 & _ & H1 & H2 & _ & H3 & H4 & _ & H5 & H6).
  destruct (both_query c' Hc' _ _ _ q Hr' Hn Hne) as (it' & l' & it1' & _ & H1' & H2' & _ & H3' & H4' & _ & H5' & H6').
  assert (viewed s l ≡ₚ viewed s' l') as Hv.
  { apply (component_alike c T1 s c' T2 s' q); try done.
    - intros e rs H. by apply H6.
    - intros e rs H. by apply H6'. }
  exists it, l, it1, it', l', it1'. split_and!; try done. rewrite H3, H3'. apply Permutation_length in Hv. unfold viewed in Hv. by rewrite !fmap_length in Hv.
Qed.
Lemma caught_entity q ents : NoDup (q_types q) → q_types q ≠ [] → reads_alike c T1 s c' T2 s' (q_types q) →
  (∀ e, e ∈ ents → e ∈ issued T1 ∧ e ∈ issued T2) →
  (∀ i e e', ents !! i = Some e → ents !! S i = Some e' → qualifies c s q e → had_components T1 e' ∧ had_components T2 e') →
  looked_up_alike c s c' s' q ents.
Proof using All.
  intros Hn Hne Ha Hi Hh.
  destruct (both_caught_entity_query c Hc _ _ _ q ents Hr Hn Hne) as (it & l & it1 & f & H1 & H2 & _ & H3 & H4 & H5).
  { intros e He. by apply Hi. }
  { intros i e e' E E' Hq. by destruct (Hh i e e' E E' Hq). }
  destruct (both_caught_entity_query c' Hc' _ _ _ q ents Hr' Hn Hne) as (it' & l' & it1' & f' & H1' & H2' & _ & H3' & H4' & H5').
  { intros e He. by apply Hi. }
  { intros i e e' E E' Hq. apply (Hh i e e' E E'). destruct (Hi e) as [Hi1 Hi2]; [by eapply elem_of_list_lookup_2|].
    by apply (qualifies_alike c T1 s c' T2 s' q). }
  exists it, l, it1, it', l', it1'. split_and!; try done.
  apply (listed_alike c T1 s c' T2 s' q Hne Hk Hk' Ha l l' ents f f'); try done; intros e He; first [exact (proj1 (Hi e He))|exact (proj2 (Hi e He))].
Qed.
Lemma caught_ordered q g fuel : NoDup (q_types q) → q_types q ≠ [] → reads_alike c T1 s c' T2 s' (q_types q) →
  members T1 g = members T2 g → (∀ e, e ∈ members T1 g → had_components T1 e ∧ had_components T2 e) → (length (members T1 g) < fuel)%nat →
  ordered_alike c s c' s' q g fuel.
Proof using All.
  intros Hn Hne Ha Hm Hh Hf.
  destruct (both_caught_ordered_query c Hc _ _ _ q g fuel Hr Hn Hne) as (it & l & it1 & f & H1 & H2 & H0 & H3 & H4 & H5); [intros e He; by apply Hh|done|].
  destruct (both_caught_ordered_query c' Hc' _ _ _ q g fuel Hr' Hn Hne) as (it' & l' & it1' & f' & H1' & H2' & H0' & H3' & H4' & H5').
  { rewrite <- Hm. intros e He. by apply Hh. } { by rewrite <- Hm. }
  rewrite <- Hm in H3', H4'.
  assert (viewed s l = viewed s' l') as Hv.
  { apply (listed_alike c T1 s c' T2 s' q Hne Hk Hk' Ha l l' (members T1 g) f f'); try done; intros e He; apply had_issued; by apply Hh. }
  exists it, l, it1, it', l', it1'. split_and!; try done. rewrite H0, H0'. apply (f_equal length) in Hv. unfold viewed in Hv. by rewrite !fmap_length in Hv.
Qed.
End caught.

(** ** The laws of calls *)
Lemma alive_undo tr x y e : undoes tr x y → answers x → answers y → (∀ e, e ∈ issued tr → x.2 ≠ Some e) → alive_in tr e ↔ alive_in (tr ++ [x; y]) e.
Proof.
  intros Hu Ax Ay Hn. destruct (decide (x.2 = Some e)) as [Hx|Hx].
  - split; [intros Ha%alive_is_issued; by apply Hn in Ha|]. intros Ha. exfalso.
    destruct x as [o r], y as [o2 r2]. rewrite app2, alive_snoc in Ha. unfold undoes in Hu. unfold answers in *. simpl in *. subst r.
    destruct (proj1 Ax ltac:(eauto)) as [->|[a ->]]; destruct o2; try done; injection Hu as ->.
    all: destruct Ha as [->|[_ Hd]]; [|done]; destruct (proj1 Ay ltac:(eauto)) as [|[? ?]]; done.
  - destruct (undo_spares tr x y e Hu Ax Ay Hx) as [S1 S2]. by rewrite app2, !alive_other.
Qed.
Lemma alive_override tr o o2 e : (∀ e, o ≠ ODestroy e) → alive_in (tr ++ [(o, None); (o2, None)]) e ↔ alive_in (tr ++ [(o2, None)]) e.
Proof. intros Hd. rewrite app2, !alive_snoc. specialize (Hd e). naive_solver. Qed.
Section laws.
Context (c : cfg) (Hc : cfg_ok c) (T : list tid) (Hne : T ≠ []).
Lemma swap_reads cap tr1 s cap' tr2 s' tr x y : crun c cap tr1 s → crun c cap' tr2 s' → answered tr1 = tr ++ [x; y] → answered tr2 = tr ++ [y; x] →
  apart x y → (∀ e t, alive_in (tr ++ [x; y]) e → t ∈ T → t ∉ untold (tr ++ [x; y]) e) → reads_alike c (answered tr1) s c (answered tr2) s' T.
Proof using Hc Hne.
  intros Hr Hr' E1 E2 Hap Hu. destruct (swap_caught c cap tr1 s cap' tr2 s' tr x y Hc Hr Hr' E1 E2 Hap) as [H _]. rewrite E1, E2.
  intros e. split; [split; apply alive_swap; [done|by apply apart_sym]|]. intros Ha. destruct (H e (alive_is_issued _ _ Ha)) as (_ & _ & HT). apply HT; [done|]. intros t. by apply Hu.
Qed.
Lemma undo_reads cap tr1 s cap' tr2 s' tr x y : crun c cap tr1 s → crun c cap' tr2 s' → answered tr1 = tr → answered tr2 = tr ++ [x; y] →
  undoes tr x y → (∀ e t, alive_in tr e → t ∈ T → t ∉ untold tr e) → reads_alike c (answered tr1) s c (answered tr2) s' T.
Proof using Hc Hne.
  intros Hr Hr' E1 E2 Hun Hu. destruct (undo_caught c cap tr1 s cap' tr2 s' tr x y Hc Hr Hr' E1 E2 Hun) as [H _].
  assert (answers x) as Ax. { eapply crun_answers; [exact Hr'|]. rewrite E2. apply elem_of_app. right. by left. }
  assert (answers y) as Ay. { eapply crun_answers; [exact Hr'|]. rewrite E2. apply elem_of_app. right. right. by left. }
  assert (∀ e, e ∈ issued tr → x.2 ≠ Some e) as Hn.
  { intros e He Hx. pose proof (crun_nodup c Hc _ _ _ Hr') as Hnd. rewrite E2 in Hnd. unfold issued in Hnd. rewrite omap_app in Hnd. simpl in Hnd. rewrite Hx in Hnd.
    apply NoDup_app in Hnd as (_ & Hnd & _). apply (Hnd e He). by left. }
  rewrite E1, E2. intros e. split; [by apply alive_undo|]. intros Ha. destruct (H e (alive_is_issued _ _ Ha)) as (_ & _ & HT). apply HT; [done|]. intros t. by apply Hu.
Qed.
Lemma override_reads cap tr1 s cap' tr2 s' tr x y : crun c cap tr1 s → crun c cap' tr2 s' → answered tr1 = tr ++ [x; y] → answered tr2 = tr ++ [y] →
  overrides x.1 y.1 → (∀ e t, alive_in (tr ++ [y]) e → t ∈ T → t ∉ untold (tr ++ [y]) e) → reads_alike c (answered tr1) s c (answered tr2) s' T.
Proof using Hc Hne.
  intros Hr Hr' E1 E2 Hov Hu. destruct (override_caught c cap tr1 s cap' tr2 s' tr x y Hc Hr Hr' E1 E2 Hov) as [H _].
  assert (answers x) as Ax. { eapply crun_answers; [exact Hr|]. rewrite E1. apply elem_of_app. right. by left. }
  assert (answers y) as Ay. { eapply crun_answers; [exact Hr|]. rewrite E1. apply elem_of_app. right. right. by left. }
  destruct x as [o r], y as [o2 r2]. simpl in Hov. destruct (override_none _ _ _ _ Hov Ax Ay) as (-> & -> & Hnd). rewrite E1, E2.
  intros e. split; [by apply alive_override|]. intros Ha. pose proof (proj1 (alive_override tr o o2 e Hnd) Ha) as Ha2.
  destruct (H e) as (_ & _ & HT). { rewrite alive_snoc in Ha2. destruct Ha2 as [?|[Ha2 _]]; [done|by apply alive_is_issued]. }
  apply HT; [done|]. intros t. by apply Hu.
Qed.
End laws.
Lemma swap_queries c cap tr1 s cap' tr2 s' tr x y q : cfg_ok c → crun c cap tr1 s → crun c cap' tr2 s' →
  answered tr1 = tr ++ [x; y] → answered tr2 = tr ++ [y; x] → apart x y → NoDup (q_types q) → q_types q ≠ [] →
  (∀ e t, alive_in (tr ++ [x; y]) e → t ∈ q_types q → t ∉ untold (tr ++ [x; y]) e) → visited_alike c s c s' q.
Proof. intros Hc Hr Hr' E1 E2 Hap Hn Hne Hu. eapply caught_component; try done. by eapply swap_reads. Qed.
Lemma undo_queries c cap tr1 s cap' tr2 s' tr x y q : cfg_ok c → crun c cap tr1 s → crun c cap' tr2 s' →
  answered tr1 = tr → answered tr2 = tr ++ [x; y] → undoes tr x y → NoDup (q_types q) → q_types q ≠ [] →
  (∀ e t, alive_in tr e → t ∈ q_types q → t ∉ untold tr e) → visited_alike c s c s' q.
Proof. intros Hc Hr Hr' E1 E2 Hap Hn Hne Hu. eapply caught_component; try done. by eapply undo_reads. Qed.
Lemma override_queries c cap tr1 s cap' tr2 s' tr x y q : cfg_ok c → crun c cap tr1 s → crun c cap' tr2 s' →
  answered tr1 = tr ++ [x; y] → answered tr2 = tr ++ [y] → overrides x.1 y.1 → NoDup (q_types q) → q_types q ≠ [] →
  (∀ e t, alive_in (tr ++ [y]) e → t ∈ q_types q → t ∉ untold (tr ++ [y]) e) → visited_alike c s c s' q.
Proof. intros Hc Hr Hr' E1 E2 Hap Hn Hne Hu. eapply caught_component; try done. by eapply override_reads. Qed.
