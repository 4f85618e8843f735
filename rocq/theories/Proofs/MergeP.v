(** MergeP.v — merged calls give stores that answer alike. *)
From Verif.Spec Require Export Merge.
From Verif.Proofs Require Export SimplifyP.
Local Open Scope N_scope.

Lemma put_app v v' (m : gmap tid (list cell)) : put (v ++ v') m = put v' (put v m).
Proof. unfold put. by rewrite foldl_app. Qed.
Lemma put_perm v v' (m : gmap tid (list cell)) : v ≡ₚ v' → NoDup v.*1 → put v m = put v' m.
Proof.
  intros Hp. revert m. induction Hp as [|[t a] l l' _ IH|[t a] [t' a'] l|l l' l'' Hp IH1 _ IH2]; intros m Hn; [done|..].
  - apply NoDup_cons in Hn as [_ Hn]. simpl. change (put l (<[t := Some <$> a]> m) = put l' (<[t := Some <$> a]> m)). by apply IH.
  - apply NoDup_cons in Hn as [Hni _]. simpl in Hni. apply not_elem_of_cons in Hni as [Hne _]. unfold put. simpl. f_equal. by apply insert_commute.
  - rewrite IH1 by done. apply IH2. by rewrite <- Hp.
Qed.
Lemma forget_app T T' (m : gmap tid (list cell)) : forget (T ++ T') m = forget T' (forget T m).
Proof. apply map_eq. intros t. rewrite !CompP.forget_lookup. pose proof (elem_of_app T T' t). repeat destruct (decide _); tauto. Qed.
Lemma merges_comps tr xs ys e m : merges tr xs ys → comps (tr ++ xs) e m → comps (tr ++ ys) e m.
Proof.
  intros Hm. destruct Hm as [e0 v v'|e0 T T'|e0 v v' Hk|e0 a v Ha|e0 v v' Hp Hn|e0 T T' Hp|e0 v v' Hp Hn]; rewrite ?app2, !comps_snoc_iff; simpl.
  - intros (x2 & (x1 & Hx & ->)%comps_snoc_iff & ->). exists x1. split; [done|]. destruct (decide _); [|done]. destruct x1; simpl; [|done]. by rewrite put_app.
  - intros (x2 & (x1 & Hx & ->)%comps_snoc_iff & ->). exists x1. split; [done|]. destruct (decide _); [|done]. destruct x1; simpl; [|done]. by rewrite forget_app.
  - intros (x2 & (x1 & Hx & ->)%comps_snoc_iff & ->). exists x1. split; [done|]. destruct (decide _) as [->|]; [|done]. destruct x1 as [m1|]; simpl; [|done]. f_equal.
    rewrite <- (comps_types _ _ _ Hx) in Hk. simpl in Hk. rewrite fmap_app in Hk |- *.
    assert (has_all m1 v.*1 = true) as E1. { rewrite has_all_dom. apply bool_decide_true. set_solver. }
    assert (has_all (put v m1) v'.*1 = true) as E2. { rewrite has_all_dom, put_dom. apply bool_decide_true. set_solver. }
    assert (has_all m1 (v.*1 ++ v'.*1) = true) as E3. { rewrite has_all_dom. apply bool_decide_true. set_solver. }
    by rewrite E1, E2, E3, put_app.
  - intros (x2 & (x1 & Hx & H1)%comps_snoc_iff & ->). simpl in H1. exists (if decide (Some e0 = Some e) then Some ∅ else x1). split; [apply comps_snoc_iff; exists x1; split; done|].
    destruct (decide (Some e0 = Some e)) as [[= ->]|Hne]; [|destruct (decide (e0 = e)); [congruence|by subst]].
    destruct H1 as (m1 & -> & Hm1). destruct (decide (e = e)); [|done]. simpl. f_equal.
    assert (has_all m1 v.*1 = true) as ->. { rewrite has_all_dom. apply bool_decide_true. intros t Ht%elem_of_list_to_set. by apply elem_of_dom, Hm1, Ha. }
    apply put_ext. intros t Ht. rewrite lookup_empty. apply eq_None_not_Some. intros Hs. by apply Ht, Ha, Hm1.
  - intros (x1 & Hx & ->). exists x1. split; [done|]. destruct (decide _); [|done]. destruct x1; simpl; [|done]. by rewrite (put_perm v v').
  - intros (x1 & Hx & ->). exists x1. split; [done|]. destruct (decide _); [|done]. destruct x1; simpl; [|done]. f_equal.
    apply map_eq. intros t. rewrite !CompP.forget_lookup. pose proof (elem_of_Permutation_proper t _ _ Hp) as Ht. destruct (decide (t ∈ T)), (decide (t ∈ T')); tauto.
  - intros (x1 & Hx & ->). exists x1. split; [done|]. destruct (decide _); [|done]. destruct x1 as [m1|]; simpl; [|done]. f_equal. rewrite (put_perm v v') by done.
    assert (has_all m1 v.*1 = has_all m1 v'.*1) as ->; [|done]. rewrite !has_all_dom. apply bool_decide_ext. setoid_rewrite elem_of_subseteq.
    split; intros H t Ht%elem_of_list_to_set; apply H, elem_of_list_to_set; [by rewrite Hp|by rewrite <- Hp].
Qed.
Lemma merges_refines tr xs ys : merges tr xs ys → refines (tr ++ xs) (tr ++ ys).
Proof.
  intros Hm. split; [intros e m; by apply merges_comps|].
  destruct Hm as [e0 v v'|e0 T T'|e0 v v' Hk|e0 a v Ha|e0 v v' Hp Hn|e0 T T' Hp|e0 v v' Hp Hn]; rewrite ?app2; (split; [intros e; rewrite !alive_snoc; naive_solver|]);
    (split; [intros g; unfold members; by rewrite !foldl_app|]); (split; [intros t e; rewrite !tagged_snoc; naive_solver|]);
    (split; [rewrite !tags_snoc; naive_solver|]); intros e; rewrite !issued_snoc, !elem_of_app; simpl; set_solver.
Qed.
Lemma merges_answers tr xs ys x : merges tr xs ys → x ∈ ys → answers x.
Proof.
  assert (∀ e : entity, answers (OCreate, Some e)) as HC. { intros e. split; [by left|eauto]. }
  assert (∀ o, o ≠ OCreate → (∀ a, o ≠ OCreateWith a) → answers (o, None)) as HN. { intros o H1 H2. split; [by intros [? ?]|]. simpl. intros [?|[a ?]]; [done|]. by destruct (H2 a). }
  intros Hm Hx. destruct Hm; repeat (apply elem_of_cons in Hx as [->|Hx]; [first [apply HC|by apply HN]|]); by apply elem_of_nil in Hx.
Qed.
Lemma reduces_answers T T' : reduces T T' → (∀ x, x ∈ T → answers x) → ∀ x, x ∈ T' → answers x.
Proof.
  induction 1 as [tr tr' Hs|tr xs ys tr2 Hm|tr tr' tr'' _ IH1 _ IH2]; intros Hans x Hx; [|..|by apply IH2; [apply IH1|]].
  - apply Hans. by eapply simpler_fewer.
  - rewrite !elem_of_app in Hx. destruct Hx as [?|[?|?]]; [|by eapply merges_answers|]; apply Hans; rewrite !elem_of_app; tauto.
Qed.
Lemma reduces_refines T T' : reduces T T' → (∀ x, x ∈ T → answers x) → refines T T'.
Proof.
  induction 1 as [tr tr' Hs|tr xs ys tr2 Hm|tr tr' tr'' H1 IH1 _ IH2]; intros Hans.
  - by apply simpler_refines.
  - rewrite !app_assoc. by apply refines_app, merges_refines.
  - eapply refines_trans; [by apply IH1|]. apply IH2. by eapply reduces_answers.
Qed.
Lemma reduces_same c cap cap' T T' s s' : cfg_ok c → drun (healthy c) c cap T s → drun (healthy c) c cap' T' s' → reduces T T' →
  (∀ e, e ∈ issued T →
    is_alive c s e = is_alive c s' e ∧
    (∃ a a', get_entity_archetype c s e = POk a ∧ get_entity_archetype c s' e = POk a' ∧ arch_ids <$> a = arch_ids <$> a') ∧
    ∀ U, U ≠ [] → (∀ t, t ∈ U → t ∉ untold T' e) → read_components c s e U = read_components c s' e U) ∧
  (∀ g, first_ordered c s g = first_ordered c s' g ∧ last_ordered c s g = last_ordered c s' g ∧
    ∀ e, alive_in T e → next_ordered c s g e = next_ordered c s' g e ∧ previous_ordered c s g e = previous_ordered c s' g e) ∧
  (tags_on_live T → ∀ t e, alive_in T e → has_tag c s t e = has_tag c s' t e).
Proof.
  intros Hc Hh Hh' Hre.
  destruct (reduces_refines _ _ Hre) as (S1 & S2 & S3 & S4 & S5 & S6). { intros x. exact (run_answers _ _ _ _ _ (drun_run _ _ _ _ _ Hh)). }
  destruct (healthy_alike c cap _ s cap' _ s' (issued T) (alive_in T) T' Hc Hh Hh') as (H1 & H2 & H3).
  - intros e He. split; [done|]. by apply S6.
  - intros e He. destruct (drun_debug _ _ _ _ Hc Hh') as [Hhr _]. by eapply hrun_full.
  - intros e m He. apply S1.
  - done.
  - intros e He. split; [done|by apply S2].
  - done.
  - intros t e _. apply S4.
  - split; [exact H1|]. split; [exact H2|]. intros Ht. apply H3; [done|by apply S5].
Qed.
Lemma reduces_caught c cap cap' tr1 tr2 s s' : cfg_ok c → crun c cap tr1 s → crun c cap' tr2 s' → reduces (answered tr1) (answered tr2) →
  let T := answered tr1 in let T' := answered tr2 in
  (∀ e, e ∈ issued T →
    is_alive c s e = is_alive c s' e ∧
    (∃ a a', get_entity_archetype c s e = POk a ∧ get_entity_archetype c s' e = POk a' ∧ arch_ids <$> a = arch_ids <$> a') ∧
    ∀ U, U ≠ [] → (∀ t, t ∈ U → t ∉ untold T' e) → read_components c s e U = read_components c s' e U) ∧
  (ec_cap (st_ec s) < 2 ^ 32 → ec_cap (st_ec s') < 2 ^ 32 →
    (∀ g, first_ordered c s g = first_ordered c s' g ∧ last_ordered c s g = last_ordered c s' g ∧
      ∀ e, alive_in T e → next_ordered c s g e = next_ordered c s' g e ∧ previous_ordered c s g e = previous_ordered c s' g e) ∧
    (tags_on_live T → ∀ t e, alive_in T e → has_tag c s t e = has_tag c s' t e)).
Proof.
  intros Hc Hr Hr' Hre T T'.
  destruct (reduces_refines _ _ Hre) as (S1 & S2 & S3 & S4 & S5 & S6). { intros x. exact (crun_answers c _ _ _ _ Hr). }
  destruct (caught_alike c Hc cap tr1 s cap' tr2 s' (issued T) (alive_in T) T' Hr Hr') as [H1 H2].
  - intros e He. split; [done|]. by apply S6.
  - intros e He. destruct (crun_only _ _ _ _ Hr') as [_ Hf]. apply Hf.
  - intros e m He. apply S1.
  - done.
  - intros e He. split; [done|by apply S2].
  - done.
  - intros t e _. apply S4.
  - split; [exact H1|]. intros C1 C2. destruct (H2 C1 C2) as [Ho Ht]. split; [exact Ho|]. intros T1. apply Ht; [done|by apply S5].
Qed.
Lemma reduces_reads c cap cap' T T' s s' U : cfg_ok c → drun (healthy c) c cap T s → drun (healthy c) c cap' T' s' → reduces T T' →
  U ≠ [] → (∀ e t, alive_in T e → t ∈ U → t ∉ untold T' e) → reads_alike c T s c T' s' U.
Proof.
  intros Hc Hh Hh' Hre Hne Hu. destruct (reduces_same c cap cap' T T' s s' Hc Hh Hh' Hre) as [H _].
  destruct (reduces_refines _ _ Hre) as (_ & S2 & _). { intros x. exact (run_answers _ _ _ _ _ (drun_run _ _ _ _ _ Hh)). }
  intros e. split; [apply S2|]. intros Ha. destruct (H e (alive_is_issued _ _ Ha)) as (_ & _ & HT). apply HT; [done|]. intros t. by apply Hu.
Qed.
Lemma reduces_queries c cap cap' T T' s s' q : cfg_ok c → drun (healthy c) c cap T s → drun (healthy c) c cap' T' s' → reduces T T' →
  NoDup (q_types q) → q_types q ≠ [] → (∀ e t, alive_in T e → t ∈ q_types q → t ∉ untold T' e) → visited_alike c s c s' q.
Proof.
  intros Hc Hh Hh' Hre Hn Hne Hu. apply (alike_component c c Hc Hc cap cap' T T' s s' Hh Hh' q Hn Hne). by eapply (reduces_reads c cap cap').
Qed.
Lemma reduces_ordered c cap cap' T T' s s' q g fuel : cfg_ok c → drun (healthy c) c cap T s → drun (healthy c) c cap' T' s' → reduces T T' →
  NoDup (q_types q) → q_types q ≠ [] → (∀ e t, alive_in T e → t ∈ q_types q → t ∉ untold T' e) →
  (∀ e, e ∈ members T g → had_components T e ∧ had_components T' e) → (length (members T g) < fuel)%nat → ordered_alike c s c s' q g fuel.
Proof.
  intros Hc Hh Hh' Hre Hn Hne Hu. apply (alike_ordered c c Hc Hc cap cap' T T' s s' Hh Hh' q g fuel Hn Hne); [by eapply (reduces_reads c cap cap')|].
  destruct (reduces_refines _ _ Hre) as (_ & _ & S3 & _); [|apply S3]. intros x. exact (run_answers _ _ _ _ _ (drun_run _ _ _ _ _ Hh)).
Qed.
Lemma reduces_queries_caught c cap cap' tr1 tr2 s s' q : let T := answered tr1 in let T' := answered tr2 in
  cfg_ok c → crun c cap tr1 s → crun c cap' tr2 s' → reduces T T' →
  NoDup (q_types q) → q_types q ≠ [] → (∀ e t, alive_in T e → t ∈ q_types q → t ∉ untold T' e) → visited_alike c s c s' q.
Proof.
  intros T T' Hc Hr Hr' Hre Hn Hne Hu. apply (caught_component c c Hc Hc cap cap' tr1 tr2 s s' Hr Hr' q Hn Hne).
  destruct (reduces_caught c cap cap' tr1 tr2 s s' Hc Hr Hr' Hre) as [H _].
  destruct (reduces_refines _ _ Hre) as (_ & S2 & _). { intros x. exact (crun_answers c _ _ _ _ Hr). }
  intros e. split; [apply S2|]. intros Ha. destruct (H e (alive_is_issued _ _ Ha)) as (_ & _ & HT). apply HT; [done|]. intros t. by apply Hu.
Qed.


(** ** The calls return *)
(** One call made instead of others. *)
Lemma one_call c cap tr s o : cfg_ok c → drun (λ _ _, True) c cap tr s → frugal c tr → disciplined c tr o → o ≠ OCreate → (∀ a, o ≠ OCreateWith a) →
  ∃ s', drun (λ _ _, True) c cap (tr ++ [(o, None)]) s'.
Proof.
  intros Hc Hd Hf Hdi Ho1 Ho2. destruct (frugal_returns c cap tr s o Hc Hd Hf Hdi) as (s' & r & Hst).
  assert (r = None) as ->. { destruct r; [|done]. destruct (proj2 (creation_returns c cap _ _ _ _ _ (drun_run _ _ _ _ _ Hd) Hst)) as [?|[a ?]]; [eauto|done|]. by destruct (Ho2 a). }
  exists s'. by econstructor.
Qed.
Lemma add_both c tr e v v' : disciplined c tr (OAdd e v) → disciplined c (tr ++ [(OAdd e v, None)]) (OAdd e v') → args_ok c (OAdd e (v ++ v')) →
  disciplined c tr (OAdd e (v ++ v')).
Proof.
  intros (_ & _ & _ & Hw & _) (_ & Hr & _) Ha. split; [done|]. split; [|by split; [|split]]. intros m Hm. simpl in Hr.
  specialize (Hr (put v m)). rewrite put_dom in Hr. rewrite fmap_app, list_to_set_app_L, (assoc_L _). apply Hr. econstructor; [done|]. simpl. by rewrite decide_True.
Qed.
Lemma remove_both c tr e T T' : disciplined c tr (ORemove e T) → disciplined c (tr ++ [(ORemove e T, None)]) (ORemove e T') → args_ok c (ORemove e (T ++ T')) →
  disciplined c tr (ORemove e (T ++ T')).
Proof.
  intros (_ & _ & _ & Hw & Hs1) (_ & Hr & _ & _ & Hs2) Ha. simpl in Hr, Hs1, Hs2.
  assert (∀ m, comps tr e (Some m) → comps (tr ++ [(ORemove e T, None)]) e (Some (forget T m))) as Hf. { intros m Hm. econstructor; [done|]. simpl. by rewrite decide_True. }
  split; [done|]. split; [|split; [done|split; [done|]]].
  - intros m Hm. specialize (Hr _ (Hf m Hm)). rewrite dom_forget in Hr. rewrite list_to_set_app_L.
    assert (dom m ∖ (list_to_set T ∪ list_to_set T') = (dom m ∖ list_to_set T ∖ list_to_set T' : gset tid)) as ->; [set_solver|done].
  - intros m Hm. destruct (Hs2 _ (Hf m Hm)) as [He|(t & Ht & HT)].
    + destruct (Hs1 m Hm) as [?|(t & Ht & HT)]; [by left|]. exfalso. assert (forget T m !! t = None) as Hn by (rewrite He; apply lookup_empty).
      rewrite CompP.forget_lookup, decide_False in Hn by done. rewrite Hn in Ht. by destruct Ht.
    + right. exists t. rewrite CompP.forget_lookup in Ht. destruct (decide _) as [|HnT]; [by destruct Ht|]. split; [done|]. rewrite elem_of_app. tauto.
Qed.
Lemma add_create c tr e a v : cfg_ok c → disciplined c tr (OCreateWith a) → (∀ t, t ∈ arch_ids a ↔ t ∈ v.*1) → args_ok c (OAdd e v) →
  disciplined c (tr ++ [(OCreate, Some e)]) (OAdd e v).
Proof.
  intros Hc (Ha & Hr & _ & _ & _) Hk Hv. simpl in Ha, Hr. split; [done|]. split; [|split; [done|split; [|done]]].
  - intros m Hm a' Ha' Hk'. apply comps_types in Hm. unfold types in Hm. rewrite foldl_app in Hm. simpl in Hm. rewrite decide_True in Hm by done. injection Hm as Hm. rewrite Hm in Hk'.
    assert (a' = a) as ->; [|done]. apply (arch_wf_eq c); [done|done|]. apply incr_ext; [apply Ha'|apply Ha|]. intros t. rewrite Hk', Hk, elem_of_union, elem_of_list_to_set. set_solver.
  - intros e' He'. simpl in He'. apply elem_of_list_singleton in He' as ->. rewrite issued_snoc. apply elem_of_app. right. by left.
Qed.
Lemma merged_returns c cap tr xs ys tr2 s : cfg_ok c → drun (λ _ _, True) c cap (tr ++ xs ++ tr2) s → merges tr xs ys → (∀ y, y ∈ ys → args_ok c y.1) →
  frugal c (tr ++ ys ++ tr2) → ∃ s', drun (λ _ _, True) c cap (tr ++ ys ++ tr2) s'.
Proof.
  intros Hc Hd Hm Ha Hf. rewrite !app_assoc in *. destruct (drun_prefixes _ _ _ _ _ Hd) as [s1 Hd1]. pose proof (frugal_prefixes _ _ _ Hf) as Hf1. pose proof (frugal_prefixes _ _ _ Hf1) as Hf0.
  assert ((∃ s0, drun (λ _ _, True) c cap (tr ++ ys) s0) ∧ lives (tr ++ xs) = lives (tr ++ ys)) as [[s0' Hd'] Hl];
    [|by eapply (continue_refines c cap (tr ++ xs) (tr ++ ys)); [done|by apply merges_refines|..]].
  destruct Hm as [e v v'|e T T'|e v v' Hk|e a v Hk|e v v' Hp Hn|e T T' Hp|e v v' Hp Hn].
  - rewrite app2 in Hd1. apply drun_snoc in Hd1 as (s2 & Hd2 & D2 & _). apply drun_snoc in Hd2 as (s3 & Hd0 & D1 & _). simpl in *.
    split; [|rewrite app2, !lives_app; simpl; by rewrite !app_nil_r].
    apply (one_call c cap tr s3); try done. apply add_both; try done. apply (Ha (_, None)). by left.
  - rewrite app2 in Hd1. apply drun_snoc in Hd1 as (s2 & Hd2 & D2 & _). apply drun_snoc in Hd2 as (s3 & Hd0 & D1 & _). simpl in *.
    split; [|rewrite app2, !lives_app; simpl; by rewrite !app_nil_r].
    apply (one_call c cap tr s3); try done. apply remove_both; try done. apply (Ha (_, None)). by left.
  - rewrite app2 in Hd1. apply drun_snoc in Hd1 as (s2 & Hd2 & _ & _). apply drun_snoc in Hd2 as (s3 & Hd0 & (_ & _ & _ & Hw & _) & _). simpl in *.
    split; [|rewrite app2, !lives_app; simpl; by rewrite !app_nil_r].
    apply (one_call c cap tr s3); try done. split; [apply (Ha (_, None)); by left|]. by split; [|split; [|split]].
  - rewrite app2 in Hd1. apply drun_snoc in Hd1 as (s2 & Hd2 & _ & _). pose proof (drun_run _ _ _ _ _ Hd2) as R1. apply drun_snoc in Hd2 as (s3 & Hd0 & D1 & _). simpl in *.
    assert (disciplined c tr OCreate) as D0. { destruct D1 as (_ & _ & _ & _ & Hs). split; [done|]. split; [done|]. split; [done|]. split; [by intros e' ?%elem_of_nil|exact Hs]. }
    split; [|rewrite !app2, !lives_app; done].
    destruct (frugal_returns c cap tr s3 OCreate Hc Hd0 Hf0 D0) as (s4 & r & Hst).
    assert (r = Some e) as ->.
    { assert (run c cap (tr ++ [(OCreate, r)]) s4) as R2 by (econstructor; [by eapply drun_run|done]).
      pose proof (same_lives _ _ _ _ _ _ _ _ R1 R2) as Hsame. rewrite !lives_app in Hsame. specialize (Hsame eq_refl). rewrite !issued_snoc in Hsame.
      apply app_inv_head in Hsame. destruct r; naive_solver. }
    assert (drun (λ _ _, True) c cap (tr ++ [(OCreate, Some e)]) s4) as Hd4 by by econstructor.
    rewrite app2 in Hf1 |- *. apply (one_call c cap _ s4); try done; [by apply frugal_prefix in Hf1|]. apply (add_create c tr e a); try done. apply (Ha (OAdd e v, None)). right. by left.
  - apply drun_snoc in Hd1 as (s3 & Hd0 & (_ & Hr & _ & Hw & _) & _). simpl in *. split; [|by rewrite !lives_app].
    apply (one_call c cap tr s3); try done. split; [apply (Ha (_, None)); by left|]. split; [|by split; [|split]].
    intros m Hm. specialize (Hr m Hm). assert (list_to_set v'.*1 = (list_to_set v.*1 : gset tid)) as ->; [|done]. apply set_eq. intros t. rewrite !elem_of_list_to_set. by rewrite Hp.
  - apply drun_snoc in Hd1 as (s3 & Hd0 & (_ & Hr & _ & Hw & Hs) & _). simpl in *. split; [|by rewrite !lives_app].
    apply (one_call c cap tr s3); try done. split; [apply (Ha (_, None)); by left|]. split; [|split; [done|split; [done|]]].
    + intros m Hm. specialize (Hr m Hm). assert (list_to_set T' = (list_to_set T : gset tid)) as ->; [|done]. apply set_eq. intros t. rewrite !elem_of_list_to_set. by rewrite Hp.
    + intros m Hm. destruct (Hs m Hm) as [?|(t & Ht & HT)]; [by left|]. right. exists t. split; [done|]. by rewrite <- Hp.
  - apply drun_snoc in Hd1 as (s3 & Hd0 & (_ & _ & _ & Hw & _) & _). simpl in *. split; [|by rewrite !lives_app].
    apply (one_call c cap tr s3); try done. split; [apply (Ha (_, None)); by left|]. by split; [|split; [|split]].
Qed.
