(** ArchP.v — archetypes as sorted lists: sorting, builder, inclusion tests, matching. *)
From Verif.Spec Require Export Env Archetypes.
From Verif.Proofs Require Export SortedP Wp.
Local Open Scope N_scope.

(** ** Sorting *)
Definition ctle (x y : ctype) : Prop := ct_id x ≤ ct_id y.
Lemma insert_ct_perm x l : insert_ct x l ≡ₚ x :: l.
Proof.
  induction l as [|y l IH]; simpl; [done|]. destruct (ct_id x <=? ct_id y); [done|].
  rewrite IH. apply Permutation_swap.
Qed.
Lemma sort_cts_perm l : sort_cts l ≡ₚ l.
Proof. induction l as [|x l IH]; simpl; [done|]. unfold sort_cts in *. simpl. by rewrite insert_ct_perm, IH. Qed.
Lemma insert_ct_sorted x l : StronglySorted ctle l → StronglySorted ctle (insert_ct x l).
Proof.
  induction 1 as [|y l Hs IH Hy]; simpl; [repeat constructor|].
  destruct (N.leb_spec (ct_id x) (ct_id y)) as [Hle|Hlt].
  - constructor; [by constructor|]. constructor; [done|]. eapply Forall_impl; [exact Hy|]. unfold ctle. simpl. lia.
  - constructor; [done|]. rewrite insert_ct_perm. constructor; [unfold ctle; lia|done].
Qed.
Lemma sort_cts_sorted l : StronglySorted ctle (sort_cts l).
Proof. induction l as [|x l IH]; simpl; [constructor|]. by apply insert_ct_sorted. Qed.
Lemma sorted_ids l : StronglySorted ctle l → NoDup (arch_ids l) → incr (arch_ids l).
Proof.
  induction 1 as [|x l Hs IH Hx]; simpl; [constructor|]. intros [Hni Hnd]%NoDup_cons. constructor; [by apply IH|].
  apply Forall_forall. intros t (y & -> & Hy)%elem_of_list_fmap. rewrite Forall_forall in Hx.
  specialize (Hx y Hy). unfold ctle in Hx. assert (ct_id x ≠ ct_id y); [|lia].
  intros Heq. apply Hni. rewrite Heq. by apply elem_of_list_fmap_1.
Qed.
Lemma sort_cts_incr l : NoDup (arch_ids l) → incr (arch_ids (sort_cts l)).
Proof. intros Hnd. apply sorted_ids; [apply sort_cts_sorted|]. unfold arch_ids. by rewrite sort_cts_perm. Qed.
Lemma sort_cts_ids l t : t ∈ arch_ids (sort_cts l) ↔ t ∈ arch_ids l.
Proof. unfold arch_ids. by rewrite sort_cts_perm. Qed.
Lemma sort_cts_elem l x : x ∈ sort_cts l ↔ x ∈ l.
Proof. by rewrite sort_cts_perm. Qed.

Lemma arch_new_ok l a : arch_new l = POk a ↔ l ≠ [] ∧ a = l.
Proof.
  unfold arch_new, assertP. case_bool_decide as H; simpl; split.
  - done.
  - intros [? _]. done.
  - by intros [= ->].
  - by intros [_ ->].
Qed.
Lemma with_components_ok c T a : with_components c T = POk a ↔ T ≠ [] ∧ a = sort_cts (ctype_of c <$> T).
Proof.
  unfold with_components. rewrite arch_new_ok. split; intros [H ->]; (split; [|done]).
  - intros ->. done.
  - intros Heq. apply H. pose proof (sort_cts_perm (ctype_of c <$> T)) as Hp. rewrite Heq in Hp.
    apply Permutation_nil_l in Hp. by destruct T.
Qed.
Lemma ctype_of_ids c T : arch_ids (ctype_of c <$> T) = T.
Proof. unfold arch_ids. rewrite <- list_fmap_compose. unfold compose. simpl. apply list_fmap_id. Qed.
Lemma with_components_ids c T a : NoDup T → with_components c T = POk a →
  incr (arch_ids a) ∧ (∀ t, t ∈ arch_ids a ↔ t ∈ T) ∧ (∀ x, x ∈ a ↔ ∃ t, t ∈ T ∧ x = ctype_of c t) ∧ a ≠ [].
Proof.
  intros Hnd [Hne ->]%with_components_ok. split_and!.
  - apply sort_cts_incr. by rewrite ctype_of_ids.
  - intros t. by rewrite sort_cts_ids, ctype_of_ids.
  - intros x. rewrite sort_cts_elem, elem_of_list_fmap. naive_solver.
  - intros Heq. apply Hne. pose proof (sort_cts_perm (ctype_of c <$> T)) as Hp. rewrite Heq in Hp.
    apply Permutation_nil_l in Hp. by destruct T.
Qed.

(** ** Builder *)
Lemma bld_contains_spec b x : bld_contains b x = true ↔ ct_id x ∈ arch_ids b.
Proof.
  unfold bld_contains, arch_ids. rewrite existsb_exists, elem_of_list_fmap. split.
  - intros (y & Hy & Heq%N.eqb_eq). exists y. by rewrite elem_of_list_In.
  - intros (y & -> & Hy). exists y. rewrite <- elem_of_list_In, N.eqb_refl. done.
Qed.
Lemma bld_include_spec b xs : NoDup (arch_ids b) →
  NoDup (arch_ids (bld_include b xs)) ∧
  (∀ t, t ∈ arch_ids (bld_include b xs) ↔ t ∈ arch_ids b ∨ t ∈ arch_ids xs) ∧
  (∀ x, x ∈ bld_include b xs → x ∈ b ∨ x ∈ xs).
Proof.
  revert b. induction xs as [|x xs IH]; intros b Hnd; simpl.
  - split; [done|]. split; [|by left]. intros t. rewrite elem_of_nil. tauto.
  - destruct (bld_contains b x) eqn:E.
    + apply bld_contains_spec in E. destruct (IH b Hnd) as (H1 & H2 & H3). split; [done|]. split.
      * intros t. rewrite H2, elem_of_cons. naive_solver.
      * intros y Hy%H3. rewrite elem_of_cons. tauto.
    + assert (ct_id x ∉ arch_ids b) as Hx. { intros ?%bld_contains_spec. congruence. }
      destruct (IH (b ++ [x])) as (H1 & H2 & H3).
      { unfold arch_ids. rewrite fmap_app. apply NoDup_app. split; [done|]. split; [|apply NoDup_singleton].
        simpl. intros t Ht ->%elem_of_list_singleton. done. }
      split; [done|]. split.
      * intros t. rewrite H2. unfold arch_ids. rewrite fmap_app, elem_of_app. simpl. rewrite elem_of_list_singleton, elem_of_cons. tauto.
      * intros y Hy%H3. rewrite elem_of_app, elem_of_list_singleton in Hy. rewrite elem_of_cons. tauto.
Qed.
Lemma bld_position_spec b x : NoDup (arch_ids b) →
  match bld_position b x with
  | Some i => NoDup (arch_ids (delete i b)) ∧ ∀ y, y ∈ delete i b ↔ y ∈ b ∧ ct_id y ≠ ct_id x
  | None => ∀ y, y ∈ b → ct_id y ≠ ct_id x
  end.
Proof.
  induction b as [|y b IH]; simpl; intros Hnd; [set_solver|]. apply NoDup_cons in Hnd as [Hni Hnd].
  destruct (N.eqb_spec (ct_id y) (ct_id x)) as [Heq|Hne].
  - simpl. split; [done|]. intros z. rewrite elem_of_cons. split.
    + intros Hz. split; [by right|]. intros Hzx. apply Hni. rewrite Heq, <- Hzx. by apply elem_of_list_fmap_1.
    + intros [[->|?] ?]; done.
  - specialize (IH Hnd). destruct (bld_position b x) as [i|]; simpl.
    + destruct IH as [IH1 IH2]. split.
      * unfold arch_ids in *. simpl. apply NoDup_cons. split; [|done].
        intros (z & Hz & [Hz' _]%IH2)%elem_of_list_fmap. apply Hni. rewrite Hz. by apply elem_of_list_fmap_1.
      * intros z. rewrite !elem_of_cons, IH2. naive_solver.
    + intros z [->|Hz]%elem_of_cons; [done|]. by apply IH.
Qed.
Lemma bld_exclude_spec b xs : NoDup (arch_ids b) →
  NoDup (arch_ids (bld_exclude b xs)) ∧ (∀ y, y ∈ bld_exclude b xs ↔ y ∈ b ∧ ct_id y ∉ arch_ids xs).
Proof.
  revert b. induction xs as [|x xs IH]; intros b Hnd; simpl.
  - split; [done|]. intros y. rewrite elem_of_nil. tauto.
  - pose proof (bld_position_spec b x Hnd) as Hp. destruct (bld_position b x) as [i|].
    + destruct Hp as [Hnd' Hp]. destruct (IH _ Hnd') as [H1 H2]. split; [done|]. intros y. rewrite H2, Hp, elem_of_cons. tauto.
    + destruct (IH _ Hnd) as [H1 H2]. split; [done|]. intros y. rewrite H2, elem_of_cons. naive_solver.
Qed.
Lemma bld_exclude_ids b xs t : NoDup (arch_ids b) → t ∈ arch_ids (bld_exclude b xs) ↔ t ∈ arch_ids b ∧ t ∉ arch_ids xs.
Proof.
  intros Hnd. destruct (bld_exclude_spec b xs Hnd) as [_ H]. split.
  - intros (y & -> & [Hy Hn]%H)%elem_of_list_fmap. split; [by apply elem_of_list_fmap_1|done].
  - intros [(y & -> & Hy)%elem_of_list_fmap Hn]. apply elem_of_list_fmap. exists y. split; [done|]. by apply H.
Qed.

Lemma bld_build_eq b : bld_build b = if bool_decide (b = []) then RPanic [] else ROk (sort_cts b) (sort_cts b).
Proof.
  unfold bld_build, modS, getS, mbind, M_bind, lift, arch_new. simpl.
  assert (sort_cts b = [] ↔ b = []) as Hiff.
  { split; [|by intros ->]. intros Heq. pose proof (sort_cts_perm b) as Hp. rewrite Heq in Hp. by apply Permutation_nil_l in Hp. }
  case_bool_decide as H1; case_bool_decide as H2; simpl; try done; try tauto. by rewrite H1.
Qed.

Lemma bcalls_spec xs : NoDup (arch_ids (bcalls xs)) ∧ ∀ t, t ∈ arch_ids (bcalls xs) ↔ t ∈ tset xs.
Proof.
  unfold bcalls, tset. induction xs as [|x xs [IH1 IH2]] using rev_ind; simpl.
  - split; [constructor|]. set_solver.
  - rewrite !foldl_app. simpl. set (b := foldl _ _ _) in *. set (S := foldl _ _ _) in *. destruct x as [ys|ys|ys|]; simpl.
    + destruct (bld_include_spec b ys IH1) as (H1 & H2 & _). split; [done|]. intros t.
      rewrite H2, IH2, elem_of_union, elem_of_list_to_set. done.
    + destruct (bld_include_spec b ys IH1) as (H1 & H2 & _). split; [done|]. intros t.
      rewrite H2, IH2, elem_of_union, elem_of_list_to_set. done.
    + destruct (bld_exclude_spec b ys IH1) as (H1 & _). split; [done|]. intros t.
      rewrite bld_exclude_ids, IH2, elem_of_difference, elem_of_list_to_set by done. done.
    + rewrite bld_build_eq. case_bool_decide as Hb.
      * rewrite Hb in *. done.
      * split; [unfold arch_ids; by rewrite sort_cts_perm|]. intros t. by rewrite sort_cts_ids, IH2.
Qed.

Lemma bcalls_included xs y : y ∈ bcalls xs → included xs y.
Proof.
  unfold bcalls. induction xs as [|x xs IH] using rev_ind; simpl; [by intros ?%elem_of_nil|].
  pose proof (bcalls_spec xs) as [Hnd _]. unfold bcalls in Hnd.
  rewrite foldl_app. simpl. set (b := foldl _ _ _) in *.
  assert (y ∈ b → included (xs ++ [x]) y) as Hold.
  { intros (ys & Hys & Hy)%IH. exists ys. rewrite !elem_of_app. tauto. }
  destruct x as [ys|ys|ys|]; simpl.
  - intros [?|?]%(proj2 (proj2 (bld_include_spec b ys Hnd))); [auto|]. exists ys. rewrite !elem_of_app, !elem_of_list_singleton. auto.
  - intros [?|?]%(proj2 (proj2 (bld_include_spec b ys Hnd))); [auto|]. exists ys. rewrite !elem_of_app, !elem_of_list_singleton. auto.
  - intros [? _]%(proj2 (bld_exclude_spec b ys Hnd)). auto.
  - rewrite bld_build_eq. case_bool_decide; [by intros ?%elem_of_nil|]. rewrite sort_cts_elem. auto.
Qed.

Lemma builder_sets xs :
  match bld_build (bcalls xs) with
  | ROk b a => tset xs ≠ ∅ ∧ incr (arch_ids a) ∧ (∀ t, t ∈ arch_ids a ↔ t ∈ tset xs) ∧
      (∀ y, y ∈ a → included xs y) ∧ (∀ y, y ∈ b ↔ y ∈ a)
  | RPanic _ => tset xs = ∅
  | RUB _ => False
  end.
Proof.
  rewrite bld_build_eq. destruct (bcalls_spec xs) as [Hnd Hs]. case_bool_decide as Hb.
  - apply set_eq. intros t. rewrite <- Hs, Hb. set_solver.
  - split_and!.
    + intros Heq. apply Hb. destruct (bcalls xs) as [|y b]; [done|]. exfalso.
      assert (ct_id y ∈ tset xs) as Hin by (apply Hs; by left). rewrite Heq in Hin. set_solver.
    + by apply sort_cts_incr.
    + intros t. by rewrite sort_cts_ids.
    + intros y. rewrite sort_cts_elem. apply bcalls_included.
    + done.
Qed.

Lemma built_incr a : built a → incr (arch_ids a) ∧ a ≠ [].
Proof.
  intros [(c & T & Hnd & H)|(xs & b & H)].
  - apply with_components_ids in H as (? & _ & _ & ?); done.
  - pose proof (builder_sets xs) as Hs. rewrite H in Hs. destruct Hs as (Hne & Hi & Hs & _). split; [done|].
    intros ->. apply Hne, set_eq. intros t. rewrite <- Hs. set_solver.
Qed.

(** ** Comparisons *)
Lemma is_same_as_spec a b : is_same_as a b = true ↔ arch_ids a = arch_ids b.
Proof.
  unfold is_same_as. destruct (Nat.eqb_spec (length a) (length b)) as [Hl|Hl]; simpl.
  - apply bool_decide_eq_true.
  - split; [done|]. intros Heq. apply (f_equal length) in Heq. unfold arch_ids in Heq. rewrite !fmap_length in Heq. done.
Qed.
Lemma same_sets a b : incr (arch_ids a) → incr (arch_ids b) →
  is_same_as a b = true ↔ ∀ t, t ∈ arch_ids a ↔ t ∈ arch_ids b.
Proof.
  intros Ha Hb. rewrite is_same_as_spec. split; [by intros ->|]. by apply incr_ext.
Qed.

Section search.
Context (c : cfg) (Hbs : search_ok (c_bs c)).

Lemma find_index_spec a t i : incr (arch_ids a) → find_component_index c a t = Some i ↔ arch_ids a !! i = Some t.
Proof.
  intros Ha. unfold find_component_index.
  destruct (search_cases _ _ t Hbs Ha) as [(j & -> & Hj)|(j & -> & _ & Hn & _)].
  - split; [by intros [= <-]|]. intros Hi. f_equal. eapply NoDup_lookup; [by apply incr_nodup|done|done].
  - split; [done|]. intros Hi. destruct Hn. by eapply elem_of_list_lookup_2.
Qed.
Lemma find_index_none a t : incr (arch_ids a) → find_component_index c a t = None ↔ t ∉ arch_ids a.
Proof.
  intros Ha. split.
  - intros Hn (i & Hi)%elem_of_list_lookup. apply (find_index_spec _ _ _ Ha) in Hi. congruence.
  - intros Hn. destruct (find_component_index c a t) as [i|] eqn:E; [|done].
    apply (find_index_spec _ _ _ Ha) in E. destruct Hn. by eapply elem_of_list_lookup_2.
Qed.
Lemma has_component_spec a t : incr (arch_ids a) → has_component c a t = true ↔ t ∈ arch_ids a.
Proof.
  intros Ha. unfold has_component. rewrite bool_decide_eq_true. rewrite elem_of_list_lookup.
  split; intros [i Hi]; exists i; by apply (find_index_spec _ _ _ Ha).
Qed.
Lemma all_found_spec l ids : incr l → all_found c l ids = true ↔ ∀ t, t ∈ ids → t ∈ l.
Proof.
  intros Hl. induction ids as [|t ids IH]; simpl; [set_solver|].
  destruct (search_cases _ _ t Hbs Hl) as [(j & -> & Hj)|(j & -> & _ & Hn & _)].
  - rewrite IH. split; [|set_solver]. intros H x [->|Hx]%elem_of_cons; [by eapply elem_of_list_lookup_2|auto].
  - split; [done|]. intros H. destruct Hn. apply H. by left.
Qed.
Lemma nodup_sub_length (l1 l2 : list N) : NoDup l1 → (∀ t, t ∈ l1 → t ∈ l2) → (length l1 ≤ length l2)%nat.
Proof. intros Hnd Hsub. apply submseteq_length, NoDup_submseteq; [done|]. exact Hsub. Qed.
Lemma is_include_ids_spec a ids : incr (arch_ids a) → NoDup ids →
  is_include_ids c a ids = true ↔ ∀ t, t ∈ ids → t ∈ arch_ids a.
Proof.
  intros Ha Hnd. unfold is_include_ids. destruct (Nat.ltb_spec (length (arch_ids a)) (length ids)) as [Hl|Hl].
  - split; [done|]. intros H. pose proof (nodup_sub_length _ _ Hnd H). lia.
  - by apply all_found_spec.
Qed.
Lemma is_include_only_spec a ids : incr (arch_ids a) → NoDup ids →
  is_include_only_ids c a ids = true ↔ ∀ t, t ∈ ids ↔ t ∈ arch_ids a.
Proof.
  intros Ha Hnd. unfold is_include_only_ids. destruct (Nat.eqb_spec (length (arch_ids a)) (length ids)) as [Hl|Hl]; simpl.
  - rewrite all_found_spec by done. split; [|naive_solver]. intros H t. split; [auto|]. intros Ht.
    assert (arch_ids a ≡ₚ ids) as Hp; [|by rewrite <- Hp].
    symmetry. apply submseteq_Permutation_length_eq; [done|]. by apply NoDup_submseteq.
  - split; [done|]. intros H. apply incr_nodup in Ha.
    pose proof (nodup_sub_length _ _ Hnd (λ t, proj1 (H t))). pose proof (nodup_sub_length _ _ Ha (λ t, proj2 (H t))). lia.
Qed.

Lemma search_index l t i : incr l → c_bs c l t = BMissing i →
  (i ≤ length l)%nat ∧ t ∉ l ∧ (∀ x, x ∈ take i l → x < t).
Proof.
  intros Hl H. destruct (search_cases _ _ t Hbs Hl) as [(j & Hj & _)|(j & Hj & Hle & Hn & Hs)]; [congruence|].
  assert (j = i) as -> by congruence. split_and!; [done|done|]. intros x Hx. apply incr_app in Hs as (_ & _ & Hlt).
  apply Hlt; [done|]. by left.
Qed.
Lemma incr_drop n (l : list N) : incr l → incr (drop n l).
Proof. intros H. rewrite <- (take_drop n l) in H. by apply incr_app in H as (_ & ? & _). Qed.
Lemma exclude_loop_spec l left ids : incr l → StronglySorted N.le ids → (left ≤ length l)%nat →
  (∀ x t, x ∈ take left l → t ∈ ids → x < t) →
  ∃ b : bool, exclude_loop c l left ids = POk b ∧ (b = true ↔ ∀ t, t ∈ ids → t ∉ l).
Proof.
  intros Hl Hids. revert left. induction Hids as [|t ids Hids IH Ht]; intros left Hle Hbelow; simpl.
  - exists true. split; [done|]. set_solver.
  - assert (Nat.ltb (length l) left = false) as -> by (apply Nat.ltb_ge; lia).
    pose proof (incr_drop left l Hl) as Hd. rewrite Forall_forall in Ht.
    destruct (c_bs c (drop left l) t) as [i|i] eqn:E.
    + apply search_found_inv in E; [|done|done]. exists false. split; [done|]. split; [done|].
      intros H. destruct (H t); [by left|]. rewrite <- (take_drop left l). apply elem_of_app. right.
      by eapply elem_of_list_lookup_2.
    + apply search_index in E as (Hi & Hn & Hlt); [|done].
      rewrite drop_length in Hi.
      assert (t ∉ l) as Hnl.
      { rewrite <- (take_drop left l), elem_of_app. intros [Hx|Hx]; [|done]. specialize (Hbelow t t Hx). 
        assert (t ∈ t :: ids) as H0 by by left. specialize (Hbelow H0). lia. }
      destruct (Nat.leb_spec (length l) i) as [Hge|Hlti].
      * assert (left = 0%nat) as -> by lia. rewrite drop_0 in *. rewrite take_ge in Hlt by lia.
        exists true. split; [done|]. split; [|done]. intros _ x [->|Hx]%elem_of_cons; [done|].
        intros Hxl. specialize (Hlt x Hxl). specialize (Ht x Hx). lia.
      * destruct (IH i) as (b & -> & Hb); [lia| |].
        { intros x t' Hx Ht'. assert (x < t); [|specialize (Ht t' Ht'); lia].
          apply elem_of_list_lookup in Hx as (k & Hk). apply lookup_take_Some in Hk as [Hk Hki].
          destruct (decide (k < left)%nat) as [Hkl|Hkl].
          - apply (Hbelow x t); [|by left]. apply elem_of_list_lookup. exists k. by rewrite lookup_take.
          - apply Hlt, elem_of_list_lookup. exists (k - left)%nat. rewrite lookup_take, lookup_drop by lia.
            replace (left + (k - left))%nat with k by lia. done. }
        exists b. split; [done|]. rewrite Hb. set_solver.
Qed.
Lemma is_exclude_ids_spec a ids : incr (arch_ids a) → StronglySorted N.le ids →
  ∃ b : bool, is_exclude_ids c a ids = POk b ∧ (b = true ↔ ∀ t, t ∈ ids → t ∉ arch_ids a).
Proof. intros Ha Hids. apply exclude_loop_spec; [done|done|lia|]. intros x t Hx. by apply elem_of_nil in Hx. Qed.
(** It never panics, sorted or not; a negative answer is always right. *)
Lemma exclude_loop_total l left ids : incr l → (left ≤ length l)%nat →
  ∃ b : bool, exclude_loop c l left ids = POk b ∧ (b = false → ∃ t, t ∈ ids ∧ t ∈ l).
Proof.
  intros Hl. revert left. induction ids as [|t ids IH]; intros left Hle; simpl; [by exists true|].
  assert (Nat.ltb (length l) left = false) as -> by (apply Nat.ltb_ge; lia).
  pose proof (incr_drop left l Hl) as Hd. destruct (c_bs c (drop left l) t) as [i|i] eqn:E.
  - apply search_found_inv in E; [|done|done]. exists false. split; [done|]. intros _. exists t. split; [by left|].
    rewrite <- (take_drop left l). apply elem_of_app. right. by eapply elem_of_list_lookup_2.
  - apply search_index in E as (Hi & Hn & Hlt); [|done]. rewrite drop_length in Hi.
    destruct (Nat.leb_spec (length l) i); [by exists true|].
    destruct (IH i) as (b & -> & Hb); [lia|]. exists b. split; [done|]. intros (x & ? & ?)%Hb. exists x. split; [by right|done].
Qed.
End search.

(** ** Matching *)
Lemma union_inner_spec inner i0 t : incr inner →
  NoDup (union_inner inner i0 t) ∧ ∀ i, i ∈ union_inner inner i0 t ↔ (i0 ≤ i)%nat ∧ inner !! (i - i0)%nat = Some t.
Proof.
  intros Hs. revert i0. induction Hs as [|x inner Hs IH Hx]; intros i0; simpl.
  - split; [constructor|]. intros i. rewrite elem_of_nil. naive_solver.
  - destruct (IH (S i0)) as [IH1 IH2]. rewrite Forall_forall in Hx.
    destruct (N.ltb_spec t x) as [Hlt|Hge].
    + split; [constructor|]. intros i. rewrite elem_of_nil. split; [done|]. intros [_ Hi].
      apply elem_of_list_lookup_2 in Hi as [->|Hi%Hx]%elem_of_cons; lia.
    + destruct (N.eqb_spec x t) as [->|Hne].
      * split.
        -- apply NoDup_cons. split; [|done]. rewrite IH2. lia.
        -- intros i. rewrite elem_of_cons, IH2. split.
           ++ intros [->|[Hle Hi]]; [by rewrite Nat.sub_diag|]. split; [lia|].
              replace (i - i0)%nat with (S (i - S i0)) by lia. done.
           ++ intros [Hle Hi]. destruct (decide (i = i0)) as [->|Hne]; [by left|right]. split; [lia|].
              replace (i - i0)%nat with (S (i - S i0)) in Hi by lia. done.
      * split; [done|]. intros i. rewrite IH2. split.
        -- intros [Hle Hi]. split; [lia|]. replace (i - i0)%nat with (S (i - S i0)) by lia. done.
        -- intros [Hle Hi]. destruct (decide (i = i0)) as [->|Hne'].
           ++ rewrite Nat.sub_diag in Hi. simpl in Hi. congruence.
           ++ split; [lia|]. replace (i - i0)%nat with (S (i - S i0)) in Hi by lia. done.
Qed.
Lemma union_outer_spec outer o0 inner : incr outer → incr inner →
  NoDup (union_outer outer o0 inner) ∧ ∀ o i, (o, i) ∈ union_outer outer o0 inner ↔
    (o0 ≤ o)%nat ∧ ∃ t, outer !! (o - o0)%nat = Some t ∧ inner !! i = Some t.
Proof.
  intros Ho Hi. revert o0. induction Ho as [|x outer Ho IH Hx]; intros o0; simpl.
  - split; [constructor|]. intros o i. rewrite elem_of_nil. naive_solver.
  - destruct (IH (S o0)) as [IH1 IH2]. destruct (union_inner_spec inner 0 x Hi) as [Hu1 Hu2]. split.
    + apply NoDup_app. split_and!.
      * apply NoDup_fmap_2; [|done]. by intros ? ? [= ->].
      * intros [o i] (j & [= -> ->] & _)%elem_of_list_fmap. rewrite IH2. lia.
      * done.
    + intros o i. rewrite elem_of_app, elem_of_list_fmap, IH2. split.
      * intros [(j & [= -> ->] & Hj)|(Hle & t & H1 & H2)].
        -- apply Hu2 in Hj as [_ Hj]. rewrite Nat.sub_0_r in Hj. split; [lia|]. exists x. by rewrite Nat.sub_diag.
        -- split; [lia|]. exists t. replace (o - o0)%nat with (S (o - S o0)) by lia. done.
      * intros (Hle & t & H1 & H2). destruct (decide (o = o0)) as [->|Hne].
        -- left. rewrite Nat.sub_diag in H1. injection H1 as ->. exists i. split; [done|]. apply Hu2. rewrite Nat.sub_0_r. split; [lia|done].
        -- right. split; [lia|]. exists t. replace (o - o0)%nat with (S (o - S o0)) in H1 by lia. done.
Qed.
Lemma zip_fst_snd {A B} (ps : list (A * B)) : zip ps.*1 ps.*2 = ps.
Proof. induction ps as [|[x y] ps IH]; simpl; [done|]. f_equal. exact IH. Qed.
Lemma zip_snd_fst {A B} (ps : list (A * B)) : zip ps.*2 ps.*1 = (λ p, (p.2, p.1)) <$> ps.
Proof. induction ps as [|[x y] ps IH]; simpl; [done|]. f_equal. exact IH. Qed.
Lemma arch_union_spec a b : incr (arch_ids a) → incr (arch_ids b) →
  length (arch_union a b).1 = length (arch_union a b).2 ∧
  NoDup (zip (arch_union a b).1 (arch_union a b).2) ∧
  ∀ i j, (i, j) ∈ zip (arch_union a b).1 (arch_union a b).2 ↔
    ∃ t, arch_ids a !! i = Some t ∧ arch_ids b !! j = Some t.
Proof.
  intros Ha Hb. unfold arch_union. case_match; simpl.
  - destruct (union_outer_spec _ 0 _ Ha Hb) as [H1 H2]. rewrite (zip_fst_snd (union_outer (arch_ids a) 0 (arch_ids b))), !fmap_length. split_and!; [done|done|].
    intros i j. rewrite H2, Nat.sub_0_r. naive_solver lia.
  - destruct (union_outer_spec _ 0 _ Hb Ha) as [H1 H2]. rewrite (zip_snd_fst (union_outer (arch_ids b) 0 (arch_ids a))), !fmap_length. split_and!; [done| |].
    + apply NoDup_fmap_2; [|done]. intros [] []. simpl. congruence.
    + intros i j. rewrite elem_of_list_fmap. split.
      * intros ([j' i'] & [= -> ->] & Hp). apply H2 in Hp as (_ & t & Hx & Hy). rewrite Nat.sub_0_r in Hx. eauto.
      * intros (t & Hx & Hy). exists (j, i). split; [done|]. apply H2. rewrite Nat.sub_0_r. split; [lia|]. eauto.
Qed.
