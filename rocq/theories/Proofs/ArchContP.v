(** ArchContP.v — the archetypes container: where rows are and what they contain. *)
From Verif.Model Require Export ArchContainer.
From Verif.Spec Require Export Components.
From Verif.Proofs Require Export PageP.
Local Open Scope N_scope.

(** ** Archetypes over the types of a configuration *)
Lemma arch_wf_eq c a b : arch_wf c a → arch_wf c b → arch_ids a = arch_ids b → a = b.
Proof. intros (_ & _ & ->) (_ & _ & ->) Heq. rewrite !ctype_of_ids in Heq. by rewrite Heq. Qed.
Lemma arch_wf_elem c a x : arch_wf c a → x ∈ a → x = ctype_of c (ct_id x).
Proof. intros (_ & _ & ->) (t & -> & _)%elem_of_list_fmap. done. Qed.
Lemma arch_wf_sizes c a b : arch_wf c a → arch_wf c b → sizes_agree a b.
Proof.
  intros Ha Hb x y Hx Hy Heq. rewrite (arch_wf_elem _ _ _ Ha Hx), (arch_wf_elem _ _ _ Hb Hy). by rewrite Heq.
Qed.
(** ** Locations *)
Definition page_arch (s : ac) (p : nat) : option (archetype * layout) :=
  match ac_p2a s !! p with
  | Some i => match ac_archs s !! i, ac_layouts s !! i with Some a, Some ly => Some (a, ly) | _, _ => None end
  | None => None
  end.
Definition loc (s : ac) (p k : nat) : option (N * gmap tid (list cell)) :=
  match ac_pages s !! p, page_arch s p with
  | Some pg, Some (a, ly) =>
    match pg_ids pg !! k with Some id => Some (id, row_map a (ly_offs ly) (pg_mem pg) k) | None => None end
  | _, _ => None
  end.

Record ac_inv (c : cfg) (s : ac) : Prop := ACInv {
  ac_lay_len : length (ac_layouts s) = length (ac_archs s);
  ac_pof_len : length (ac_pages_of s) = length (ac_archs s);
  ac_p2a_len : length (ac_p2a s) = length (ac_pages s);
  ac_arch_ok : ∀ i a ly, ac_archs s !! i = Some a → ac_layouts s !! i = Some ly →
    arch_wf c a ∧ columns a (ly_offs ly) (ly_cap ly) 0 PAGE ∧ 1 ≤ ly_cap ly;
  ac_pof_p2a : ∀ i ps p, ac_pages_of s !! i = Some ps → p ∈ ps → ac_p2a s !! p = Some i;
  ac_pof_nodup : ∀ i ps, ac_pages_of s !! i = Some ps → NoDup ps;
  ac_free_nodup : NoDup (ac_free_pages s);
  ac_free_empty : ∀ p, p ∈ ac_free_pages s → ∃ pg, ac_pages s !! p = Some pg ∧ pg_ids pg = [];
  ac_free_unused : ∀ p i ps, p ∈ ac_free_pages s → ac_pages_of s !! i = Some ps → p ∉ ps;
  ac_used : ∀ p pg, ac_pages s !! p = Some pg → pg_ids pg ≠ [] →
    ∃ i ps, ac_p2a s !! p = Some i ∧ ac_pages_of s !! i = Some ps ∧ p ∈ ps;
  ac_farch_ok : ∀ i, i ∈ ac_free_archs s → ac_pages_of s !! i = Some [];
  ac_farch_nodup : NoDup (ac_free_archs s);
  ac_rows : ∀ p pg i ly, ac_pages s !! p = Some pg → ac_p2a s !! p = Some i → ac_layouts s !! i = Some ly →
    pg_ids pg ≠ [] → N.of_nat (length (pg_ids pg)) ≤ ly_cap ly;
}.

Lemma loc_Some s p k id m : loc s p k = Some (id, m) ↔
  ∃ pg i a ly, ac_pages s !! p = Some pg ∧ ac_p2a s !! p = Some i ∧ ac_archs s !! i = Some a ∧
    ac_layouts s !! i = Some ly ∧ pg_ids pg !! k = Some id ∧ m = row_map a (ly_offs ly) (pg_mem pg) k.
Proof.
  unfold loc, page_arch. split.
  - destruct (ac_pages s !! p) as [pg|]; [|done]. destruct (ac_p2a s !! p) as [i|]; [|done].
    destruct (ac_archs s !! i) as [a|] eqn:Ea; [|done]. destruct (ac_layouts s !! i) as [ly|] eqn:El; [|done].
    destruct (pg_ids pg !! k) eqn:Ek; [|done]. intros [= <- <-]. eauto 20.
  - intros (pg & i & a & ly & -> & -> & -> & -> & -> & ->). done.
Qed.

(** The facts about the page of a location. *)
Lemma used_facts c s p pg : ac_inv c s → ac_pages s !! p = Some pg → pg_ids pg ≠ [] →
  ∃ i ps a ly, ac_p2a s !! p = Some i ∧ ac_pages_of s !! i = Some ps ∧ p ∈ ps ∧ ac_archs s !! i = Some a ∧
    ac_layouts s !! i = Some ly ∧ arch_wf c a ∧ columns a (ly_offs ly) (ly_cap ly) 0 PAGE ∧ 1 ≤ ly_cap ly ∧
    N.of_nat (length (pg_ids pg)) ≤ ly_cap ly.
Proof.
  intros Hi Hp Hne. destruct (ac_used _ _ Hi _ _ Hp Hne) as (i & ps & H1 & H2 & H3).
  destruct (lookup_lt_is_Some_2 (ac_archs s) i) as [a Ha].
  { rewrite <- (ac_pof_len _ _ Hi). by eapply lookup_lt_Some. }
  destruct (lookup_lt_is_Some_2 (ac_layouts s) i) as [ly Hly].
  { rewrite (ac_lay_len _ _ Hi). by eapply lookup_lt_Some. }
  destruct (ac_arch_ok _ _ Hi _ _ _ Ha Hly) as (? & ? & ?).
  exists i, ps, a, ly. split_and!; try done. by eapply ac_rows.
Qed.
Lemma loc_is_Some c s p k pg : ac_inv c s → ac_pages s !! p = Some pg → (k < length (pg_ids pg))%nat ↔ is_Some (loc s p k).
Proof.
  intros Hi Hp. split.
  - intros Hk. destruct (lookup_lt_is_Some_2 _ _ Hk) as [id Hid].
    destruct (used_facts _ _ _ _ Hi Hp) as (i & ps & a & ly & H1 & _ & _ & Ha & Hly & _); [by intros Hn; rewrite Hn in Hk; simpl in Hk; lia|].
    eexists (id, _). apply loc_Some. exists pg, i, a, ly. done.
  - intros [[id m] (pg' & i & a & ly & Hp' & _ & _ & _ & Hid & _)%loc_Some]. assert (pg' = pg) as -> by congruence. by eapply lookup_lt_Some.
Qed.
(** Locations only depend on the nonempty pages, their contents and archetypes. *)
Lemma loc_ext c s s' : ac_inv c s → ac_inv c s' →
  (∀ p pg, ac_pages s !! p = Some pg → pg_ids pg ≠ [] → ac_pages s' !! p = Some pg ∧ page_arch s' p = page_arch s p) →
  (∀ p pg, ac_pages s' !! p = Some pg → pg_ids pg ≠ [] → ac_pages s !! p = Some pg) →
  ∀ p k, loc s' p k = loc s p k.
Proof.
  intros Hi Hi' H1 H2 p k. unfold loc.
  destruct (ac_pages s !! p) as [pg|] eqn:Ep.
  - destruct (decide (pg_ids pg = [])) as [Hn|Hn].
    + assert (∀ x : option (archetype * layout), match x with Some (a, ly) => match pg_ids pg !! k with Some id => Some (id, row_map a (ly_offs ly) (pg_mem pg) k) | None => None end | None => None end = None) as ->.
      { intros [[a ly]|]; [|done]. by rewrite Hn. }
      destruct (ac_pages s' !! p) as [pg'|] eqn:Ep'; [|done].
      destruct (decide (pg_ids pg' = [])) as [Hn'|Hn'].
      * destruct (page_arch s' p) as [[a ly]|]; [|done]. by rewrite Hn'.
      * pose proof (H2 _ _ Ep' Hn'). congruence.
    + destruct (H1 _ _ Ep Hn) as [-> ->]. done.
  - destruct (ac_pages s' !! p) as [pg'|] eqn:Ep'; [|done].
    destruct (decide (pg_ids pg' = [])) as [Hn'|Hn'].
    + destruct (page_arch s' p) as [[a ly]|]; [|done]. by rewrite Hn'.
    + pose proof (H2 _ _ Ep' Hn'). congruence.
Qed.

Lemma ac_new_inv c : ac_inv c ac_new.
Proof.
  split; simpl; try done.
  - apply (NoDup_seq 0 5).
  - intros p. intros Hp. exists page_new. split; [|done].
    change (replicate 5 page_new !! p = Some page_new). apply lookup_replicate_2.
    rewrite !elem_of_cons, elem_of_nil in Hp. lia.
  - intros p pg Hp. change (replicate 5 page_new !! p = Some pg) in Hp. apply lookup_replicate in Hp as [-> _]. done.
  - by intros i ?%elem_of_nil.
  - constructor.
Qed.

(** ** reserve_archetype *)
Lemma find_arch_spec archs n a :
  match find_arch archs n a with
  | Some i => ∃ j x, i = (n + j)%nat ∧ archs !! j = Some x ∧ is_same_as x a = true
  | None => ∀ x, x ∈ archs → is_same_as x a = false
  end.
Proof.
  revert n. induction archs as [|x archs IH]; intros n; simpl; [set_solver|].
  destruct (is_same_as x a) eqn:E.
  - exists 0%nat, x. split; [lia|done].
  - specialize (IH (S n)). destruct (find_arch archs (S n) a) as [i|].
    + destruct IH as (j & y & -> & Hy & Hs). exists (S j), y. split; [lia|done].
    + intros y [->|Hy]%elem_of_cons; auto.
Qed.

Record reserved (c : cfg) (s : ac) (a : archetype) (s' : ac) (i : nat) : Prop := Reserved {
  rs_inv : ac_inv c s';
  rs_arch : ac_archs s' !! i = Some a;
  rs_notfree : i ∉ ac_free_archs s';
  rs_pages : ac_pages s' = ac_pages s;
  rs_p2a : ac_p2a s' = ac_p2a s;
  rs_fpages : ac_free_pages s' = ac_free_pages s;
  rs_pof : ∀ j ps, ac_pages_of s !! j = Some ps → ac_pages_of s' !! j = Some ps;
  rs_pof' : ∀ j ps, ac_pages_of s' !! j = Some ps → ps ≠ [] → ac_pages_of s !! j = Some ps;
  rs_used : ∀ j ps, ac_pages_of s !! j = Some ps → ps ≠ [] →
    ac_archs s' !! j = ac_archs s !! j ∧ ac_layouts s' !! j = ac_layouts s !! j;
  rs_old : ∀ ps, ac_pages_of s' !! i = Some ps → ps ≠ [] → ac_archs s !! i = Some a;
}.
Lemma reserved_arch c s a s' i p pg : ac_inv c s → reserved c s a s' i → ac_pages s !! p = Some pg → pg_ids pg ≠ [] →
  page_arch s' p = page_arch s p.
Proof.
  intros Hi Hr Hp Hne. destruct (ac_used _ _ Hi _ _ Hp Hne) as (j & ps & H1 & H2 & H3).
  unfold page_arch. rewrite (rs_p2a _ _ _ _ _ Hr), H1.
  destruct (rs_used _ _ _ _ _ Hr _ _ H2) as [-> ->]; [|done]. intros ->. by apply elem_of_nil in H3.
Qed.
Lemma reserved_loc c s a s' i : ac_inv c s → reserved c s a s' i → ∀ p k, loc s' p k = loc s p k.
Proof.
  intros Hi Hr. apply (loc_ext c); [done|apply Hr| |].
  - intros p pg Hp Hne. rewrite (rs_pages _ _ _ _ _ Hr). split; [done|]. by eapply reserved_arch.
  - intros p pg. by rewrite (rs_pages _ _ _ _ _ Hr).
Qed.
Lemma reserved_roomy c s a s' i : reserved c s a s' i → healthy_for c s (list_to_set (arch_ids a)) → roomy_at s' i.
Proof.
  intros Hr H ps p pg ly Hps Hp Hpg Hly. rewrite (rs_pages _ _ _ _ _ Hr) in Hpg.
  assert (ps ≠ []) as Hne by (intros ->; by apply elem_of_nil in Hp).
  pose proof (rs_old _ _ _ _ _ Hr _ Hps Hne) as Ha.
  apply (rs_pof' _ _ _ _ _ Hr) in Hps; [|done]. destruct (rs_used _ _ _ _ _ Hr _ _ Hps Hne) as [_ Heq].
  rewrite Heq in Hly. destruct (H i a Ha eq_refl) as [_ Hroom]. eauto.
Qed.

Lemma fmap_of_nat_lookup (l : list nat) j i : (N.of_nat <$> l) !! j = Some (N.of_nat i) → l !! j = Some i.
Proof. rewrite list_lookup_fmap. intros (x & -> & Hx)%fmap_Some. f_equal. lia. Qed.
Lemma of_nat_nodup (l : list nat) : incr (N.of_nat <$> l) → NoDup l.
Proof. intros H%incr_nodup. by apply NoDup_fmap_1 in H. Qed.
Lemma incr_sublist (l1 l2 : list N) : sublist l1 l2 → incr l2 → incr l1.
Proof.
  induction 1 as [|x l1 l2 Hs IH|x l1 l2 Hs IH]; intros Hi; [done| |]; inversion Hi as [|? ? Hi' Hx]; subst.
  - constructor; [by apply IH|]. apply Forall_forall. intros y Hy. rewrite Forall_forall in Hx. apply Hx.
    eapply elem_of_submseteq; [exact Hy|]. by apply sublist_submseteq.
  - by apply IH.
Qed.
Lemma sublist_fmap {A B} (f : A → B) l1 l2 : sublist l1 l2 → sublist (f <$> l1) (f <$> l2).
Proof. induction 1; simpl; by constructor. Qed.
Lemma vpop_sublist {A} (l : list A) : sublist (vpop l) l.
Proof. apply sublist_take. Qed.
Lemma sublist_elem {A} (l1 l2 : list A) x : sublist l1 l2 → x ∈ l1 → x ∈ l2.
Proof. intros H Hx. eapply elem_of_submseteq; [exact Hx|]. by apply sublist_submseteq. Qed.

Lemma sublist_nodup {A} (l1 l2 : list A) : sublist l1 l2 → NoDup l2 → NoDup l1.
Proof.
  induction 1 as [|x l1 l2 Hs IH|x l1 l2 Hs IH]; intros Hn; [done| |]; apply NoDup_cons in Hn as [Hx Hn]; [|by apply IH].
  apply NoDup_cons. split; [|by apply IH]. intros Hin. apply Hx. by eapply sublist_elem.
Qed.

Lemma reserve_archetype_wp c a s U P :
  types_ok (c_ty c) → ac_inv c s → (∀ i, ac_archs s !! i = Some a → found_right c s i) → arch_wf c a → fits c a →
  sat U (reserve_archetype c a s) (λ s' i, reserved c s a s' i) P.
Proof.
  intros Hty Hi Hsort Hwf (ly & Hly & Hcap). unfold reserve_archetype. wp1. wp1.
  pose proof (find_arch_spec (ac_archs s) 0 a) as Hf. destruct (find_arch (ac_archs s) 0 a) as [i|].
  - destruct Hf as (j & x & -> & Hx & Hs). simpl.
    destruct (lookup_lt_is_Some_2 (ac_layouts s) j) as [lx Hlx].
    { rewrite (ac_lay_len _ _ Hi). by eapply lookup_lt_Some. }
    destruct (ac_arch_ok _ _ Hi _ _ _ Hx Hlx) as (Hxwf & _).
    assert (x = a) as -> by (apply (arch_wf_eq c); [done|done|by apply is_same_as_spec]).
    pose proof (Hsort j Hx) as Hfr. unfold found_right in Hfr.
    destruct (c_bs c (N.of_nat <$> ac_free_archs s) (N.of_nat j)) as [n|n].
    + rename Hfr into Hn'. pose proof (lookup_lt_Some _ _ _ Hn') as Hlt.
      unfold vremove. rewrite Hn'. wp. pose proof (ac_farch_nodup _ _ Hi) as Hnd.
      assert (sublist (delete n (ac_free_archs s)) (ac_free_archs s)) as Hsub by apply sublist_delete.
      split; simpl; try done.
      * destruct Hi; split; simpl; try done; [|eapply sublist_nodup; [|done]; done].
        intros k Hk. apply ac_farch_ok0. by eapply sublist_elem.
      * intros (k & Hk)%elem_of_list_lookup. destruct (decide (k < n)%nat).
        -- rewrite lookup_delete_lt in Hk by lia. pose proof (NoDup_lookup _ _ _ _ Hnd Hk Hn'). lia.
        -- rewrite lookup_delete_ge in Hk by lia. pose proof (NoDup_lookup _ _ _ _ Hnd Hk Hn'). lia.
    + wp. by split.
  - rewrite Hly. wp. assert (columns a (ly_offs ly) (ly_cap ly) 0 PAGE) as Hcol.
    { eapply layout_columns; [|exact Hly]. apply Forall_forall. intros x Hx.
      rewrite (arch_wf_elem _ _ _ Hwf Hx). simpl. apply Hty. }
    destruct (last (ac_free_archs s)) as [i|] eqn:El.
    + pose proof (last_snoc_inv _ _ El) as Hsn. set (fr := vpop (ac_free_archs s)) in *. clearbody fr.
      assert (i ∈ ac_free_archs s) as Hin by (rewrite Hsn, elem_of_app, elem_of_list_singleton; auto).
      pose proof (ac_farch_ok _ _ Hi _ Hin) as Hpo. pose proof (lookup_lt_Some _ _ _ Hpo) as Hlt.
      rewrite (ac_pof_len _ _ Hi) in Hlt. pose proof (ac_lay_len _ _ Hi) as Hll.
      assert (vset (ac_archs s) i a = POk (<[i := a]> (ac_archs s))) as Hv1 by (apply vset_ok; done).
      assert (vset (ac_layouts s) i ly = POk (<[i := ly]> (ac_layouts s))) as Hv2 by (apply vset_ok; split; [lia|done]).
      rewrite Hv1. wp. rewrite Hv2. wp. simpl.
      assert (∀ k, k ∈ fr → k ∈ ac_free_archs s) as Hfr by (intros k Hk; rewrite Hsn, elem_of_app; auto).
      assert (i ∉ fr) as Hni.
      { pose proof (ac_farch_nodup _ _ Hi) as Hnd. rewrite Hsn in Hnd. apply NoDup_app in Hnd as (_ & Hd & _).
        intros Hk. apply (Hd _ Hk). by apply elem_of_list_singleton. }
      assert (∀ j ps, ac_pages_of s !! j = Some ps → ps ≠ [] → j ≠ i) as Hused by (intros j ps Hj Hne ->; congruence).
      split; simpl; try done.
      * destruct Hi; split; simpl; rewrite ?insert_length; try done.
        -- intros j b lb. destruct (decide (j = i)) as [->|Hne].
           ++ rewrite !list_lookup_insert by lia. by intros [= <-] [= <-].
           ++ rewrite !list_lookup_insert_ne by done. apply ac_arch_ok0.
        -- auto.
        -- rewrite Hsn in ac_farch_nodup0. by apply NoDup_app in ac_farch_nodup0 as (? & _ & _).
        -- intros p pg j lb Hp Hj Hlb Hne. destruct (ac_used0 _ _ Hp Hne) as (j' & ps & Hj' & Hps & Hin').
           assert (j' = j) as -> by congruence. assert (j ≠ i) by (eapply Hused; [done|]; intros ->; by apply elem_of_nil in Hin').
           rewrite list_lookup_insert_ne in Hlb by done. by eapply ac_rows0.
      * apply list_lookup_insert. done.
      * intros j ps Hj Hne. pose proof (Hused _ _ Hj Hne). rewrite !list_lookup_insert_ne by done. done.
      * intros ps Hj Hne. congruence.
    + apply last_None in El. wp. simpl. pose proof (ac_pof_len _ _ Hi) as Hpl. pose proof (ac_lay_len _ _ Hi) as Hll.
      split; simpl; try done.
      * destruct Hi; split; simpl; rewrite ?app_length; simpl; try lia; try done.
        -- intros j b lb [Hb|[Hge Hb]]%lookup_app_Some [Hlb|[Hge' Hlb]]%lookup_app_Some.
           ++ eauto.
           ++ apply lookup_lt_Some in Hb. lia.
           ++ apply lookup_lt_Some in Hlb. lia.
           ++ apply list_lookup_singleton_Some in Hb as [_ <-], Hlb as [_ <-]. done.
        -- intros j ps p [Hj|[_ Hj]]%lookup_app_Some; [eauto|]. apply list_lookup_singleton_Some in Hj as [_ <-]. by intros ?%elem_of_nil.
        -- intros j ps [Hj|[_ Hj]]%lookup_app_Some; [eauto|]. apply list_lookup_singleton_Some in Hj as [_ <-]. constructor.
        -- intros p j ps Hp [Hj|[_ Hj]]%lookup_app_Some; [eauto|]. apply list_lookup_singleton_Some in Hj as [_ <-]. by intros ?%elem_of_nil.
        -- intros p pg Hp Hne. destruct (ac_used0 _ _ Hp Hne) as (j & ps & ? & ? & ?). exists j, ps. split_and!; try done. by apply lookup_app_l_Some.
        -- rewrite El. by intros j ?%elem_of_nil.
        -- intros p pg j lb Hp Hj [Hlb|[Hge Hlb]]%lookup_app_Some Hne; [by eapply ac_rows0|].
           destruct (ac_used0 _ _ Hp Hne) as (j' & ps & Hj' & Hps%lookup_lt_Some & Hin'). assert (j' = j) as -> by congruence. lia.
      * rewrite lookup_app_r by lia. by rewrite Nat.sub_diag.
      * rewrite El. apply not_elem_of_nil.
      * intros j ps Hj. by apply lookup_app_l_Some.
      * intros j ps [Hj|[_ Hj]]%lookup_app_Some Hne; [done|]. apply list_lookup_singleton_Some in Hj as [_ <-]. done.
      * intros j ps Hj%lookup_lt_Some Hne. rewrite !lookup_app_l by lia. done.
      * intros ps [Hj|[_ Hj]]%lookup_app_Some Hne; [apply lookup_lt_Some in Hj; lia|].
        apply list_lookup_singleton_Some in Hj as [_ <-]. done.
Qed.

(** ** reserve_page *)
Record placed (c : cfg) (s : ac) (i : nat) (id : N) (s' : ac) (p k : nat) : Prop := Placed {
  pl_inv : ac_inv c s';
  pl_archs : ac_archs s' = ac_archs s;
  pl_layouts : ac_layouts s' = ac_layouts s;
  pl_p2a : ac_p2a s' !! p = Some i;
  pl_fresh : loc s p k = None;
  pl_loc : ∀ p' k', (p', k') ≠ (p, k) → loc s' p' k' = loc s p' k';
  pl_new : ∃ m, loc s' p k = Some (id, m);
  pl_last : ∃ pg, ac_pages s' !! p = Some pg ∧ length (pg_ids pg) = S k;
  pl_used : ∀ p' pg, ac_pages s !! p' = Some pg → pg_ids pg ≠ [] → page_arch s' p' = page_arch s p';
  pl_pages : ∀ p' pg, ac_pages s !! p' = Some pg → ∃ pg', ac_pages s' !! p' = Some pg';
}.

Lemma find_room_spec pages ps : (∀ p, p ∈ ps → is_Some (pages !! p)) →
  find_room pages ps = POk None ∨
  ∃ p pg, find_room pages ps = POk (Some p) ∧ p ∈ ps ∧ pages !! p = Some pg ∧ has_free_space pg = true.
Proof.
  induction ps as [|p ps IH]; intros H; simpl; [by left|].
  destruct (H p ltac:(by left)) as [pg Hpg]. unfold vidx. rewrite Hpg. unfold mbind, pres_bind.
  destruct (has_free_space pg) eqn:E.
  - right. exists p, pg. split_and!; try done. by left.
  - destruct IH as [->|(p' & pg' & -> & Hin & ? & ?)]; [intros; apply H; by right|by left|].
    right. exists p', pg'. split_and!; try done. by right.
Qed.

Lemma ac_page_add_wp c p id s pg i ps ly U P : ac_inv c s → ac_pages s !! p = Some pg → has_free_space pg = true →
  ac_pages_of s !! i = Some ps → p ∈ ps → ac_layouts s !! i = Some ly → N.of_nat (length (pg_ids pg)) < ly_cap ly →
  sat U (ac_page_add c p id s) (λ s' l, ea_page l = p ∧ placed c s i id s' p (ea_idx l)) P.
Proof.
  intros Hi Hpg Hfs Hps Hin Hly Hlt. unfold ac_page_add. wp1. wp1. wp1. wp1. unfold vidx. rewrite Hpg. unfold psat.
  wp1. wp1. unfold page_add. rewrite Hfs. assert (dassertP (c_mode c) (POk true) = POk ()) as -> by by destruct (c_mode c).
  wp. simpl. split; [done|].
  pose proof (ac_pof_p2a _ _ Hi _ _ _ Hps Hin) as Hp2a. pose proof (lookup_lt_Some _ _ _ Hpg) as Hplt.
  destruct (lookup_lt_is_Some_2 (ac_archs s) i) as [a Ha].
  { rewrite <- (ac_pof_len _ _ Hi). by eapply lookup_lt_Some. }
  set (pg' := Page (pg_ids pg ++ [id]) (pg_vcap pg) (pg_mem pg)).
  set (s' := ac_set_pages (<[p:=pg']> (ac_pages s)) s).
  assert (page_arch s' = page_arch s) as Hpa by done.
  assert (ac_inv c s') as Hi'.
  { pose proof Hi as Hi0. destruct Hi; split; simpl; rewrite ?insert_length; try done.
    - intros q Hq. destruct (ac_free_empty0 _ Hq) as (pgq & Hpgq & Hnil). exists pgq. split; [|done].
      rewrite list_lookup_insert_ne; [done|]. intros <-. by eapply ac_free_unused0.
    - intros q pgq Hq Hne. destruct (decide (q = p)) as [->|Hqp]; [eauto|].
      rewrite list_lookup_insert_ne in Hq by done. eauto.
    - intros q pgq j lj Hq Hj Hlj Hne. destruct (decide (q = p)) as [->|Hqp].
      + rewrite list_lookup_insert in Hq by done. injection Hq as <-. simpl. assert (j = i) as -> by congruence.
        assert (lj = ly) as -> by congruence. rewrite app_length. simpl. lia.
      + rewrite list_lookup_insert_ne in Hq by done. eauto. }
  split; try done.
  - destruct (loc s p (page_count pg)) as [[id' m']|] eqn:El; [|done].
    apply loc_Some in El as (pg1 & _ & _ & _ & Hpg1 & _ & _ & _ & Hk & _). assert (pg1 = pg) as -> by congruence.
    apply lookup_lt_Some in Hk. unfold page_count in Hk. lia.
  - intros q k Hne. unfold loc. rewrite Hpa. simpl. destruct (decide (q = p)) as [->|Hqp].
    + rewrite list_lookup_insert, Hpg by done. simpl. destruct (page_arch s p) as [[? ?]|]; [|done].
      destruct (decide (k < length (pg_ids pg))%nat).
      * by rewrite lookup_app_l.
      * rewrite !lookup_ge_None_2; [done|lia|]. rewrite app_length. simpl.
        assert (k ≠ length (pg_ids pg)); [|lia]. intros ->. by apply Hne.
    + rewrite list_lookup_insert_ne by done. done.
  - eexists. apply loc_Some. exists pg', i, a, ly. simpl. rewrite list_lookup_insert by done. split_and!; try done.
    unfold page_count. rewrite lookup_app_r by lia. by rewrite Nat.sub_diag.
  - exists pg'. simpl. rewrite list_lookup_insert by done. split; [done|]. rewrite app_length. unfold page_count. simpl. lia.
  - intros q pgq Hq. simpl. destruct (decide (q = p)) as [->|Hqp].
    + rewrite list_lookup_insert by done. eauto.
    + rewrite list_lookup_insert_ne by done. eauto.
Qed.

(** A page that belongs to no archetype. *)
Definition unattached (s : ac) (p : nat) (pg : page) : Prop :=
  ac_pages s !! p = Some pg ∧ pg_ids pg = [] ∧ p ∉ ac_free_pages s ∧
  ∀ j ps, ac_pages_of s !! j = Some ps → p ∉ ps.
Definition attach (c : cfg) (p i : nat) (pg : page) (ly : layout) (ps : list nat) (s : ac) : ac :=
  ac_set_p2a (<[p := i]> (ac_p2a s)) (ac_set_pages_of (<[i := ps ++ [p]]> (ac_pages_of s))
    (ac_set_pages (<[p := page_set_layout c pg ly]> (ac_pages s)) s)).
Lemma set_layout_ids c pg ly : pg_ids (page_set_layout c pg ly) = pg_ids pg.
Proof. unfold page_set_layout. by case_match. Qed.
Lemma set_layout_room c pg ly : grow_ok (c_grow c) → pg_ids pg = [] → 1 ≤ ly_cap ly → ly_cap ly ≤ pg_vcap (page_set_layout c pg ly).
Proof.
  intros Hg Hn Hc. unfold page_set_layout, page_count. rewrite Hn. simpl. rewrite N.sub_0_r.
  destruct (N.ltb_spec (pg_vcap pg) (ly_cap ly)); simpl; [apply Hg|lia].
Qed.
Lemma attach_inv c p i pg ly ps s : ac_inv c s → unattached s p pg → ac_pages_of s !! i = Some ps →
  i ∉ ac_free_archs s → ac_inv c (attach c p i pg ly ps s).
Proof.
  intros Hi (Hp & Hnil & Hnf & Hun) Hps Hfr. pose proof (lookup_lt_Some _ _ _ Hp) as Hplt.
  pose proof (lookup_lt_Some _ _ _ Hps) as Hilt. pose proof (ac_p2a_len _ _ Hi) as Hpl.
  destruct Hi; split; simpl; rewrite ?insert_length; try done.
  - intros j ps' q. destruct (decide (j = i)) as [->|Hj].
    + rewrite list_lookup_insert by done. intros [= <-] [Hq| ->%elem_of_list_singleton]%elem_of_app.
      * rewrite list_lookup_insert_ne; [eauto|]. intros <-. by eapply Hun.
      * by rewrite list_lookup_insert by lia.
    + rewrite list_lookup_insert_ne by done. intros Hj' Hq. rewrite list_lookup_insert_ne; [eauto|]. intros <-. by eapply Hun.
  - intros j ps'. destruct (decide (j = i)) as [->|Hj].
    + rewrite list_lookup_insert by done. intros [= <-]. apply NoDup_app. split_and!; [eauto| |apply NoDup_singleton].
      intros q Hq ->%elem_of_list_singleton. by eapply Hun.
    + rewrite list_lookup_insert_ne by done. eauto.
  - intros q Hq. destruct (ac_free_empty0 _ Hq) as (pgq & Hpgq & Hn). rewrite list_lookup_insert_ne by (intros <-; done). eauto.
  - intros q j ps' Hq. destruct (decide (j = i)) as [->|Hj].
    + rewrite list_lookup_insert by done. intros [= <-] [Hq'| ->%elem_of_list_singleton]%elem_of_app; [by eapply ac_free_unused0|done].
    + rewrite list_lookup_insert_ne by done. eauto.
  - intros q pgq Hq Hne. destruct (decide (q = p)) as [->|Hqp].
    + rewrite list_lookup_insert in Hq by done. injection Hq as <-. rewrite set_layout_ids in Hne. done.
    + rewrite list_lookup_insert_ne in Hq by done. destruct (ac_used0 _ _ Hq Hne) as (j & ps' & H1 & H2 & H3).
      rewrite list_lookup_insert_ne by done. destruct (decide (j = i)) as [->|Hj].
      * exists i, (ps ++ [p]). rewrite list_lookup_insert by done. split_and!; [done|done|]. assert (ps' = ps) as -> by congruence.
        apply elem_of_app. by left.
      * exists j, ps'. rewrite list_lookup_insert_ne by done. done.
  - intros j Hj. rewrite list_lookup_insert_ne; [eauto|]. intros <-. done.
  - intros q pgq j lj Hq Hj Hlj Hne. destruct (decide (q = p)) as [->|Hqp].
    + rewrite list_lookup_insert in Hq by done. injection Hq as <-. rewrite set_layout_ids in Hne. done.
    + rewrite list_lookup_insert_ne in Hq by done. rewrite list_lookup_insert_ne in Hj by done. eauto.
Qed.
Lemma attach_arch c p i pg ly ps s q : q ≠ p → page_arch (attach c p i pg ly ps s) q = page_arch s q.
Proof. intros H. unfold page_arch. simpl. by rewrite list_lookup_insert_ne by done. Qed.
Lemma attach_loc c p i pg ly ps s : ac_inv c s → unattached s p pg → ac_pages_of s !! i = Some ps →
  i ∉ ac_free_archs s → ∀ q k, loc (attach c p i pg ly ps s) q k = loc s q k.
Proof.
  intros Hi Hu Hps Hfr. apply (loc_ext c); [done|by apply attach_inv| |].
  - intros q pgq Hq Hne. destruct Hu as (Hp & Hnil & _). assert (q ≠ p) by congruence. simpl.
    rewrite list_lookup_insert_ne by done. split; [done|]. by apply attach_arch.
  - simpl. intros q pgq Hq Hne. destruct Hu as (Hp & Hnil & _). destruct (decide (q = p)) as [->|Hqp].
    + rewrite list_lookup_insert in Hq by by eapply lookup_lt_Some. injection Hq as <-. rewrite set_layout_ids in Hne. done.
    + by rewrite list_lookup_insert_ne in Hq.
Qed.

Lemma reserve_page_wp c id i s ly U P : grow_ok (c_grow c) → ac_inv c s → roomy_at s i → ac_layouts s !! i = Some ly →
  1 ≤ ly_cap ly → i ∉ ac_free_archs s →
  sat U (reserve_page c id i s) (λ s' l, placed c s i id s' (ea_page l) (ea_idx l)) P.
Proof.
  intros Hgrow Hi Hroom Hly Hcap Hfr. unfold reserve_page. wp1. wp1. wp1. wp1.
  destruct (lookup_lt_is_Some_2 (ac_pages_of s) i) as [ps Hps].
  { rewrite (ac_pof_len _ _ Hi), <- (ac_lay_len _ _ Hi). by eapply lookup_lt_Some. }
  unfold vidx. rewrite Hps. unfold psat. wp1. wp1.
  destruct (find_room_spec (ac_pages s) (reverse ps)) as [->|(p & pg & -> & Hin & Hpg & Hfs)].
  { intros p Hin. rewrite elem_of_reverse in Hin. apply lookup_lt_is_Some. rewrite <- (ac_p2a_len _ _ Hi). eapply lookup_lt_Some.
    exact (ac_pof_p2a _ _ Hi _ _ _ Hps Hin). }
  - unfold psat.
    assert (∀ pi pg s1, ac_inv c s1 → unattached s1 pi pg → (∀ q k, loc s1 q k = loc s q k) →
       ac_archs s1 = ac_archs s → ac_layouts s1 = ac_layouts s → ac_pages_of s1 = ac_pages_of s →
       ac_free_archs s1 = ac_free_archs s →
       (∀ q pgq, ac_pages s !! q = Some pgq → pg_ids pgq ≠ [] → page_arch s1 q = page_arch s q ∧ ac_pages s1 !! q = Some pgq) →
       (∀ q pgq, ac_pages s !! q = Some pgq → ac_pages s1 !! q = Some pgq) →
       sat U ((s ← getS; ly ← lift (vidx (ac_layouts s) i); p ← lift (vidx (ac_pages s) pi);
         _ ← modS (ac_set_pages (<[pi := page_set_layout c p ly]> (ac_pages s)));
         ps ← lift (vidx (ac_pages_of s) i);
         _ ← modS (ac_set_pages_of (<[i := ps ++ [pi]]> (ac_pages_of s)));
         p2a ← lift (vset (ac_p2a s) pi i);
         _ ← modS (ac_set_p2a p2a);
         ac_page_add c pi id) s1) (λ s' l, placed c s i id s' (ea_page l) (ea_idx l)) P) as Hrest.
    { intros pi pg s1 Hi1 Hu Hloc Ha1 Hl1 Hp1 Hf1 Hused Hpgs. do 4 wp1. unfold vidx at 1. rewrite Hl1, Hly. unfold psat.
      wp1. wp1. pose proof Hu as (Hpg & Hnil & Hnf & Hun). unfold vidx at 1. rewrite Hpg. unfold psat. do 4 wp1. simpl.
      unfold vidx at 1. rewrite Hp1, Hps. unfold psat. do 4 wp1. simpl.
      assert (vset (ac_p2a s1) pi i = POk (<[pi := i]> (ac_p2a s1))) as ->.
      { apply vset_ok. split; [|done]. rewrite (ac_p2a_len _ _ Hi1). by eapply lookup_lt_Some. }
      unfold psat. do 2 wp1.
      match goal with |- sat _ (_ ?S) _ _ => replace S with (attach c pi i pg ly ps s1) by (unfold attach; rewrite Hp1; reflexivity) end.
      assert (ac_inv c (attach c pi i pg ly ps s1)) as Hi2 by (apply attach_inv; [done|done|by rewrite Hp1|by rewrite Hf1]).
      pose proof (lookup_lt_Some _ _ _ Hpg) as Hplt.
      assert (ac_pages (attach c pi i pg ly ps s1) !! pi = Some (page_set_layout c pg ly)) as Hnew by (simpl; by apply list_lookup_insert).
      assert (∀ q k, loc (attach c pi i pg ly ps s1) q k = loc s q k) as Hl2.
      { intros q k. rewrite attach_loc, Hloc; [done|done|done|by rewrite Hp1|by rewrite Hf1]. }
      eapply sat_mono; [eapply (ac_page_add_wp c pi id _ _ i (ps ++ [pi]) ly U P Hi2 Hnew)| |done].
      - unfold has_free_space, page_count. rewrite set_layout_ids, Hnil. simpl. apply N.ltb_lt.
        pose proof (set_layout_room c pg ly Hgrow Hnil Hcap). lia.
      - simpl. rewrite Hp1. apply list_lookup_insert. by eapply lookup_lt_Some.
      - apply elem_of_app. right. by apply elem_of_list_singleton.
      - simpl. by rewrite Hl1.
      - rewrite set_layout_ids, Hnil. simpl. lia.
      - simpl. intros s' l [-> Hpl]. split.
        + apply Hpl.
        + rewrite (pl_archs _ _ _ _ _ _ _ Hpl). simpl. done.
        + rewrite (pl_layouts _ _ _ _ _ _ _ Hpl). simpl. done.
        + apply Hpl.
        + rewrite <- Hl2. apply Hpl.
        + intros q k Hne. rewrite (pl_loc _ _ _ _ _ _ _ Hpl) by done. apply Hl2.
        + apply Hpl.
        + apply Hpl.
        + intros q pgq Hq Hne. destruct (Hused _ _ Hq Hne) as [<- Hq1]. assert (q ≠ pi) by congruence.
          rewrite <- (attach_arch c pi i pg ly ps s1 q) by done.
          eapply (pl_used _ _ _ _ _ _ _ Hpl); [|done]. simpl. by rewrite list_lookup_insert_ne.
        + intros q pgq Hq%Hpgs. destruct (decide (q = pi)) as [->|Hqp].
          * eapply (pl_pages _ _ _ _ _ _ _ Hpl). done.
          * eapply (pl_pages _ _ _ _ _ _ _ Hpl). simpl. by rewrite list_lookup_insert_ne. }
    destruct (last (ac_free_pages s)) as [pi|] eqn:El.
    + do 4 wp1. pose proof (last_snoc_inv _ _ El) as Hsn. set (fr := vpop (ac_free_pages s)) in *. clearbody fr.
      assert (pi ∈ ac_free_pages s) as Hpf by (rewrite Hsn, elem_of_app, elem_of_list_singleton; auto).
      destruct (ac_free_empty _ _ Hi _ Hpf) as (pg & Hpg & Hnil).
      assert (∀ q, q ∈ fr → q ∈ ac_free_pages s) as Hsub by (intros q Hq; rewrite Hsn, elem_of_app; auto).
      apply (Hrest pi pg); try done.
      * pose proof (ac_free_nodup _ _ Hi) as Hnd. rewrite Hsn in Hnd. apply NoDup_app in Hnd as (Hnd & _ & _).
        destruct Hi; split; simpl; try done; eauto.
      * split_and!; [done|done| |].
        -- pose proof (ac_free_nodup _ _ Hi) as Hnd. rewrite Hsn in Hnd. apply NoDup_app in Hnd as (_ & Hd & _).
           simpl. intros Hq. apply (Hd _ Hq). by apply elem_of_list_singleton.
        -- simpl. intros j ps' Hj. by eapply ac_free_unused.
    + do 5 wp1. unfold vinsert. pose proof (ac_p2a_len _ _ Hi) as Hpl.
      assert (Nat.leb (length (ac_pages s)) (length (ac_p2a s)) = true) as -> by (apply Nat.leb_le; lia).
      unfold psat. do 3 wp1. rewrite take_ge, drop_ge by lia.
      assert (∀ q pgq, ac_pages s !! q = Some pgq → (ac_pages s ++ [page_new]) !! q = Some pgq) as Hpgs.
      { intros q pgq Hq. by apply lookup_app_l_Some. }
      match goal with |- sat _ (_ ?S) _ _ => set (s1 := S) end.
      assert (ac_inv c s1) as Hi1.
      { pose proof Hi as Hi0. destruct Hi; split; simpl; rewrite ?app_length; simpl; try lia; try done.
        - intros j ps' q Hj Hq. apply lookup_app_l_Some. eauto.
        - intros q Hq. destruct (ac_free_empty0 _ Hq) as (pgq & ? & ?). eauto.
        - intros q pgq [Hq|[_ Hq]]%lookup_app_Some Hne.
          + destruct (ac_used0 _ _ Hq Hne) as (j & ps' & ? & ? & ?). exists j, ps'. split_and!; try done. by apply lookup_app_l_Some.
          + apply list_lookup_singleton_Some in Hq as [_ <-]. done.
        - intros q pgq j lj [Hq|[_ Hq]]%lookup_app_Some Hj Hlj Hne.
          + rewrite lookup_app_l in Hj by (rewrite ac_p2a_len0; by eapply lookup_lt_Some). eauto.
          + apply list_lookup_singleton_Some in Hq as [_ <-]. done. }
      assert (∀ q pgq, ac_pages s !! q = Some pgq → page_arch s1 q = page_arch s q) as Hpa.
      { intros q pgq Hq%lookup_lt_Some. unfold page_arch. simpl. rewrite lookup_app_l by lia. done. }
      apply (Hrest _ page_new); try done.
      * split_and!; [|done| |].
        -- simpl. rewrite lookup_app_r by lia. by rewrite Nat.sub_diag.
        -- simpl. intros (pg & Hpg%lookup_lt_Some & _)%(ac_free_empty _ _ Hi). lia.
        -- simpl. intros j ps' Hj Hq%(ac_pof_p2a _ _ Hi _ _ _ Hj)%lookup_lt_Some. lia.
      * apply (loc_ext c); [done|done| |].
        -- intros q pgq Hq Hne. split; [simpl; auto|]. eauto.
        -- simpl. intros q pgq [Hq|[_ Hq]]%lookup_app_Some Hne; [done|]. apply list_lookup_singleton_Some in Hq as [_ <-]. done.
      * simpl. intros q pgq Hq Hne. split; [eauto|auto].
  - unfold psat. rewrite elem_of_reverse in Hin. eapply sat_mono; [eapply (ac_page_add_wp c p id s pg i ps ly U P)| |done]; try done.
    + eapply Hroom; try done. by apply N.ltb_lt in Hfs.
    + simpl. intros s' l [-> H]. done.
Qed.

(** ** add_entity *)
Record added (c : cfg) (s : ac) (id : N) (a : archetype) (s' : ac) (p k : nat) : Prop := Added {
  ad_inv : ac_inv c s';
  ad_fresh : loc s p k = None;
  ad_loc : ∀ p' k', (p', k') ≠ (p, k) → loc s' p' k' = loc s p' k';
  ad_new : ∃ m, loc s' p k = Some (id, m) ∧ ∀ t, is_Some (m !! t) ↔ t ∈ arch_ids a;
  ad_p2a : ∃ i, ac_p2a s' !! p = Some i ∧ ac_archs s' !! i = Some a;
  ad_used : ∀ p' pg, ac_pages s !! p' = Some pg → pg_ids pg ≠ [] → page_arch s' p' = page_arch s p';
}.
(** The components of a location are those of its page's archetype. *)
Lemma loc_dom c s p k id m i a : ac_inv c s → loc s p k = Some (id, m) → ac_p2a s !! p = Some i → ac_archs s !! i = Some a →
  ∀ t, is_Some (m !! t) ↔ t ∈ arch_ids a.
Proof.
  intros Hi (pg & i' & a' & ly & Hp & Hi' & Ha & Hly & Hk & ->)%loc_Some H1 H2 t. simplify_eq.
  destruct (ac_arch_ok _ _ Hi _ _ _ Ha Hly) as ((Hinc & _) & (Hl & _) & _). apply row_map_dom; [by apply incr_nodup|done].
Qed.
Lemma ac_add_entity_wp c id a s U P : cfg_ok c → ac_inv c s → healthy_for c s (list_to_set (arch_ids a)) → arch_wf c a → fits c a →
  sat U (ac_add_entity c id a s) (λ s' l, added c s id a s' (ea_page l) (ea_idx l)) P.
Proof.
  intros [Hbs Hgr Hty] Hi Hh Hwf Hfit. unfold ac_add_entity. wp1.
  eapply sat_mono; [apply reserve_archetype_wp; try done; intros j Hj; by eapply Hh| |done]. intros s1 i Hr. simpl.
  pose proof (rs_inv _ _ _ _ _ Hr) as Hi1. pose proof (rs_arch _ _ _ _ _ Hr) as Ha.
  destruct (lookup_lt_is_Some_2 (ac_layouts s1) i) as [ly Hly].
  { rewrite (ac_lay_len _ _ Hi1). by eapply lookup_lt_Some. }
  destruct (ac_arch_ok _ _ Hi1 _ _ _ Ha Hly) as (_ & _ & Hcap).
  eapply sat_mono; [eapply reserve_page_wp; try done| |done].
  { by eapply reserved_roomy. } { apply Hr. }
  simpl. intros s2 l Hpl. pose proof (reserved_loc _ _ _ _ _ Hi Hr) as Hloc. split.
  - apply Hpl.
  - rewrite <- Hloc. apply Hpl.
  - intros p' k' Hne. rewrite <- Hloc. by apply Hpl.
  - destruct (pl_new _ _ _ _ _ _ _ Hpl) as [m Hm]. exists m. split; [done|]. eapply loc_dom; [apply Hpl|done|apply Hpl|].
    by rewrite (pl_archs _ _ _ _ _ _ _ Hpl).
  - exists i. split; [apply Hpl|]. by rewrite (pl_archs _ _ _ _ _ _ _ Hpl).
  - intros p' pg Hp' Hne. rewrite <- (reserved_arch _ _ _ _ _ _ _ Hi Hr Hp' Hne).
    eapply (pl_used _ _ _ _ _ _ _ Hpl); [|done]. by rewrite (rs_pages _ _ _ _ _ Hr).
Qed.

(** ** swap_remove_entity *)
Lemma position_nat_elem x l : x ∈ l → ∃ i, position_nat x l = Some i ∧ l !! i = Some x.
Proof.
  induction l as [|y l IH]; [by intros ?%elem_of_nil|]. simpl. intros Hx. destruct (Nat.eqb_spec y x) as [->|Hne]; [by exists 0%nat|].
  apply elem_of_cons in Hx as [->|Hx]; [done|]. destruct (IH Hx) as (i & -> & Hi). by exists (S i).
Qed.
Lemma delete_nodup {A} (l : list A) i x y : NoDup l → l !! i = Some x → y ∈ delete i l ↔ y ∈ l ∧ y ≠ x.
Proof.
  intros Hnd Hi. pose proof (delete_Permutation _ _ _ Hi) as Hp. set (d := delete i l) in *. clearbody d. rewrite Hp in Hnd |- *.
  apply NoDup_cons in Hnd as [Hni _]. rewrite elem_of_cons. naive_solver.
Qed.
Lemma free_page_wp c p s pg U P : ac_inv c s → ac_pages s !! p = Some pg → pg_ids pg = [] →
  (∃ i ps, ac_p2a s !! p = Some i ∧ ac_pages_of s !! i = Some ps ∧ p ∈ ps) →
  sat U (free_page p s) (λ s' _, ac_inv c s' ∧ (∀ q k, loc s' q k = loc s q k)) P.
Proof.
  intros Hi Hp Hnil (i & ps & H1 & H2 & H3). unfold free_page. do 4 wp1. unfold vidx at 1. rewrite H1. unfold psat.
  destruct (Nat.eqb_spec i 0) as [->|Hi0]; [wp; done|]. do 2 wp1. unfold vidx. rewrite H2. unfold psat.
  destruct (position_nat_elem _ _ H3) as (j & -> & Hj). pose proof (ac_pof_nodup _ _ Hi _ _ H2) as Hnd.
  pose proof (λ y, delete_nodup _ _ _ y Hnd Hj) as Hdel.
  pose proof (lookup_lt_Some _ _ _ H2) as Hilt.
  assert (∀ fa, NoDup fa → (∀ k, k ∈ fa → k ∈ ac_free_archs s ∨ k = i ∧ delete j ps = []) →
    ac_inv c (ac_set_free_pages (ac_free_pages s ++ [p]) (ac_set_free_archs fa
       (ac_set_pages_of (<[i := delete j ps]> (ac_pages_of s)) s)))) as Hinv.
  { intros fa Hfn Hfa. pose proof Hi as Hi1. destruct Hi; split; simpl; rewrite ?insert_length; try done.
    - intros k qs q. destruct (decide (k = i)) as [->|Hk].
      + rewrite list_lookup_insert by done. intros [= <-] [Hq _]%Hdel. eauto.
      + rewrite list_lookup_insert_ne by done. eauto.
    - intros k qs. destruct (decide (k = i)) as [->|Hk].
      + rewrite list_lookup_insert by done. intros [= <-]. rewrite (delete_Permutation _ _ _ Hj) in Hnd. by apply NoDup_cons in Hnd as [_ ?].
      + rewrite list_lookup_insert_ne by done. eauto.
    - apply NoDup_app. split_and!; [done| |apply NoDup_singleton].
      intros q Hq ->%elem_of_list_singleton. by eapply ac_free_unused0.
    - intros q [Hq| ->%elem_of_list_singleton]%elem_of_app; eauto.
    - intros q k qs Hq. destruct (decide (k = i)) as [->|Hk].
      + rewrite list_lookup_insert by done. intros [= <-] [Hq' Hqp]%Hdel.
        apply elem_of_app in Hq as [Hq| ->%elem_of_list_singleton]; [by eapply ac_free_unused0|done].
      + rewrite list_lookup_insert_ne by done. intros Hqs Hq'. apply elem_of_app in Hq as [Hq| ->%elem_of_list_singleton].
        * by eapply ac_free_unused0.
        * pose proof (ac_pof_p2a0 _ _ _ Hqs Hq'). congruence.
    - intros q pgq Hq Hne. destruct (ac_used0 _ _ Hq Hne) as (k & qs & A1 & A2 & A3). destruct (decide (k = i)) as [->|Hk].
      + exists i, (delete j ps). rewrite list_lookup_insert by done. split_and!; [done|done|]. assert (qs = ps) as -> by congruence.
        apply Hdel. split; [done|]. intros ->. congruence.
      + exists k, qs. by rewrite list_lookup_insert_ne.
    - intros k [Hk|[-> Hd]]%Hfa.
      + rewrite list_lookup_insert_ne; [eauto|]. intros <-. apply ac_farch_ok0 in Hk. assert (ps = []) as -> by congruence. by apply elem_of_nil in H3.
      + rewrite list_lookup_insert by done. by rewrite Hd. }
  assert (∀ fa, ac_inv c (ac_set_free_pages (ac_free_pages s ++ [p]) (ac_set_free_archs fa
       (ac_set_pages_of (<[i := delete j ps]> (ac_pages_of s)) s))) →
    ∀ q k, loc (ac_set_free_pages (ac_free_pages s ++ [p]) (ac_set_free_archs fa
       (ac_set_pages_of (<[i := delete j ps]> (ac_pages_of s)) s))) q k = loc s q k) as Hloc.
  { intros fa Hi'. apply (loc_ext c); try done. }
  do 3 wp1. destruct (Nat.eqb_spec (length (delete j ps)) 0) as [H0|H0].
  - assert (ac_inv c (ac_set_free_pages (ac_free_pages s ++ [p]) (ac_set_free_archs (ac_free_archs s ++ [i])
       (ac_set_pages_of (<[i := delete j ps]> (ac_pages_of s)) s)))) as Hi'.
    { apply Hinv.
      - apply NoDup_app. split_and!; [apply Hi| |apply NoDup_singleton]. intros k Hk ->%elem_of_list_singleton.
        apply (ac_farch_ok _ _ Hi) in Hk. assert (ps = []) as -> by congruence. by apply elem_of_nil in H3.
      - intros k [Hk| ->%elem_of_list_singleton]%elem_of_app; auto. right. split; [done|]. by apply nil_length_inv. }
    wp. simpl. split; [done|by apply Hloc].
  - wp. simpl. pose proof (ac_farch_nodup _ _ Hi). split; [apply (Hinv (ac_free_archs s))|apply (Hloc (ac_free_archs s)), Hinv]; auto.
Qed.
(** When the last page of a list is removed, lookups before the end. *)
Lemma vswap_remove_spec {A} (l : list A) k x : l !! k = Some x → ∃ n y l', length l = S n ∧ l !! n = Some y ∧
  vswap_remove l k = POk l' ∧ length l' = n ∧ (∀ j, l' !! j = if decide (j < n)%nat then if decide (j = k) then Some y else l !! j else None).
Proof.
  intros Hk. pose proof (lookup_lt_Some _ _ _ Hk) as Hlt. destruct (length l) as [|n] eqn:El; [lia|].
  destruct (lookup_lt_is_Some_2 l n) as [y Hy]; [lia|]. exists n, y. unfold vswap_remove. rewrite Hk.
  assert (last l = Some y) as -> by (by rewrite last_lookup, El). eexists. split_and!; [done|done|done| |].
  - unfold vpop. rewrite take_length, insert_length, El. simpl. lia.
  - intros j. unfold vpop. rewrite insert_length, El. simpl. destruct (decide (j < n)%nat).
    + rewrite lookup_take by done. destruct (decide (j = k)) as [->|Hne].
      * apply list_lookup_insert. lia.
      * by apply list_lookup_insert_ne.
    + apply lookup_take_ge. lia.
Qed.

Record removed (c : cfg) (s : ac) (p k : nat) (s' : ac) (r : option N) : Prop := Removed {
  rm_inv : ac_inv c s';
  rm_other : ∀ p' k', p' ≠ p → loc s' p' k' = loc s p' k';
  rm_page : ∃ n idn mn, loc s p n = Some (idn, mn) ∧ (k ≤ n)%nat ∧ r = (if decide (k < n)%nat then Some idn else None) ∧
    (∀ j, loc s' p j = if decide (j < n)%nat then if decide (j = k) then Some (idn, mn) else loc s p j else None) ∧
    (∀ j, (n < j)%nat → loc s p j = None);
}.
Lemma ac_swap_remove_wp c p k s id m U P : ac_inv c s → loc s p k = Some (id, m) →
  sat U (ac_swap_remove (Eia p k) s) (λ s' r, removed c s p k s' r) P.
Proof.
  intros Hi Hl. apply loc_Some in Hl as (pg & i & a & ly & Hp & H1 & Ha & Hly & Hk & ->).
  unfold ac_swap_remove. simpl. do 4 wp1. unfold vidx at 1. rewrite H1. unfold psat. do 2 wp1. unfold vidx at 1. rewrite Hp. unfold psat.
  do 2 wp1. unfold vidx at 1. rewrite Ha. unfold psat. do 2 wp1. unfold vidx at 1. rewrite Hly. unfold psat. do 2 wp1.
  assert (pg_ids pg ≠ []) as Hne by (intros Hn; by rewrite Hn in Hk).
  destruct (used_facts _ _ _ _ Hi Hp Hne) as (i' & ps & a' & ly' & H1' & H2 & H3 & Ha' & Hly' & Hwf & Hcol & Hcap & Hrows).
  assert (i' = i) as -> by congruence. assert (a' = a) as -> by congruence. assert (ly' = ly) as -> by congruence. clear H1' Ha' Hly'.
  pose proof (incr_nodup _ (proj1 Hwf)) as Hnd. pose proof (lookup_lt_Some _ _ _ Hk) as Hkl. pose proof (lookup_lt_Some _ _ _ Hp) as Hpl.
  destruct (vswap_remove_spec _ _ _ Hk) as (n & y & ids & Hn & Hy & Hsw & Hlen & Hlk).
  assert (∃ pg' r, page_swap_remove pg k a ly = POk (pg', r) ∧ pg_ids pg' = ids ∧ r = (if decide (k < n)%nat then Some y else None) ∧
    (∀ j, (j < n)%nat → row_map a (ly_offs ly) (pg_mem pg') j =
       if decide (j = k) then row_map a (ly_offs ly) (pg_mem pg) n else row_map a (ly_offs ly) (pg_mem pg) j)) as (pg' & r & Hrun & Hids & Hr & Hmap).
  { unfold page_swap_remove. rewrite Hsw. unfold mbind at 1, pres_bind at 1. rewrite Hlen. destruct (Nat.ltb_spec k n) as [Hlt|Hge].
    - destruct (move_component_spec (pg_mem pg) n k a (ly_offs ly) (ly_cap ly) Hnd Hcol) as (m' & Hm & He & Ho); [lia|lia|lia|].
      rewrite Hm. unfold mbind, pres_bind. unfold vidx. rewrite Hlk, !decide_True by done.
      eexists (Page ids (pg_vcap pg) m'), _. split; [reflexivity|]. split; [done|]. split; [done|]. simpl. intros j Hj.
      destruct (decide (j = k)) as [->|Hjk]; [done|]. apply Ho; [lia|done].
    - eexists (Page ids (pg_vcap pg) (pg_mem pg)), _. split; [reflexivity|]. split; [done|]. rewrite decide_False by lia. split; [done|].
      simpl. intros j Hj. rewrite decide_False by lia. done. }
  rewrite Hrun. unfold psat. do 3 wp1. simpl.
  set (s1 := ac_set_pages (<[p:=pg']> (ac_pages s)) s).
  assert (page_arch s1 = page_arch s) as Hpa by done.
  assert (ac_pages s1 !! p = Some pg') as Hp1 by by apply list_lookup_insert.
  assert (ac_inv c s1) as Hi1.
  { pose proof Hi as Hi0. destruct Hi; split; simpl; rewrite ?insert_length; try done.
    - intros q Hq. destruct (ac_free_empty0 _ Hq) as (pgq & Hpgq & Hnil). exists pgq. split; [|done].
      rewrite list_lookup_insert_ne; [done|]. intros <-. by eapply ac_free_unused0.
    - intros q pgq Hq Hnq. destruct (decide (q = p)) as [->|Hqp]; [eauto|].
      rewrite list_lookup_insert_ne in Hq by done. eauto.
    - intros q pgq j lj Hq Hj Hlj Hnq. destruct (decide (q = p)) as [->|Hqp].
      + rewrite list_lookup_insert in Hq by done. injection Hq as <-. assert (j = i) as -> by congruence. assert (lj = ly) as -> by congruence. rewrite Hids, Hlen. lia.
      + rewrite list_lookup_insert_ne in Hq by done. eauto. }
  assert (removed c s p k s1 r) as Hrem.
  { split; [done| |].
    - intros q j Hq. unfold loc. rewrite Hpa. simpl. rewrite list_lookup_insert_ne by done. done.
    - exists n, y, (row_map a (ly_offs ly) (pg_mem pg) n).
      assert (∀ j, loc s p j = match pg_ids pg !! j with Some id => Some (id, row_map a (ly_offs ly) (pg_mem pg) j) | None => None end) as Hls.
      { intros j. unfold loc, page_arch. by rewrite Hp, H1, Ha, Hly. }
      split; [by rewrite Hls, Hy|]. split; [lia|]. split; [done|]. split.
      + intros j. unfold loc, page_arch. rewrite Hp1. simpl. rewrite H1, Ha, Hly, Hids, Hlk.
        destruct (decide (j < n)%nat) as [Hjn|Hjn]; [|done]. rewrite Hmap by done. destruct (decide (j = k)) as [->|Hjk]; [done|]. by rewrite Hp.
      + intros j Hj. rewrite Hls. rewrite lookup_ge_None_2; [done|]. lia. }
  destruct (Nat.eqb_spec (page_count pg) 1) as [H11|H11]; [|by wp].
  eapply sat_mono; [eapply (free_page_wp c p s1 pg')| |done]; try done.
  - apply nil_length_inv. rewrite Hids. unfold page_count in H11. lia.
  - eauto.
  - simpl. intros s2 _ [Hi2 Hl2]. destruct Hrem as [_ Ho (n' & idn & mn & ?)]. split; [done| |].
    + intros q j Hq. rewrite Hl2. auto.
    + exists n', idn, mn. setoid_rewrite Hl2. done.
Qed.

(** ** move_entity_to_other_archetype *)
Record moved (c : cfg) (s : ac) (id : N) (m : gmap tid (list cell)) (a : archetype) (s' : ac) (p k : nat) : Prop := Moved {
  mv_inv : ac_inv c s';
  mv_fresh : loc s p k = None;
  mv_loc : ∀ p' k', (p', k') ≠ (p, k) → loc s' p' k' = loc s p' k';
  mv_new : ∃ m', loc s' p k = Some (id, m') ∧ (∀ t, is_Some (m' !! t) ↔ t ∈ arch_ids a) ∧
    (∀ t v, m !! t = Some v → t ∈ arch_ids a → m' !! t = Some v);
  mv_p2a : ∃ i, ac_p2a s' !! p = Some i ∧ ac_archs s' !! i = Some a;
  mv_used : ∀ p' pg, ac_pages s !! p' = Some pg → pg_ids pg ≠ [] → page_arch s' p' = page_arch s p';
}.
Lemma ac_move_entity_wp c id a s p0 k0 m i0 U P : cfg_ok c → ac_inv c s → healthy_for c s (list_to_set (arch_ids a)) → arch_wf c a → fits c a →
  loc s p0 k0 = Some (id, m) → ac_p2a s !! p0 = Some i0 →
  sat U (ac_move_entity c id (Eia p0 k0) i0 a s) (λ s' l, moved c s id m a s' (ea_page l) (ea_idx l)) P.
Proof.
  intros Hc Hi Hh Hwf Hfit Hl Hp0. unfold ac_move_entity. wp1.
  pose proof Hc as [Hbs Hgr Hty].
  eapply sat_mono; [apply reserve_archetype_wp; try done; intros j Hj; by eapply Hh| |done]. intros s1 i Hr. simpl.
  pose proof (rs_inv _ _ _ _ _ Hr) as Hi1. pose proof (rs_arch _ _ _ _ _ Hr) as Ha.
  destruct (lookup_lt_is_Some_2 (ac_layouts s1) i) as [ly Hly].
  { rewrite (ac_lay_len _ _ Hi1). by eapply lookup_lt_Some. }
  destruct (ac_arch_ok _ _ Hi1 _ _ _ Ha Hly) as (_ & Hcol & Hcap).
  wp1. eapply sat_mono; [eapply reserve_page_wp; try done| |done].
  { by eapply reserved_roomy. } { apply Hr. }
  simpl. intros s2 [p k] Hpl. simpl in *. pose proof (reserved_loc _ _ _ _ _ Hi Hr) as Hloc1.
  pose proof (pl_inv _ _ _ _ _ _ _ Hpl) as Hi2. pose proof (pl_fresh _ _ _ _ _ _ _ Hpl) as Hfr. rewrite Hloc1 in Hfr.
  assert (∀ q j, (q, j) ≠ (p, k) → loc s2 q j = loc s q j) as Hloc2.
  { intros q j Hne. rewrite (pl_loc _ _ _ _ _ _ _ Hpl) by done. apply Hloc1. }
  assert ((p0, k0) ≠ (p, k)) as Hne0 by congruence.
  pose proof Hl as Hl2. rewrite <- Hloc2 in Hl2 by done.
  apply loc_Some in Hl as (pg0 & i0' & a0 & ly0 & Hpg0 & Hi0 & Ha0 & Hly0 & Hk0 & Hm). assert (i0' = i0) as -> by congruence. clear Hi0.
  assert (pg_ids pg0 ≠ []) as Hne by (intros Hn; by rewrite Hn in Hk0).
  destruct (used_facts _ _ _ _ Hi Hpg0 Hne) as (i' & ps & a' & ly' & H1' & H2 & H3 & Ha' & Hly' & Hwf0 & Hcol0 & Hcap0 & Hrows0).
  simplify_eq.
  assert (ps ≠ []) as Hps by (intros ->; by apply elem_of_nil in H3).
  destruct (rs_used _ _ _ _ _ Hr _ _ H2 Hps) as [Ha1 Hly1].
  assert (page_arch s2 p0 = Some (a0, ly0)) as Hpa0.
  { rewrite (pl_used _ _ _ _ _ _ _ Hpl p0 pg0); [|by rewrite (rs_pages _ _ _ _ _ Hr)|done].
    rewrite (reserved_arch _ _ _ _ _ _ _ Hi Hr Hpg0 Hne). unfold page_arch. by rewrite Hp0, Ha0, Hly0. }
  apply loc_Some in Hl2 as (pg2 & i2 & a2 & ly2 & Hpg2 & Hi2' & Ha2 & Hly2 & Hk2 & Hm2).
  assert (a2 = a0 ∧ ly2 = ly0) as [-> ->].
  { unfold page_arch in Hpa0. rewrite Hi2', Ha2, Hly2 in Hpa0. by simplify_eq. }
  destruct (pl_new _ _ _ _ _ _ _ Hpl) as [mn Hmn]. pose proof Hmn as Hmn'.
  apply loc_Some in Hmn' as (pgn & i3 & a3 & ly3 & Hpgn & Hi3 & Ha3 & Hly3 & Hk3 & Hm3).
  pose proof (pl_p2a _ _ _ _ _ _ _ Hpl). assert (i3 = i) as -> by congruence.
  pose proof (pl_archs _ _ _ _ _ _ _ Hpl) as Harchs. pose proof (pl_layouts _ _ _ _ _ _ _ Hpl) as Hlays.
  assert (a3 = a) as -> by congruence. assert (ly3 = ly) as -> by congruence.
  do 4 wp1. unfold vidx at 1. rewrite Hpg2. unfold psat. do 2 wp1. unfold vidx at 1. rewrite Hpgn. unfold psat.
  do 2 wp1. unfold vidx at 1. rewrite Harchs, Ha1, Ha0. unfold psat. do 2 wp1. unfold vidx at 1. rewrite Hlays, Hly1, Hly0. unfold psat.
  do 2 wp1. unfold vidx at 1. rewrite Hly. unfold psat. do 2 wp1.
  assert (pg_ids pg2 ≠ []) as Hne2 by (intros Hn; by rewrite Hn in Hk2).
  assert (pg_ids pgn ≠ []) as Hnen by (intros Hn; by rewrite Hn in Hk3).
  pose proof (ac_rows _ _ Hi2 _ _ _ _ Hpg2 Hi2' Hly2 Hne2) as Hr2. pose proof (ac_rows _ _ Hi2 _ _ _ _ Hpgn Hi3 Hly3 Hnen) as Hrn.
  pose proof (lookup_lt_Some _ _ _ Hk2) as Hk2l. pose proof (lookup_lt_Some _ _ _ Hk3) as Hk3l.
  destruct (copy_component_spec (ac_pages s2) p0 p k0 k a0 a ly0 ly pg2 pgn) as (m' & Hcopy & Hc1 & Hc2).
  { apply Hwf0. } { apply Hwf. } { by apply (arch_wf_sizes c). } { done. } { done. } { lia. } { lia. } { done. } { done. }
  { intros ->. split_and!; [congruence|congruence|congruence]. }
  rewrite Hcopy. unfold psat. wp. simpl. pose proof (lookup_lt_Some _ _ _ Hpgn) as Hplt.
  set (pg' := Page (pg_ids pgn) (pg_vcap pgn) m'). set (s3 := ac_set_pages (<[p:=pg']> (ac_pages s2)) s2).
  assert (ac_pages s3 !! p = Some pg') as Hp3 by by apply list_lookup_insert.
  assert (ac_inv c s3) as Hi3'.
  { pose proof Hi2 as Hi0. destruct Hi2; split; simpl; rewrite ?insert_length; try done.
    - intros q Hq. destruct (ac_free_empty0 _ Hq) as (pgq & Hpgq & Hnil). exists pgq. split; [|done].
      rewrite list_lookup_insert_ne; [done|]. intros <-. congruence.
    - intros q pgq Hq Hnq. destruct (decide (q = p)) as [->|Hqp]; [eauto|].
      rewrite list_lookup_insert_ne in Hq by done. eauto.
    - intros q pgq j lj Hq Hj Hlj Hnq. destruct (decide (q = p)) as [->|Hqp].
      + rewrite list_lookup_insert in Hq by done. injection Hq as <-. simplify_eq. simpl. lia.
      + rewrite list_lookup_insert_ne in Hq by done. eauto. }
  split; [done|done| | | |].
  - intros q j Hqj. rewrite <- Hloc2 by done. unfold loc. change (page_arch s3 q) with (page_arch s2 q).
    destruct (decide (q = p)) as [->|Hqp].
    + rewrite Hp3, Hpgn. unfold page_arch. rewrite Hi3, Ha3, Hly3. simpl. destruct (pg_ids pgn !! j) as [idj|] eqn:Ej; [|done].
      pose proof (lookup_lt_Some _ _ _ Ej). rewrite Hc2; [done|lia|congruence].
    + simpl. by rewrite list_lookup_insert_ne.
  - assert (loc s3 p k = Some (id, row_map a (ly_offs ly) m' k)) as Hnew.
    { apply loc_Some. exists pg', i, a, ly. done. }
    eexists. split; [exact Hnew|]. split.
    + by eapply (loc_dom c s3).
    + intros t v Ht Hin. apply Hc1; [|done]. rewrite <- Hm2. done.
  - exists i. done.
  - intros q pgq Hq Hnq. change (page_arch s3 q) with (page_arch s2 q).
    rewrite (pl_used _ _ _ _ _ _ _ Hpl q pgq); [|by rewrite (rs_pages _ _ _ _ _ Hr)|done].
    by apply (reserved_arch _ _ _ _ _ _ _ Hi Hr Hq Hnq).
Qed.
