(** LibR.v — runs with different standard libraries. *)
From Verif.Proofs Require Export LibP.
Local Open Scope N_scope.

Section stores.
Context (md : mode) (ty : tid → tyinfo) (bs1 bs2 : list N → N → bsres) (g1 g2 : N → N → N).
Notation c1 := (Cfg md ty bs1 g1).
Notation c2 := (Cfg md ty bs2 g2).
Context (Hb1 : search_ok bs1) (Hb2 : search_ok bs2).

Lemma sr_eia s1 s2 id : sr s1 s2 → get_eia s2 id = get_eia s1 id.
Proof using. by intros [(y & -> & _) _]. Qed.
Lemma sr_has s1 s2 id : sr s1 s2 → has_archetype s2 id = has_archetype s1 id.
Proof using. by intros [(y & -> & _) _]. Qed.
Lemma sr_alive s1 s2 e : sr s1 s2 → is_alive c2 s2 e = is_alive c1 s1 e.
Proof using. by intros [(y & -> & _) _]. Qed.
Lemma sr_valid s1 s2 e : sr s1 s2 → is_valid_with_archetype c2 s2 e = is_valid_with_archetype c1 s1 e.
Proof using. by intros [(y & -> & _) _]. Qed.
Lemma sr_p2a s1 s2 p : sr s1 s2 → arch_index_by_page (st_ac s2) p = arch_index_by_page (st_ac s1) p.
Proof using. by intros [(y & -> & [(ys & -> & _) _]) _]. Qed.
Lemma sr_archs s1 s2 : sr s1 s2 → ac_archs (st_ac s2) = ac_archs (st_ac s1).
Proof using. by intros [(y & -> & [(ys & -> & _) _]) _]. Qed.
Lemma sr_ac s1 s2 : sr s1 s2 → acr (st_ac s1) (st_ac s2).
Proof using. by intros [(y & -> & H) _]. Qed.
Lemma sr_pages s1 s2 : sr s1 s2 → Forall2 page_alike (ac_pages (st_ac s1)) (ac_pages (st_ac s2)).
Proof using. by intros [(ys & -> & H) _]%sr_ac. Qed.
Lemma sr_set_pages s1 s2 xs ys : sr s1 s2 → Forall2 page_alike xs ys →
  sr (st_set_ac (ac_set_pages xs (st_ac s1)) s1) (st_set_ac (ac_set_pages ys (st_ac s2)) s2).
Proof using.
  intros [(y & -> & [(ys0 & -> & H) Hi]) Hs] HF. split; [|done]. exists (ac_set_pages ys (ac_set_pages ys0 (st_ac s1))). split; [done|].
  split; [|done]. by exists ys.
Qed.

Lemma refs_eq e T s1 s2 : sr s1 s2 → get_components_refs c2 s2 e T = get_components_refs c1 s1 e T.
Proof using Hb1 Hb2.
  intros H. unfold get_components_refs. rewrite (sr_valid _ _ _ H). destruct (is_valid_with_archetype c1 s1 e) as [[]| |]; try done. simpl.
  assert (get_page_index s2 (e_id e) = get_page_index s1 (e_id e)) as -> by by destruct H as [(y & -> & _) _].
  destruct (get_page_index s1 (e_id e)) as [p| |]; try done. simpl. rewrite (view_eq _ _ _ (sr_ac _ _ H)).
  destruct (page_view_unchecked (st_ac s1) p) as [v| |] eqn:Ev; try done. simpl.
  assert (get_index_in_page s2 (e_id e) = get_index_in_page s1 (e_id e)) as -> by by destruct H as [(y & -> & _) _].
  destruct (get_index_in_page s1 (e_id e)) as [k| |]; try done. simpl. symmetry. apply view_refs_eq; [done|done|]. eapply view_incr; [by apply sr_ac|done].
Qed.
Lemma component_query_eq q s1 s2 : sr s1 s2 → component_query c2 q s2 = component_query c1 q s1.
Proof using Hb1 Hb2.
  intros H. unfold component_query. rewrite (sr_archs _ _ H). by rewrite (cq_archs_eq md ty bs1 bs2 g1 g2 Hb1 Hb2 q _ _ _ (sr_ac _ _ H)).
Qed.

(** ** What stores report *)
Lemma archetype_eq e s1 s2 : sr s1 s2 → get_entity_archetype c2 s2 e = get_entity_archetype c1 s1 e.
Proof using.
  intros H. unfold get_entity_archetype. rewrite (sr_valid _ _ _ H). destruct (is_valid_with_archetype c1 s1 e) as [[]| |]; try done. simpl.
  assert (st_page s2 = st_page s1) as -> by by destruct H as [(y & -> & _) _]. destruct (aget (st_page s1) (e_id e)) as [p| |]; try done. simpl.
  assert (arch_by_page (st_ac s2) p = arch_by_page (st_ac s1) p) as -> by by destruct H as [(y & -> & [(ys & -> & _) _]) _]. done.
Qed.
Lemma read_eq e T s1 s2 : sr s1 s2 → read_components c2 s2 e T = read_components c1 s1 e T.
Proof using Hb1 Hb2.
  intros H. unfold read_components. rewrite (refs_eq _ _ _ _ H). destruct (get_components_refs c1 s1 e T) as [[rs|]| |]; try done. simpl.
  do 2 f_equal. apply list_fmap_ext. intros i r _. symmetry. by apply read_ref_alike, sr_pages.
Qed.
Lemma archetype_incr e s1 s2 a : sr s1 s2 → get_entity_archetype c1 s1 e = POk (Some a) → incr (arch_ids a).
Proof using.
  intros H Ha. unfold get_entity_archetype in Ha. apply pbind_ok in Ha as ([] & _ & Ha); [|done]. apply pbind_ok in Ha as (p & _ & Ha).
  apply pbind_ok in Ha as (a' & Ha & [= ->]). unfold arch_by_page in Ha. apply pbind_ok in Ha as (i & _ & Ha). apply vidx_ok in Ha.
  eapply acr_incr; [by apply sr_ac|done].
Qed.
Lemma valid_eq q e s1 s2 : sr s1 s2 → valid_for_query c2 q s2 e = valid_for_query c1 q s1 e.
Proof using Hb1 Hb2.
  intros H. unfold valid_for_query. rewrite (archetype_eq _ _ _ H). destruct (get_entity_archetype c1 s1 e) as [[a|]| |] eqn:E; try done. simpl.
  by rewrite (q_include_eq md ty bs1 bs2 g1 g2 Hb1 Hb2 q a (archetype_incr _ _ _ _ H E)).
Qed.
Lemma sr_page_index s1 s2 id : sr s1 s2 → get_page_index s2 id = get_page_index s1 id.
Proof using. by intros [(y & -> & _) _]. Qed.
Lemma extend_eq s1 s2 p es : sr s1 s2 → eq_extend c2 s2 p es = eq_extend c1 s1 p es.
Proof using.
  intros H. induction es as [|e es IH]; [done|]. simpl. rewrite (sr_page_index _ _ _ H), (sr_alive _ _ _ H), IH. done.
Qed.
Lemma ranges_eq q s1 s2 es : sr s1 s2 → ∀ fuel i, eq_ranges c2 q s2 es fuel i = eq_ranges c1 q s1 es fuel i.
Proof using Hb1 Hb2.
  intros H. induction fuel as [|fuel IH]; intros i; [done|]. simpl. destruct (es !! i) as [e|]; [|done]. rewrite (valid_eq _ _ _ _ H).
  destruct (valid_for_query c1 q s1 e) as [[]| |]; try done; simpl; [|apply IH]. rewrite (sr_page_index _ _ _ H).
  destruct (get_page_index s1 (e_id e)) as [p| |]; try done. simpl. rewrite (sr_p2a _ _ _ H). destruct (arch_index_by_page (st_ac s1) p) as [ai| |]; try done. simpl.
  rewrite (with_layout_eq _ _ _ (sr_ac _ _ H)). destruct (arch_with_layout_unchecked (st_ac s1) ai) as [al| |] eqn:E; try done. simpl.
  unfold vget_unchecked. pose proof (alike_lookup _ _ p (sr_pages _ _ H)) as Hl. destruct (ac_pages (st_ac s1) !! p) as [pg|], (ac_pages (st_ac s2) !! p) as [pg'|]; try done. simpl.
  rewrite (q_offsets_eq md ty bs1 bs2 g1 g2 Hb1 Hb2 q al.1 al.2 (layout_incr _ _ _ _ (sr_ac _ _ H) E)).
  destruct (q_offsets c2 q al.1 al.2) as [offs| |]; try done. simpl. rewrite (extend_eq _ _ _ _ H). destruct (eq_extend c1 s1 p _) as [n| |]; try done. simpl.
  rewrite IH. by rewrite (pview_alike md ty bs1 bs2 g1 g2 q p pg pg' offs Hl).
Qed.
Lemma entity_query_eq q es s1 s2 : sr s1 s2 → entity_query c2 q s2 es = entity_query c1 q s1 es.
Proof using Hb1 Hb2.
  intros H. unfold entity_query. rewrite (ranges_eq _ _ _ _ H). by assert (st_idx s2 = st_idx s1) as -> by by destruct H as [(y & -> & _) _].
Qed.
Lemma oq_extend_eq fuel s1 s2 nm p : sr s1 s2 → ∀ stop next, oq_extend fuel s2 nm p stop next = oq_extend fuel s1 nm p stop next.
Proof using.
  intros H. induction fuel as [|fuel IH]; intros stop next; [done|]. simpl. destruct (next =? NULL_ID); [done|]. rewrite (sr_eia _ _ _ H).
  destruct (get_eia s1 next) as [l| |]; try done. destruct (_ || _); [done|]. destruct (aget nm next) as [n| |]; try done.
Qed.
Lemma member_eq q s1 s2 x : sr s1 s2 → oq_member c2 q s2 x = oq_member c1 q s1 x.
Proof using Hb1 Hb2.
  intros H. unfold oq_member. rewrite (sr_eia _ _ _ H). destruct (get_eia s1 x) as [l| |]; try done. simpl.
  unfold vget_unchecked. pose proof (alike_lookup _ _ (ea_page l) (sr_pages _ _ H)) as Hl.
  destruct (ac_pages (st_ac s1) !! ea_page l) as [pg|], (ac_pages (st_ac s2) !! ea_page l) as [pg'|]; try done. simpl.
  rewrite (sr_p2a _ _ _ H). destruct (arch_index_by_page (st_ac s1) (ea_page l)) as [ai| |]; try done. simpl.
  rewrite (with_layout_eq _ _ _ (sr_ac _ _ H)). destruct (arch_with_layout_unchecked (st_ac s1) ai) as [al| |] eqn:E; try done. simpl.
  pose proof (layout_incr _ _ _ _ (sr_ac _ _ H) E) as Hi. rewrite (q_include_eq md ty bs1 bs2 g1 g2 Hb1 Hb2 q al.1 Hi), (q_offsets_eq md ty bs1 bs2 g1 g2 Hb1 Hb2 q al.1 al.2 Hi).
  destruct (negb _); [done|]. destruct (q_offsets c2 q al.1 al.2) as [offs| |]; try done. simpl. by rewrite (pview_alike md ty bs1 bs2 g1 g2 q (ea_page l) pg pg' offs Hl).
Qed.
Lemma oq_ranges_eq q s1 s2 nm : sr s1 s2 → ∀ fuel x, oq_ranges fuel c2 q s2 nm x = oq_ranges fuel c1 q s1 nm x.
Proof using Hb1 Hb2.
  intros H. induction fuel as [|fuel IH]; intros x; [done|]. simpl. destruct (x =? NULL_ID); [done|]. rewrite (member_eq _ _ _ _ H).
  destruct (oq_member c1 q s1 x) as [[[l v]|]| |]; try done; destruct (aget nm x) as [n| |]; try done. rewrite (oq_extend_eq _ _ _ _ _ H).
  destruct (oq_extend fuel s1 nm (ea_page l) _ n) as [[[stop n']| |]|]; try done. simpl. by rewrite IH.
Qed.
Lemma sr_orders s1 s2 : sr s1 s2 → st_orders s2 = st_orders s1 ∧ incr (og_ids (st_orders s1)).
Proof using. by intros [(y & -> & _) [_ ?]]. Qed.
Lemma sr_tags s1 s2 : sr s1 s2 → st_tags s2 = st_tags s1 ∧ incr (tg_ids (st_tags s1)).
Proof using. by intros [(y & -> & _) [? _]]. Qed.
Lemma ordered_query_eq fuel q g s1 s2 : sr s1 s2 → ordered_query fuel c2 q s2 g = ordered_query fuel c1 q s1 g.
Proof using Hb1 Hb2.
  intros H. unfold ordered_query, get_group_index. destruct (sr_orders _ _ H) as [-> Hi]. simpl.
  rewrite (bs_eq bs1 bs2 Hb1 Hb2 _ _ Hi). destruct (bs2 _ g) as [i|i]; [|done].
  destruct (vget_unchecked (og_fwd (st_orders s1)) i) as [nm| |]; try done. destruct (vget_unchecked (og_head (st_orders s1)) i) as [hd| |]; try done.
  by rewrite (oq_ranges_eq _ _ _ _ H).
Qed.
Lemma by_id_eq s1 s2 o : sr s1 s2 → entity_by_id_opt s2 o = entity_by_id_opt s1 o.
Proof using. by intros [(y & -> & _) _]. Qed.
Lemma answers s1 s2 : sr s1 s2 → same_answers c1 s1 c2 s2.
Proof using Hb1 Hb2.
  intros H. destruct (sr_orders _ _ H) as [Ho Hio]. destruct (sr_tags _ _ H) as [Ht Hit].
  split; intros; symmetry.
  - by apply sr_alive.
  - by apply archetype_eq.
  - by apply refs_eq.
  - by apply read_eq.
  - unfold has_tag, tags_has. rewrite Ht. simpl. by rewrite (bs_eq bs1 bs2 Hb1 Hb2 _ _ Hit).
  - unfold filter_tag, has_tag_bitvec. rewrite Ht. simpl. by rewrite (bs_eq bs1 bs2 Hb1 Hb2 _ _ Hit).
  - unfold next_ordered, get_next_id, get_link. rewrite (by_id_eq _ _ _ H), Ho. simpl. by rewrite (bs_eq bs1 bs2 Hb1 Hb2 _ _ Hio).
  - unfold previous_ordered, get_previous_id, get_link. rewrite (by_id_eq _ _ _ H), Ho. simpl. by rewrite (bs_eq bs1 bs2 Hb1 Hb2 _ _ Hio).
  - unfold first_ordered, get_head_id, get_end_id, get_group_index. rewrite (by_id_eq _ _ _ H), Ho. simpl. by rewrite (bs_eq bs1 bs2 Hb1 Hb2 _ _ Hio).
  - unfold last_ordered, get_tail_id, get_end_id, get_group_index. rewrite (by_id_eq _ _ _ H), Ho. simpl. by rewrite (bs_eq bs1 bs2 Hb1 Hb2 _ _ Hio).
  - by apply component_query_eq.
  - by apply entity_query_eq.
  - by apply ordered_query_eq.
Qed.
Lemma sr_alike s1 s2 : sr s1 s2 → alike s1 s2.
Proof using. intros [(y & -> & [(ys & -> & H) _]) _]. by split. Qed.
End stores.

Section runs.
Context (ty : tid → tyinfo) (bs1 bs2 : list N → N → bsres) (g1 g2 : N → N → N).
Notation c1 := (Cfg Debug ty bs1 g1).
Notation c2 := (Cfg Debug ty bs2 g2).
Context (Hc1 : cfg_ok c1) (Hc2 : cfg_ok c2).
Let Hb1 : search_ok bs1 := cfg_search _ Hc1.
Let Hb2 : search_ok bs2 := cfg_search _ Hc2.
Notation addable := (addable Debug ty bs1 bs2 g1 g2).

Lemma hrun_ac c cap tr s : cfg_ok c → c_mode c = Debug → hrun c cap tr s → ac_inv c (st_ac s).
Proof using. intros Hc Hmd Hr. destruct (hrun_state _ Hc Hmd _ _ _ Hr) as (D & Hs & _). apply (cs_inv _ _ _ _ _ Hs). Qed.
(** The room of a page of a healthy archetype is that of its layout. *)
Lemma room_layout c cap tr s i ps p pg ly : cfg_ok c → c_mode c = Debug → hrun c cap tr s → roomy_at (st_ac s) i →
  ac_pages_of (st_ac s) !! i = Some ps → p ∈ ps → ac_pages (st_ac s) !! p = Some pg → ac_layouts (st_ac s) !! i = Some ly →
  has_free_space pg = (N.of_nat (length (pg_ids pg)) <? ly_cap ly).
Proof using.
  intros Hc Hmd Hr Hroom Hps Hp Hpg Hly. destruct (u_line _ _ _ (hrun_usage _ Hc Hmd _ _ _ Hr)) as [_ UL].
  destruct (UL _ _ _ _ _ Hps Hp Hpg Hly) as (v & _ & Hv). specialize (Hroom _ _ _ _ Hps Hp Hpg Hly).
  assert (ly_cap ly ≤ pg_vcap pg). { rewrite Hv. unfold reserve_vec. destruct (N.ltb_spec v (ly_cap ly)); [apply Hc|done]. }
  unfold has_free_space, page_count. apply eq_bool_prop_intro. rewrite !Is_true_true, !N.ltb_lt. split; [done|lia].
Qed.
Lemma addable_run cap tr s1 s2 S a : hrun c1 cap tr s1 → hrun c2 cap tr s2 → sr s1 s2 → healthy_for c1 (st_ac s1) S → healthy_for c2 (st_ac s2) S →
  arch_wf c1 a → list_to_set (arch_ids a) = S → addable (st_ac s1) (st_ac s2) a.
Proof using Hc1 Hc2.
  intros R1 R2 [(y & -> & [(ys & -> & H) Hi]) _] H1 H2 Hwf HS. pose proof (hrun_ac _ _ _ _ Hc1 eq_refl R1) as Hac. split.
  - apply Hwf.
  - apply Hac.
  - intros i b Hb Hids. assert (list_to_set (arch_ids b) = S) as HbS by by rewrite Hids. destruct (H1 i b Hb HbS) as [F1 Rm1]. destruct (H2 i b Hb HbS) as [F2 Rm2].
    split_and!; [done|done|]. intros ps p pg qg Hps Hp Hpg Hqg.
    destruct (lookup_lt_is_Some_2 (ac_layouts (st_ac s1)) i) as [ly Hly]; [rewrite (ac_lay_len _ _ Hac); by eapply lookup_lt_Some|].
    rewrite (room_layout _ _ _ _ i ps p pg ly Hc1 eq_refl R1) by done. rewrite (room_layout _ _ _ _ i ps p qg ly Hc2 eq_refl R2) by done.
    simpl in Hqg. pose proof (alike_lookup _ _ p H) as Hl. rewrite Hpg, Hqg in Hl. by destruct Hl as [-> _].
  - apply Hac.
  - apply Hac.
Qed.

(** ** Store functions *)
Lemma place_both e a s1 s2 : sr s1 s2 → addable (st_ac s1) (st_ac s2) a →
  both sr ((l ← on_ac (ac_add_entity c1 (e_id e) a); _ ← set_location (e_id e) l; mret l) s1)
          ((l ← on_ac (ac_add_entity c2 (e_id e) a); _ ← set_location (e_id e) l; mret l) s2).
Proof using.
  intros H Ha. eapply both_bind. { apply on_ac_both; [done|]. intros y <- Hy. by apply ac_add_both. }
  intros l t1 t2 H1. eapply both_bind; [by apply set_location_both|]. intros _ u1 u2 H2. by apply both_ret.
Qed.
Lemma move_both e a s1 s2 : sr s1 s2 → addable (st_ac s1) (st_ac s2) a → both sr (move_entity c1 e a s1) (move_entity c2 e a s2).
Proof using.
  intros H Ha. unfold move_entity. apply both_get. rewrite (sr_eia _ _ _ H). apply both_lift_eq; [apply pboth_refl|]. intros prev _ _.
  rewrite (sr_p2a _ _ _ H). apply both_lift_eq; [apply pboth_refl|]. intros pai _ _.
  eapply both_bind. { apply on_ac_both; [done|]. intros y <- Hy. by apply ac_move_both. }
  intros l t1 t2 H1. eapply both_bind; [by apply set_page_both|]. intros _ u1 u2 H2. eapply both_bind; [by apply set_idx_both|]. intros _ v1 v2 H3.
  eapply both_bind; [by apply swap_remove_both|]. intros _ w1 w2 H4. by apply both_ret.
Qed.

(** What is known of the archetype of an entity that calls put components to or remove them from. *)
Definition row_types (s : store) (e : entity) (X : gset tid) : Prop :=
  (has_archetype s (e_id e) = POk false → X = ∅) ∧
  ∀ l ai a, has_archetype s (e_id e) = POk true → get_eia s (e_id e) = POk l → arch_index_by_page (st_ac s) (ea_page l) = POk ai →
    vget_unchecked (ac_archs (st_ac s)) ai = POk a → arch_wf c1 a ∧ list_to_set (arch_ids a) = X.
Lemma row_types_run cap tr s e : hrun c1 cap tr s → is_alive c1 s e = POk true → ∃ X, types tr e = Some X ∧ row_types s e X.
Proof using Hc1.
  intros Hr Hal. destruct (hrun_state _ Hc1 eq_refl _ _ _ Hr) as (D & Hs & Hcs).
  pose proof (alive_lt c1 eq_refl _ _ _ _ _ (cs_ec _ _ _ _ _ Hs) Hal) as Hlt. rewrite (cs_alive _ _ _ _ _ _ Hs Hlt) in Hal.
  injection Hal as Hal. apply bool_decide_eq_true in Hal. destruct (cs_row _ _ _ _ _ _ Hs Hal) as (m & HD & _ & Hrow).
  exists (dom m). split.
  { specialize (Hcs e). unfold cview in Hcs. rewrite decide_True, HD in Hcs by done. by apply comps_types in Hcs. }
  pose proof (ci_ac _ _ _ _ (cs_inv _ _ _ _ _ Hs)) as Hac. destruct Hrow as [(p & k & Hlk & Hl & Hhas & Hm)|(_ & Hhas & ->)]; split; rewrite ?Hhas; try done; [|intros _; apply dom_empty_L].
  intros l ai a _ El Ei Ea. rewrite (linked_eia _ _ _ _ Hlk) in El. injection El as <-. simpl in Ei. unfold arch_index_by_page in Ei. apply vidx_ok in Ei.
  unfold vget_unchecked in Ea. destruct (ac_archs (st_ac s) !! ai) as [a'|] eqn:Ea'; [|done]. injection Ea as ->.
  destruct (loc_page _ _ _ _ _ _ Hac Hl) as (pg & i & a'' & ly & _ & Hi & Ha'' & _ & _ & Hwf & _). rewrite Ei in Hi. injection Hi as <-.
  rewrite Ea' in Ha''. injection Ha'' as <-. split; [done|]. symmetry. by eapply loc_tset.
Qed.
Lemma ensure_both e T X s1 s2 : sr s1 s2 → row_types s1 e X → T ≠ [] → NoDup T →
  (∀ a, arch_wf c1 a → list_to_set (arch_ids a) = X ∪ list_to_set T → addable (st_ac s1) (st_ac s2) a) →
  both sr (ensure_types c1 e T s1) (ensure_types c2 e T s2).
Proof using Hc1 Hc2.
  intros H [Hno Hrow] HT Hnd Hadd. unfold ensure_types. apply both_get. rewrite (sr_has _ _ _ H). apply both_lift_eq; [apply pboth_refl|]. intros [] Hhas _.
  - rewrite (sr_eia _ _ _ H). apply both_lift_eq; [apply pboth_refl|]. intros l El _.
    rewrite (sr_p2a _ _ _ H). apply both_lift_eq; [apply pboth_refl|]. intros ai Ei _.
    rewrite (sr_archs _ _ H). apply both_lift_eq; [apply pboth_refl|]. intros a Ea _. destruct (Hrow _ _ _ Hhas El Ei Ea) as [Hwf HX].
    rewrite (include_ids_eq Debug ty bs1 bs2 g1 g2 Hb1 Hb2 a T) by apply Hwf. destruct (is_include_ids c2 a T); [by apply both_ret|].
    change (ctype_of c2) with (ctype_of c1). destruct (include_arch c1 a T Hwf) as (Hnew & Hwf' & Hids').
    apply both_lift_eq; [apply pboth_refl|]. intros na En _. rewrite Hnew in En. injection En as <-. apply move_both; [done|]. apply Hadd; [done|].
    apply set_eq. intros t. rewrite elem_of_list_to_set, Hids', elem_of_union, elem_of_list_to_set, <- HX. by rewrite elem_of_list_to_set.
  - specialize (Hno Hhas). subst X. destruct (with_arch c1 T HT Hnd) as (a & Ha & Hwf & Hids'). change (with_components c2 T) with (with_components c1 T).
    rewrite Ha. apply both_lift_eq; [apply pboth_refl|]. intros a' [= <-] _. apply place_both; [done|]. apply Hadd; [done|].
    apply set_eq. intros t. rewrite elem_of_list_to_set, Hids', elem_of_union, elem_of_empty, elem_of_list_to_set. clear. tauto.
Qed.
Lemma add_both e vals X s1 s2 : sr s1 s2 → (is_alive c1 s1 e = POk true → row_types s1 e X) → vals.*1 ≠ [] → NoDup vals.*1 →
  (is_alive c1 s1 e = POk true → ∀ a, arch_wf c1 a → list_to_set (arch_ids a) = X ∪ list_to_set vals.*1 → addable (st_ac s1) (st_ac s2) a) →
  both sr (add_components c1 e vals s1) (add_components c2 e vals s2).
Proof using Hc1 Hc2.
  intros H Hrow HT Hnd Hadd. unfold add_components. apply both_get. rewrite (sr_alive Debug ty bs1 bs2 g1 g2 _ _ _ H). apply both_lift_eq; [apply pboth_refl|]. intros b Hb _.
  destruct b; simpl; [|by apply both_ret]. specialize (Hrow Hb). specialize (Hadd Hb).
  eapply both_bind; [by eapply ensure_both|]. intros l t1 t2 H1. apply both_get. rewrite (view_eq _ _ _ (sr_ac _ _ H1)).
  apply both_lift_eq; [apply pboth_refl|]. intros v Hv _. rewrite (view_refs_unchecked_eq Debug ty bs1 bs2 g1 g2 Hb1 Hb2) by (eapply view_incr; [by apply sr_ac|done]).
  apply both_lift_eq; [apply pboth_refl|]. intros rs _ _. split; [done|]. apply sr_set_pages; [done|]. by apply assign_alike, sr_pages.
Qed.
Lemma remove_both e T X s1 s2 : sr s1 s2 → (is_alive c1 s1 e = POk true → row_types s1 e X) →
  (is_alive c1 s1 e = POk true → ∀ a, arch_wf c1 a → list_to_set (arch_ids a) = X ∖ list_to_set T → addable (st_ac s1) (st_ac s2) a) →
  both sr (remove_components c1 e T s1) (remove_components c2 e T s2).
Proof using.
  intros H Hrow Hadd. unfold remove_components. apply both_get. rewrite (sr_valid Debug ty bs1 bs2 g1 g2 _ _ _ H). apply both_lift_eq; [apply pboth_refl|]. intros b Hb _.
  destruct b; simpl; [|by apply both_ret]. unfold is_valid_with_archetype in Hb. apply pbind_ok in Hb as ([] & Hal & Hhas); [|done].
  destruct (Hrow Hal) as [_ Hr]. specialize (Hadd Hal).
  rewrite (sr_eia _ _ _ H). apply both_lift_eq; [apply pboth_refl|]. intros l El _.
  rewrite (sr_p2a _ _ _ H). apply both_lift_eq; [apply pboth_refl|]. intros ai Ei _.
  rewrite (sr_archs _ _ H). apply both_lift_eq; [apply pboth_refl|]. intros a Ea _. destruct (Hr _ _ _ Hhas El Ei Ea) as [Hwf HX].
  change (ctype_of c2) with (ctype_of c1). apply both_lift_eq; [apply pboth_refl|]. intros na En _.
  destruct (exclude_arch c1 a T Hwf) as (Hids' & [(_ & Hnew & Hwf')|[_ Hnew]]); rewrite Hnew in En; [|done]. injection En as <-.
  eapply both_bind; [apply move_both; [done|]|intros _ u1 u2 H2; by apply both_ret]. apply Hadd; [done|].
  apply set_eq. intros t. rewrite elem_of_list_to_set, Hids', elem_of_difference, elem_of_list_to_set, <- HX. by rewrite elem_of_list_to_set.
Qed.
Lemma set_both e vals s1 s2 : sr s1 s2 → both sr (set_components c1 e vals s1) (set_components c2 e vals s2).
Proof using Hc1 Hc2.
  intros H. unfold set_components. apply both_get. rewrite (refs_eq Debug ty bs1 bs2 g1 g2 Hb1 Hb2 _ _ _ _ H). apply both_lift_eq; [apply pboth_refl|]. intros [rs|] _ _; [|by apply both_ret].
  split; [done|]. apply sr_set_pages; [done|]. by apply assign_alike, sr_pages.
Qed.
Lemma write_both q f s1 s2 : sr s1 s2 → both sr (query_write c1 q f s1) (query_write c2 q f s2).
Proof using Hc1 Hc2.
  intros H. unfold query_write. apply both_get. rewrite (component_query_eq Debug ty bs1 bs2 g1 g2 Hb1 Hb2 _ _ _ H). apply both_lift_eq; [apply pboth_refl|]. intros it _ _.
  assert (st_ec s2 = st_ec s1) as -> by by destruct H as [(y & -> & _) _]. apply both_lift. intros xs ys E1 E2. split; [done|].
  apply sr_set_pages; [done|]. eapply write_loop_alike; [by apply sr_pages|done..].
Qed.
Lemma destroy_both e s1 s2 : sr s1 s2 → both sr (destroy_entity c1 e s1) (destroy_entity c2 e s2).
Proof using.
  intros H. unfold destroy_entity. apply both_get. rewrite (sr_has _ _ _ H). apply both_lift_eq; [apply pboth_refl|]. intros has _ _.
  eapply (both_bind _ _ _ _ _ _ _ sr).
  { destruct has; [|by apply both_ret]. rewrite (sr_eia _ _ _ H). apply both_lift_eq; [apply pboth_refl|]. intros l _ _. by apply swap_remove_both. }
  intros _ t1 t2 H1. eapply both_bind; [by apply on_ec_both|]. intros _ u1 u2 H2. eapply both_bind; [by apply tags_remove_all_both|].
  intros _ v1 v2 H3. by apply orders_remove_all_both.
Qed.
Lemma no_out_both (m1 m2 : M store unit) s1 s2 : both sr (m1 s1) (m2 s2) → both sr (no_out m1 s1) (no_out m2 s2).
Proof using. intros H. unfold no_out. eapply both_bind; [done|]. intros _ t1 t2 H1. by apply both_ret. Qed.

Lemma step_both cap tr o s1 s2 : hrun c1 cap tr s1 → hrun c2 cap tr s2 → sr s1 s2 → healthy c1 (st_ac s1) (asks tr o) → healthy c2 (st_ac s2) (asks tr o) →
  args_ok c1 o → both sr (step c1 o s1) (step c2 o s2).
Proof using Hc1 Hc2.
  intros R1 R2 H H1 H2 Ha. destruct o as [|a|e|e vals|e T|e vals|q f|t e|t e|g e|g e to|g e to|g e]; simpl step; simpl in Ha.
  - eapply both_bind; [by apply create_both|]. intros e t1 t2 Ht. by apply both_ret.
  - eapply (both_bind _ _ _ _ _ _ _ sr); [|intros e t1 t2 Ht; by apply both_ret]. unfold create_entity_with_archetype. apply both_intro.
    intros u1 e1 u2 e2 (t1 & e & E1 & F1)%bind_ok (t2 & e' & E2 & F2)%bind_ok.
    destruct (both_ok _ _ _ _ _ _ _ (register_both Debug ty bs1 bs2 g1 g2 s1 s2 H) E1 E2) as [<- Ht].
    pose proof E1 as (? & _ & _ & A1 & _)%register_ok. pose proof E2 as (? & _ & _ & A2 & _)%register_ok.
    refine (both_ok _ _ _ _ _ _ _ _ F1 F2). eapply both_bind.
    { apply on_ac_both; [done|]. intros y <- Hy. apply ac_add_both; [done|]. rewrite A1, A2. eapply (addable_run cap tr s1 s2); try done; [by apply H1|by apply H2]. }
    intros l v1 v2 Hv. eapply both_bind; [by apply set_location_both|]. intros _ w1 w2 Hw. by apply both_ret.
  - by apply no_out_both, destroy_both.
  - destruct Ha as (Hne & Hnd & _). apply no_out_both.
    destruct (is_alive c1 s1 e) as [[]| |] eqn:Hal.
    + destruct (row_types_run _ _ _ _ R1 Hal) as (X & HX & Hrow). eapply (add_both e vals X); try done; [by destruct vals|].
      intros _ a Hwf Hset. simpl in H1, H2. rewrite HX in H1, H2. eapply (addable_run cap tr s1 s2); try done; [by apply H1|by apply H2].
    + apply (add_both e vals ∅); try done; rewrite ?Hal; try done. by destruct vals.
    + apply (add_both e vals ∅); try done; rewrite ?Hal; try done. by destruct vals.
    + apply (add_both e vals ∅); try done; rewrite ?Hal; try done. by destruct vals.
  - apply no_out_both. destruct (is_alive c1 s1 e) as [[]| |] eqn:Hal.
    + destruct (row_types_run _ _ _ _ R1 Hal) as (X & HX & Hrow). eapply (remove_both e T X); try done.
      intros _ a Hwf Hset. simpl in H1, H2. rewrite HX in H1, H2. eapply (addable_run cap tr s1 s2); try done; [by apply H1|by apply H2].
    + apply (remove_both e T ∅); try done; by rewrite ?Hal.
    + apply (remove_both e T ∅); try done; by rewrite ?Hal.
    + apply (remove_both e T ∅); try done; by rewrite ?Hal.
  - by apply no_out_both, set_both.
  - by apply no_out_both, write_both.
  - by apply no_out_both, tags_add_both.
  - by apply no_out_both, tags_remove_both.
  - apply no_out_both. by apply (in_group_both Debug ty bs1 bs2 g1 g2 Hb1 Hb2).
  - apply no_out_both. by apply (in_group_both Debug ty bs1 bs2 g1 g2 Hb1 Hb2).
  - apply no_out_both. by apply (in_group_both Debug ty bs1 bs2 g1 g2 Hb1 Hb2).
  - by apply no_out_both, orders_remove_both.
Qed.
End runs.

(** ** Histories *)
Lemma sr_init s : ac_archs (st_ac s) = [] → tg_ids (st_tags s) = [] → og_ids (st_orders s) = [] → sr s s.
Proof.
  intros Ha Ht Ho. split; [|rewrite Ht, Ho; split; constructor]. exists (st_ac s). split; [by destruct s|]. split; [|rewrite Ha; constructor].
  exists (ac_pages (st_ac s)). split; [by destruct (st_ac s)|]. induction (ac_pages (st_ac s)); by constructor.
Qed.
Lemma store_init md cap s : store_with_capacity md cap = POk s → sr s s.
Proof.
  unfold store_with_capacity. intros H. repeat (apply pbind_ok in H as (? & _ & H)). injection H as <-. apply sr_init; reflexivity.
Qed.
Lemma hrun_sr ty bs1 bs2 g1 g2 cap tr1 s1 tr2 s2 : let c1 := Cfg Debug ty bs1 g1 in let c2 := Cfg Debug ty bs2 g2 in cfg_ok c1 → cfg_ok c2 →
  hrun c1 cap tr1 s1 → hrun c2 cap tr2 s2 → tr1.*1 = tr2.*1 → tr1 = tr2 ∧ sr s1 s2.
Proof.
  intros c1 c2 Hc1 Hc2 H1. revert tr2 s2. induction H1 as [s1 E1|tr1 s1 o s1' r H1 IH Hh1 Ha Hr E1]; intros tr2 s2 H2 Heq.
  - destruct H2 as [s2 E2|tr2 s2 o s2' r]; [|rewrite fmap_app in Heq; by destruct (tr2.*1)]. simpl in E1, E2. rewrite E1 in E2. injection E2 as <-. split; [done|].
    by eapply store_init.
  - destruct H2 as [s2 E2|tr2 s2 o2 s2' r2 H2 Hh2 Ha2 Hr2 E2]; [rewrite fmap_app in Heq; by destruct (tr1.*1)|].
    rewrite !fmap_app in Heq. apply app_inj_2 in Heq as [Heq Ho]; [|done]. injection Ho as <-. destruct (IH _ _ H2 Heq) as [<- Hs].
    destruct (both_ok _ _ _ _ _ _ _ (step_both ty bs1 bs2 g1 g2 Hc1 Hc2 _ _ _ _ _ H1 H2 Hs Hh1 Hh2 Ha) E1 E2) as [<- ?]. done.
Qed.
Lemma same_library c1 c2 cap tr1 s1 tr2 s2 : cfg_ok c1 → cfg_ok c2 → same_program c1 c2 → c_mode c1 = Debug →
  hrun c1 cap tr1 s1 → hrun c2 cap tr2 s2 → tr1.*1 = tr2.*1 → tr1 = tr2 ∧ alike s1 s2 ∧ same_answers c1 s1 c2 s2.
Proof.
  destruct c1 as [md ty bs1 g1], c2 as [md2 ty2 bs2 g2]. intros Hc1 Hc2 [Hm Ht] Hmd H1 H2 Heq. simpl in *. subst md2 ty2 md.
  destruct (hrun_sr _ _ _ _ _ _ _ _ _ _ Hc1 Hc2 H1 H2 Heq) as [-> Hs]. split; [done|]. split; [by apply sr_alike|]. by apply answers; [apply Hc1|apply Hc2|].
Qed.
Lemma same_library_builds c1 c2 cap tr1 s1 tr2 s2 : cfg_ok c1 → cfg_ok c2 → same_program c1 c2 →
  drun (healthy c1) c1 cap tr1 s1 → drun (healthy c2) c2 cap tr2 s2 → tr1.*1 = tr2.*1 → tr1 = tr2 ∧ alike s1 s2 ∧ same_answers c1 s1 c2 s2.
Proof.
  destruct c1 as [md ty bs1 g1], c2 as [md2 ty2 bs2 g2]. intros Hc1 Hc2 [Hm Ht] H1 H2 Heq. simpl in *. subst md2 ty2.
  apply drun_debug in H1 as [H1 _]; [|done]. apply drun_debug in H2 as [H2 _]; [|done].
  destruct (hrun_sr _ _ _ _ _ _ _ _ _ _ (cfg_ok_mode Debug _ Hc1) (cfg_ok_mode Debug _ Hc2) H1 H2 Heq) as [-> Hs]. split; [done|]. split; [by apply sr_alike|].
  by apply answers; [apply Hc1|apply Hc2|].
Qed.
(** A history with one library is one with another library in which it stays healthy. *)
Lemma follow c1 c2 cap tr s1 : cfg_ok c1 → cfg_ok c2 → same_program c1 c2 → drun (healthy c1) c1 cap tr s1 →
  (∀ tr1 o r tr2 s2, tr = tr1 ++ (o, r) :: tr2 → drun (healthy c2) c2 cap tr1 s2 → healthy c2 (st_ac s2) (asks tr1 o)) →
  ∃ s2, drun (healthy c2) c2 cap tr s2.
Proof.
  intros Hc1 Hc2 Hsame H1. induction H1 as [s1 Hcap E1|tr s1 o s1' r H1 IH Hh1 Hd E1]; intros Hh.
  - exists s1. constructor; [done|]. destruct Hsame as [<- _]. done.
  - destruct IH as [s2 H2]. { intros tr1 o1 r1 tr2 s2 ->. apply (Hh tr1 o1 r1 (tr2 ++ [(o, r)])). by rewrite <- app_assoc. }
    assert (disciplined c2 tr o) as Hd2. { destruct c1, c2, Hsame as [Hm Ht]. simpl in Hm, Ht. subst. done. }
    pose proof (Hh tr o r [] s2 eq_refl H2) as Hh2. destruct (disciplined_returns _ _ _ _ _ Hc2 H2 Hh2 Hd2) as (s2' & r2 & E2).
    assert (drun (healthy c2) c2 cap (tr ++ [(o, r2)]) s2') as H2' by by econstructor.
    assert (drun (healthy c1) c1 cap (tr ++ [(o, r)]) s1') as H1' by by econstructor.
    destruct (same_library_builds _ _ _ _ _ _ _ Hc1 Hc2 Hsame H1' H2') as [Heq _]; [by rewrite !fmap_app|].
    apply app_inv_head in Heq. injection Heq as ->. eauto.
Qed.
Lemma any_library c1 c2 cap tr s1 : cfg_ok c1 → cfg_ok c2 → same_program c1 c2 → drun (λ _ _, True) c1 cap tr s1 → frugal c1 tr → frugal c2 tr →
  ∃ s2, drun (λ _ _, True) c2 cap tr s2 ∧ alike s1 s2 ∧ same_answers c1 s1 c2 s2.
Proof.
  intros Hc1 Hc2 Hsame H1 Hf1 Hf2. destruct (frugal_drun _ _ _ _ Hc1 H1 Hf1) as [H1' _].
  destruct (follow _ _ _ _ _ Hc1 Hc2 Hsame H1') as [s2 H2].
  { intros tr1 o r tr2 s2 -> Hd. destruct (drun_debug _ _ _ _ Hc2 Hd) as [Hr _]. assert (frugal c2 tr1) as [Ha Hb].
    { clear -Hf2. revert o r Hf2. induction tr2 as [|[o2 r2] tr2 IH] using rev_ind; intros o r Hf; [by eapply frugal_prefix|].
      apply (IH o r). eapply (frugal_prefix _ _ (o2, r2)). by rewrite <- app_assoc. }
    by apply (usage_healthy _ (cfg_ok_mode Debug c2 Hc2) eq_refl _ _ _ (hrun_grun _ _ _ _ Hr)). }
  exists s2. destruct (same_library_builds _ _ _ _ _ _ _ Hc1 Hc2 Hsame H1' H2 eq_refl) as (_ & ? & ?). split; [|done].
  clear -H2. induction H2; econstructor; eauto.
Qed.
Lemma any_library_considerate c1 c2 cap tr s1 : cfg_ok c1 → cfg_ok c2 → same_program c1 c2 → search_honest (c_bs c1) → search_honest (c_bs c2) →
  drun (λ _ _, True) c1 cap tr s1 → considerate c1 tr → considerate c2 tr →
  ∃ s2, drun (λ _ _, True) c2 cap tr s2 ∧ alike s1 s2 ∧ same_answers c1 s1 c2 s2.
Proof.
  intros Hc1 Hc2 Hsame Hs1 Hs2 H1 Hf1 Hf2. pose proof (considerate_drun _ _ _ _ Hc1 Hs1 H1 Hf1) as H1'.
  destruct (follow _ _ _ _ _ Hc1 Hc2 Hsame H1') as [s2 H2].
  { intros tr1 o r tr2 s2 -> Hd. destruct (drun_debug _ _ _ _ Hc2 Hd) as [Hr _].
    apply (careful_health _ (cfg_ok_mode Debug c2 Hc2) eq_refl _ _ _ _ Hr Hs2). by apply (Hf2 tr1 o r tr2). }
  exists s2. destruct (same_library_builds _ _ _ _ _ _ _ Hc1 Hc2 Hsame H1' H2 eq_refl) as (_ & ? & ?). split; [|done].
  clear -H2. induction H2; econstructor; eauto.
Qed.

(** ** Without the conditions on the bookkeeping of pages *)
(** Three archetypes are abandoned, the last first. Only the search of Rust 1.81 and before finds the second in the list. *)
Definition ex_three : list (list entity → op) :=
  [ λ _, OCreateWith (ex_arch [1]); λ _, OCreateWith (ex_arch [2]); λ _, OCreateWith (ex_arch [3]); λ _, OCreateWith (ex_arch [4]);
    λ hs, ODestroy (h 3 hs); λ hs, ODestroy (h 2 hs); λ hs, ODestroy (h 1 hs);
    λ _, OCreate; λ hs, OAdd (h 4 hs) [(3, [42])];
    λ _, OCreateWith (ex_arch [1; 2]); λ _, OCreateWith (ex_arch [1; 3]) ].
Lemma search_refuted : ¬ library_free (λ c1 c2, c_grow c1 = c_grow c2) (λ _ s _, roomy s).
Proof.
  intros H. specialize (H (ex_cfg Debug) (ex_cfg_new Debug) 8 (end_trace (ex_cfg Debug) 8 ex_three) (end_store (ex_cfg Debug) 8 ex_three)
    (end_trace (ex_cfg_new Debug) 8 ex_three) (end_store (ex_cfg_new Debug) 8 ex_three) (Entity 1 2) [3]).
  assert (POk (Some [[Some 42]]) = POk (Some [[@None N]])); [|done].
  transitivity (read_components (ex_cfg Debug) (end_store (ex_cfg Debug) 8 ex_three) (Entity 1 2) [3]); [vm_compute; reflexivity|].
  transitivity (read_components (ex_cfg_new Debug) (end_store (ex_cfg_new Debug) 8 ex_three) (Entity 1 2) [3]); [|vm_compute; reflexivity].
  assert (grun all_roomy (ex_cfg Debug) 8 (end_trace (ex_cfg Debug) 8 ex_three) (end_store (ex_cfg Debug) 8 ex_three)) as H1.
  { apply (gend_run _ _ roomyb_ok). vm_compute. reflexivity. }
  assert (grun all_roomy (ex_cfg_new Debug) 8 (end_trace (ex_cfg_new Debug) 8 ex_three) (end_store (ex_cfg_new Debug) 8 ex_three)) as H2.
  { apply (gend_run _ _ roomyb_ok). vm_compute. reflexivity. }
  refine (H (ex_cfg_ok _) (ex_cfg_new_ok _) (conj eq_refl eq_refl) eq_refl eq_refl H1 H2 _ _); [vm_compute; reflexivity|discriminate].
Qed.
(** A page holds one row of types 1 and 2; a growing Vec that reserves no more than asked for has room for one id. *)
Definition exact_cfg : cfg := Cfg Debug big_ty bs_old (λ _ n, n).
Lemma exact_cfg_ok : cfg_ok exact_cfg.
Proof. split; [apply bs_old_ok|intros ? ?; simpl; lia|apply big_cfg_ok]. Qed.
Definition ex_overwrite : list (list entity → op) := ex_overlap ++ [λ hs, OSet (h 1 hs) [(1, [77])]].
Lemma growth_refuted : ¬ library_free (λ c1 c2, c_bs c1 = c_bs c2) (λ _ s _, sorted_free s).
Proof.
  intros H. specialize (H big_cfg exact_cfg 8 (end_trace big_cfg 8 ex_overwrite) (end_store big_cfg 8 ex_overwrite)
    (end_trace exact_cfg 8 ex_overwrite) (end_store exact_cfg 8 ex_overwrite) (Entity 0 1) [2]).
  assert (Some (Some 77) = Some (Some 7)); [|done].
  transitivity (first_byte (read_components big_cfg (end_store big_cfg 8 ex_overwrite) (Entity 0 1) [2])); [vm_compute; reflexivity|].
  transitivity (first_byte (read_components exact_cfg (end_store exact_cfg 8 ex_overwrite) (Entity 0 1) [2])); [|vm_compute; reflexivity].
  assert (grun all_sorted big_cfg 8 (end_trace big_cfg 8 ex_overwrite) (end_store big_cfg 8 ex_overwrite)) as H1.
  { apply (gend_run _ _ sortedb_ok). vm_compute. reflexivity. }
  assert (grun all_sorted exact_cfg 8 (end_trace exact_cfg 8 ex_overwrite) (end_store exact_cfg 8 ex_overwrite)) as H2.
  { apply (gend_run _ _ sortedb_ok). vm_compute. reflexivity. }
  apply (f_equal first_byte). refine (H big_cfg_ok exact_cfg_ok (conj eq_refl eq_refl) eq_refl eq_refl H1 H2 _ _); [vm_compute; reflexivity|discriminate].
Qed.
(** A history that is healthy with either library. This one makes more room than asked for. *)
Definition lib_cfg (md : mode) : cfg := Cfg md ex_ty bs_new (λ _ n, n + 3).
Lemma lib_cfg_ok md : cfg_ok (lib_cfg md).
Proof. split; [apply bs_new_ok|intros ? ?; simpl; lia|apply (ex_cfg_ok md)]. Qed.
Lemma lib_frugal md : frugal (lib_cfg md) (end_trace (ex_cfg md) 8 ex_disc).
Proof.
  destruct (ex_disc_run md) as [_ [H _]]. split; [done|]. right. apply below_capacityb_ok. destruct md; vm_compute; reflexivity.
Qed.
Lemma library_example md : let c1 := ex_cfg md in let c2 := lib_cfg md in let tr := end_trace c1 8 ex_disc in
  let s1 := end_store c1 8 ex_disc in let s2 := end_store c2 8 ex_disc in
  cfg_ok c1 ∧ cfg_ok c2 ∧ same_program c1 c2 ∧ drun (λ _ _, True) c1 8 tr s1 ∧ frugal c1 tr ∧ frugal c2 tr ∧ drun (λ _ _, True) c2 8 tr s2 ∧
  c_bs c1 [3; 2; 1] 2 = BFound 1 ∧ c_bs c2 [3; 2; 1] 2 = BMissing 3 ∧
  (pg_vcap <$> ac_pages (st_ac s1)) = [0; 0; 2047; 4095; 4095] ∧ (pg_vcap <$> ac_pages (st_ac s2)) = [0; 0; 2050; 4098; 4098] ∧
  read_components c1 s1 (Entity 0 1) [1] = POk (Some [Some <$> [1; 2; 3; 4]]) ∧
  read_components c2 s2 (Entity 0 1) [1] = POk (Some [Some <$> [1; 2; 3; 4]]).
Proof.
  intros c1 c2 tr s1 s2. destruct (ex_disc_run md) as [H1 H2].
  split; [apply ex_cfg_ok|]. split; [apply lib_cfg_ok|]. split; [by split|]. split; [exact H1|]. split; [exact H2|]. split; [apply lib_frugal|]. split.
  { subst tr s1 s2 c1 c2. assert (end_trace (ex_cfg md) 8 ex_disc = end_trace (lib_cfg md) 8 ex_disc) as -> by (destruct md; vm_compute; reflexivity).
    apply dend_run. destruct md; vm_compute; reflexivity. }
  clear H1 H2. subst tr s1 s2 c1 c2. destruct md; split_and!; vm_compute; reflexivity.
Qed.
