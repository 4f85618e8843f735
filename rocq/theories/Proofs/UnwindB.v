(** UnwindB.v — caught panics in both builds: a call of a release build that panics leaves the store of the debug build. *)
From Verif.Proofs Require Export UnwindC.
From Verif.Proofs Require Import UnwindH UnwindT DiscP DiscQ ModeP CompX QueryX RobustP ClientP.
Local Open Scope N_scope.

Section both.
Context (c : cfg) (Hc : cfg_ok c).
Local Notation d := (in_mode Debug c).
Let Hd : cfg_ok d := cfg_ok_mode Debug c Hc.

Lemma own_pagree {A} (f : cfg → pres A) x : pagree (f d) (f (in_mode Release c)) → f d = POk x → f c = POk x.
Proof using. intros H. rewrite (in_mode_id c) at 2. destruct (c_mode c); [done|]. unfold pagree in H. intros E. rewrite E in H. exact H. Qed.
Lemma no_ub_bind {A B} (m : pres A) (k : A → pres B) : (∀ w, m ≠ PUB w) → (∀ a w, k a ≠ PUB w) → ∀ w, (m ≫= k) ≠ PUB w.
Proof using. intros H1 H2 w. unfold mbind, pres_bind. destruct m; [apply H2|done|]. exfalso. by eapply H1. Qed.
Lemma div_all_no_ub n l w : div_all n l ≠ PUB w.
Proof using.
  induction l as [|x l IH]; [done|]. simpl. unfold div_checked. case_match; [done|]. simpl. destruct (div_all n l); done.
Qed.
Lemma layout_no_ub md a w : layout_new md a ≠ PUB w.
Proof using.
  unfold layout_new. apply no_ub_bind; clear w.
  - unfold calc_capacity. apply no_ub_bind; [by intros w; destruct a|]. intros x. apply no_ub_bind.
    + intros w. unfold div_checked. by case_match.
    + intros y. apply no_ub_bind. { intros w. unfold usize_sub. repeat case_match; done. }
      intros z. apply no_ub_bind; [apply div_all_no_ub|]. intros l w. by destruct l.
  - intros x. apply no_ub_bind; [|done]. intros w. unfold calc_offsets. destruct (calc_offsets_loop a x 0). unfold assertP. by case_match.
Qed.
Lemma alive_own s e b : is_alive d s e = POk b → is_alive c s e = POk b.
Proof using. apply (own_pagree (λ c, is_alive c s e)). apply is_alive_agree. Qed.
Lemma refuses_debug a : refuses c a → refuses d a.
Proof using.
  unfold refuses. simpl. pose proof (layout_new_agree a) as H. destruct (c_mode c); [done|]. intros E. rewrite E in H.
  destruct (layout_new Debug a) as [| |w] eqn:E2; [done|done|]. by apply layout_no_ub in E2.
Qed.
Lemma reserve_refused_own a s : tidy d s → ac_inv d s → arch_wf c a → refuses c a → reserve_archetype c a s = RPanic s.
Proof using.
  intros Ht Hi Hwf Hre. pose proof (reserve_refused d a s Ht Hi Hwf (refuses_debug _ Hre)) as H. revert H.
  unfold reserve_archetype, mbind, M_bind, getS. destruct (find_arch (ac_archs s) 0 a) as [i|]; [done|]. intros _. unfold lift. by rewrite Hre.
Qed.
Lemma refused_add_own P s s0 I L D e vals m : comp_state d s0 I L D → tidy d (st_ac s0) → alike P s s0 → ¬ P (e_id e) → e ∈ L → D !! e_id e = Some m →
  vals ≠ [] → NoDup vals.*1 → refuses_types c (dom m ∪ list_to_set vals.*1) → add_components c e vals s = RPanic s.
Proof using Hc.
  intros Hs Ht Hal HP HL HD Hne Hnd Href. pose proof (cs_inv _ _ _ _ _ Hs) as Hi. pose proof (ci_ac _ _ _ _ Hi) as Hai. pose proof Hc as [Hbs _ _].
  destruct (cs_row _ _ _ _ _ _ Hs HL) as (m0 & HD0 & Hlt & Hrow). assert (m0 = m) as -> by congruence. clear HD0.
  pose proof (cs_alive _ _ _ _ _ _ Hs Hlt) as Halive. rewrite <- (alike_alive d _ _ _ _ Hal), bool_decide_true in Halive by done. apply alive_own in Halive.
  unfold add_components. unfold mbind at 1, M_bind at 1, getS at 1. unfold mbind at 1, M_bind at 1. rewrite Halive. simpl.
  unfold mbind at 1, M_bind at 1. unfold ensure_types. unfold mbind at 1, M_bind at 1, getS at 1. unfold mbind at 1, M_bind at 1.
  rewrite (alike_has _ _ _ _ Hal HP), (alike_eia _ _ _ _ Hal), (alike_ac _ _ _ Hal).
  destruct Hrow as [(p & k & Hlk & Hl & Hhas & _)|(Hbit & Hhas & ->)]; rewrite Hhas; simpl.
  - destruct (loc_page _ _ _ _ _ _ Hai Hl) as (pg & i & a & ly & _ & Hp2a & Ha & Hly & _ & Hwf & _).
    pose proof (loc_dom _ _ _ _ _ _ _ _ Hai Hl Hp2a Ha) as Hdom.
    unfold mbind at 1, M_bind at 1. rewrite (linked_eia _ _ _ _ Hlk). simpl. unfold mbind at 1, M_bind at 1, arch_index_by_page, vidx. rewrite Hp2a. simpl.
    unfold mbind at 1, M_bind at 1, vget_unchecked. rewrite Ha. simpl.
    destruct (is_include_ids c a vals.*1) eqn:E.
    + exfalso. rewrite is_include_ids_spec in E by first [done|apply Hwf]. assert (refuses c a) as Hra.
      { apply Href; [done|]. intros t. rewrite elem_of_union, elem_of_dom, elem_of_list_to_set, (Hdom t). split; [by left|]. intros [?|Hin]; [done|]. by apply E. }
      apply refuses_debug in Hra. unfold refuses in Hra. rewrite (td_lay _ _ Ht _ _ _ Ha Hly) in Hra. done.
    + destruct (include_arch c a vals.*1 Hwf) as (Hnew & Hwf' & Hids'). unfold mbind at 1, M_bind at 1. rewrite Hnew. simpl.
      set (b := sort_cts _) in *. clearbody b. assert (refuses c b) as Hrb.
      { apply Href; [done|]. intros t. rewrite elem_of_union, elem_of_dom, elem_of_list_to_set, Hids', (Hdom t). done. }
      unfold move_entity. unfold mbind at 1, M_bind at 1, getS at 1. unfold mbind at 1, M_bind at 1. rewrite (alike_eia _ _ _ _ Hal), (alike_ac _ _ _ Hal), (linked_eia _ _ _ _ Hlk). simpl.
      unfold mbind at 1, M_bind at 1, arch_index_by_page, vidx. rewrite Hp2a. simpl. unfold mbind at 1, M_bind at 1, on_ac, zoom, ac_move_entity. unfold mbind at 1, M_bind at 1.
      rewrite (reserve_refused_own b) by (rewrite ?(alike_ac _ _ _ Hal); done). by rewrite set_ac_same.
  - destruct (with_arch c vals.*1) as (a & Hw & Hwf & Hids); [by destruct vals|done|]. unfold mbind at 1, M_bind at 1. rewrite Hw. simpl.
    unfold mbind at 1, M_bind at 1, on_ac, zoom, ac_add_entity. unfold mbind at 1, M_bind at 1. rewrite (reserve_refused_own a); [by rewrite set_ac_same|rewrite ?(alike_ac _ _ _ Hal); done..| |].
    + done.
    + apply Href; [done|]. intros t. rewrite Hids, elem_of_union, dom_empty_L, elem_of_list_to_set. clear. set_solver.
Qed.
Lemma refused_remove_own P s s0 I L D e T m : comp_state d s0 I L D → tidy d (st_ac s0) → alike P s s0 → ¬ P (e_id e) → e ∈ L → D !! e_id e = Some m → m ≠ ∅ →
  (∀ t, is_Some (m !! t) → t ∈ T) ∨ refuses_types c (dom m ∖ list_to_set T) → remove_components c e T s = RPanic s.
Proof using Hc.
  intros Hs Ht Hal HP HL HD Hne Href. pose proof (cs_inv _ _ _ _ _ Hs) as Hi. pose proof (ci_ac _ _ _ _ Hi) as Hai. pose proof Hc as [Hbs _ _].
  destruct (cs_row _ _ _ _ _ _ Hs HL) as (m0 & HD0 & Hlt & Hrow). assert (m0 = m) as -> by congruence. clear HD0.
  destruct Hrow as [(p & k & Hlk & Hl & Hhas & _)|(Hbit & Hhas & ->)]; [|done].
  pose proof (cs_alive _ _ _ _ _ _ Hs Hlt) as Halive. rewrite <- (alike_alive d _ _ _ _ Hal), bool_decide_true in Halive by done. apply alive_own in Halive.
  unfold remove_components. unfold mbind at 1, M_bind at 1, getS at 1. unfold mbind at 1, M_bind at 1, is_valid_with_archetype.
  rewrite Halive. simpl. rewrite (alike_has _ _ _ _ Hal HP), Hhas. simpl. rewrite (alike_eia _ _ _ _ Hal), (alike_ac _ _ _ Hal).
  destruct (loc_page _ _ _ _ _ _ Hai Hl) as (pg & i & a & ly & _ & Hp2a & Ha & Hly & _ & Hwf & _).
  pose proof (loc_dom _ _ _ _ _ _ _ _ Hai Hl Hp2a Ha) as Hdom.
  unfold mbind at 1, M_bind at 1. rewrite (linked_eia _ _ _ _ Hlk). simpl. unfold mbind at 1, M_bind at 1, arch_index_by_page, vidx. rewrite Hp2a. simpl.
  unfold mbind at 1, M_bind at 1, vget_unchecked. rewrite Ha. simpl.
  destruct (exclude_arch c a T Hwf) as (Hids' & [((t & Ht1 & Ht2) & Hnew & Hwf')|(Hall & Hnew)]).
  2:{ unfold mbind at 1, M_bind at 1. by rewrite Hnew. }
  destruct Href as [Hall|Href]; [destruct Ht2; by apply Hall, Hdom|].
  unfold mbind at 1, M_bind at 1. rewrite Hnew. simpl. set (b := sort_cts _) in *. clearbody b. assert (refuses c b) as Hrb.
  { apply Href; [done|]. intros t'. rewrite elem_of_difference, elem_of_dom, elem_of_list_to_set, Hids', (Hdom t'). done. }
  unfold mbind at 1, M_bind at 1. unfold move_entity. unfold mbind at 1, M_bind at 1, getS at 1. unfold mbind at 1, M_bind at 1.
  rewrite (alike_eia _ _ _ _ Hal), (alike_ac _ _ _ Hal), (linked_eia _ _ _ _ Hlk). simpl.
  unfold mbind at 1, M_bind at 1, arch_index_by_page, vidx. rewrite Hp2a. simpl. unfold mbind at 1, M_bind at 1, on_ac, zoom, ac_move_entity. unfold mbind at 1, M_bind at 1.
  rewrite (reserve_refused_own b) by (rewrite ?(alike_ac _ _ _ Hal); done). by rewrite set_ac_same.
Qed.
End both.

Section both.
Context (c : cfg) (Hc : cfg_ok c).
Local Notation d := (in_mode Debug c).
Let Hd : cfg_ok d := cfg_ok_mode Debug c Hc.
(** The calls that do not return panic in both builds, with the same store. *)
Lemma register_own s s1 e : register_new_entity d s = ROk s1 e → register_new_entity c s = ROk s1 e.
Proof using.
  intros H. rewrite (in_mode_id c). destruct (c_mode c); [done|]. pose proof (register_agree c s) as Ha. unfold agree in Ha. by rewrite H in Ha.
Qed.
Lemma room_or_not_debug tr o : room_or_not c tr o → droom d tr o.
Proof using.
  destruct o; try done; simpl.
  - intros [?|?]; [by left|right; by apply refuses_debug].
  - intros H m Hm. destruct (H m Hm) as [?|Hr]; [by left|right]. intros a Ha HS. apply refuses_debug. by apply Hr.
  - intros H m Hm. destruct (H m Hm) as [?|Hr]; [by left|right]. intros a Ha HS. apply refuses_debug. by apply Hr.
Qed.
Definition leaves_some (tr : trace) (o : op) : Prop :=
  ∀ e T m, o = ORemove e T → comps tr e (Some m) → m = ∅ ∨ ∃ t, is_Some (m !! t) ∧ t ∉ T.
Lemma refused_stops P cap tr s s0 o : hrun d cap tr s0 → orders_proper tr → alike P s s0 →
  (∀ e, e ∈ handles o → is_alive d s e = POk true → ¬ P (e_id e)) → args_ok c o → room_or_not c tr o →
  (creating o = true → N.of_nat (length (issued tr)) < 2 ^ 32 - 1) →
  room d tr o ∧ leaves_some tr o ∨ ∃ s1, step c o s = RPanic s1 ∧ step d o s = RPanic s1.
Proof using Hc.
  intros Hr Hp Hal Hlost Ha Hro Hn. pose proof (hrun_tidy d Hd eq_refl _ _ _ Hr) as Htidy. destruct (hrun_state d Hd eq_refl _ _ _ Hr) as (D & Hs & Hcs).
  pose proof (hrun_run _ _ _ _ Hr) as Hrun. pose proof Hc as [Hbs _ _].
  assert (∀ x, refuses_types c x → refuses_types d x) as Hrt. { intros x Hx a Hwf HS. apply refuses_debug. by apply Hx. }
  destruct o as [|a|e|e vals|e T|e vals|q f|t e|t e|g e|g e to|g e to|g e]; simpl in Hro; try (left; split; [done|by intros ? ? ? [=]]).
  - destruct Hro as [Hf|Href]; [left; split; [done|by intros ? ? ? [=]]|right].
    pose proof (run_tags_inv d Hbs _ _ _ Hrun) as Ht. destruct (run_orders d cap Hbs eq_refl _ _ Hrun Hp) as [Hmem Ho].
    destruct (register_returns d Hd eq_refl _ _ _ _ Hrun Hs Ht (ex_intro _ _ Ho) (Hn eq_refl)) as (s1 & e & Hre).
    destruct (register_comp d eq_refl _ _ _ _ _ _ Hs Hre) as (Hi1 & _ & _ & Hac).
    pose proof (same_register d P _ _ Hal) as Hsame. rewrite Hre in Hsame. destruct (register_new_entity d s) as [s2 e2| |] eqn:E; try done.
    destruct Hsame as [Hal2 ->]. assert (st_ac s2 = st_ac s0) as Hac2 by (rewrite (alike_ac _ _ _ Hal2); done).
    pose proof (register_own _ _ _ E) as E'. exists s2. simpl. unfold create_entity_with_archetype. split.
    + unfold mbind at 1, M_bind at 1. unfold mbind at 1, M_bind at 1. rewrite E'.
      unfold mbind at 1, M_bind at 1, on_ac, zoom, ac_add_entity. unfold mbind at 1, M_bind at 1.
      rewrite (reserve_refused_own c a); [by rewrite set_ac_same|by rewrite Hac2|rewrite Hac2; apply Hs|done|done].
    + unfold mbind at 1, M_bind at 1. unfold mbind at 1, M_bind at 1. rewrite E.
      unfold mbind at 1, M_bind at 1, on_ac, zoom, ac_add_entity. unfold mbind at 1, M_bind at 1.
      rewrite (reserve_refused d a); [by rewrite set_ac_same|by rewrite Hac2|rewrite Hac2; apply Hs|done|by apply refuses_debug].
  - pose proof (Hcs e) as Hx. unfold cview in Hx. destruct (decide (e ∈ live tr)) as [HL|HL].
    2:{ left. split; [|by intros ? ? ? [=]]. intros m Hm. apply comps_types in Hx, Hm. rewrite <- Hx in Hm. done. }
    destruct (cs_row _ _ _ _ _ _ Hs HL) as (m0 & HD & Hlt & _). rewrite HD in Hx. destruct (Hro m0 Hx) as [Hf|Href].
    + left. split; [|by intros ? ? ? [=]]. intros m Hm. assert (dom m = dom m0) as ->; [|done]. apply comps_types in Hx, Hm. rewrite <- Hx in Hm. by injection Hm.
    + assert (¬ P (e_id e)) as HP. { apply Hlost; [by left|]. rewrite (alike_alive d _ _ _ _ Hal), (cs_alive _ _ _ _ _ _ Hs Hlt). by rewrite bool_decide_true. }
      right. exists s. destruct Ha as (H1 & H2 & _). simpl. unfold no_out. split; unfold mbind at 1, M_bind at 1.
      * by rewrite (refused_add_own c Hc P _ _ _ _ _ _ _ _ Hs Htidy Hal HP HL HD H1 H2 Href).
      * by rewrite (refused_add_own d Hd P _ _ _ _ _ _ _ _ Hs Htidy Hal HP HL HD H1 H2 (Hrt _ Href)).
  - pose proof (Hcs e) as Hx. unfold cview in Hx. destruct (decide (e ∈ live tr)) as [HL|HL].
    2:{ left. split; [intros m Hm|intros e0 T0 m [= <- <-] Hm]; apply comps_types in Hx, Hm; rewrite <- Hx in Hm; done. }
    destruct (cs_row _ _ _ _ _ _ Hs HL) as (m0 & HD & Hlt & _). rewrite HD in Hx.
    assert (¬ P (e_id e)) as HP. { apply Hlost; [by left|]. rewrite (alike_alive d _ _ _ _ Hal), (cs_alive _ _ _ _ _ _ Hs Hlt). by rewrite bool_decide_true. }
    assert (∀ m, comps tr e (Some m) → dom m = dom m0) as Hdom. { intros m Hm. apply comps_types in Hx, Hm. rewrite <- Hx in Hm. by injection Hm. }
    assert (∀ t m, comps tr e (Some m) → is_Some (m !! t) ↔ is_Some (m0 !! t)) as Hsome. { intros t m Hm. rewrite <- !elem_of_dom. by rewrite (Hdom m Hm). }
    destruct (decide (m0 = ∅)) as [->|Hne].
    { left. split.
      - intros m Hm a (_ & Hne & Heq) Hids. rewrite (Hdom m Hm), dom_empty_L in Hids.
        destruct Hne. destruct (arch_ids a) as [|t l]; [done|]. exfalso. apply (not_elem_of_empty (C := gset tid) t).
        assert (t ∈ t :: l) as [Hin _]%Hids%elem_of_difference by by left. done.
      - intros e0 T0 m [= <- <-] Hm. left. apply dom_empty_iff_L. rewrite (Hdom m Hm). by rewrite dom_empty_L. }
    destruct (decide (dom m0 ∖ list_to_set T = (∅ : gset tid))) as [Hem|Hem].
    { right. exists s. assert (∀ t, is_Some (m0 !! t) → t ∈ T) as Hall.
      { intros t Ht%elem_of_dom. destruct (decide (t ∈ T)) as [|Hn']; [done|]. exfalso. apply (not_elem_of_empty (C := gset tid) t). rewrite <- Hem.
        apply elem_of_difference. split; [done|]. by rewrite elem_of_list_to_set. }
      simpl. unfold no_out. split; unfold mbind at 1, M_bind at 1.
      - by rewrite (refused_remove_own c Hc P _ _ _ _ _ _ _ _ Hs Htidy Hal HP HL HD Hne (or_introl Hall)).
      - by rewrite (refused_remove_own d Hd P _ _ _ _ _ _ _ _ Hs Htidy Hal HP HL HD Hne (or_introl Hall)). }
    destruct (Hro m0 Hx) as [Hf|Href].
    + left. split; [intros m Hm; by rewrite Hdom|]. intros e0 T0 m [= <- <-] Hm. right.
      apply set_choose_L in Hem as [t Ht]. apply elem_of_difference in Ht as [Ht1 Ht2]. rewrite elem_of_list_to_set in Ht2.
      exists t. split; [|done]. apply (Hsome t m Hm). by apply elem_of_dom.
    + right. exists s. simpl. unfold no_out. split; unfold mbind at 1, M_bind at 1.
      * by rewrite (refused_remove_own c Hc P _ _ _ _ _ _ _ _ Hs Htidy Hal HP HL HD Hne (or_intror Href)).
      * by rewrite (refused_remove_own d Hd P _ _ _ _ _ _ _ _ Hs Htidy Hal HP HL HD Hne (or_intror (Hrt _ Href))).
Qed.

Lemma caught_step_both cap tr s o : dcrun d cap tr s → healthy c (st_ac s) (asks (answered tr) o) → args_ok c o → room_or_not c (answered tr) o →
  order_use_ok (answered tr) o → own (answered tr) o → (creating o = true → N.of_nat (creations tr) < 2 ^ 32 - 1) →
  (∀ e, o = ODestroy e → alive_in (answered tr) e) →
  (∃ s' r, step d o s = ROk s' r ∧ step c o s = ROk s' r) ∨ ∃ s', step d o s = RPanic s' ∧ step c o s = RPanic s'.
Proof using Hc.
  intros Hr Hh Ha Hro Huse Hown Hcr Hdes. destruct (told d cap Hd eq_refl _ _ Hr) as (tr' & F & s0 & Ht & Hr0 & Hal & Hp).
  pose proof (hrun_run _ _ _ _ Hr0) as Hrun.
  assert (∀ e, e ∈ handles o → e ∉ F) as HnF. { intros e He HF. apply (tl_disj _ _ _ Ht e HF). by apply Hown. }
  pose proof (lost_step d cap eq_refl _ _ _ _ _ _ Ht Hrun Hal Hown Hdes) as Hsame.
  pose proof (tl_length _ _ _ Ht) as Hlen.
  assert (room_or_not c tr' o) as Hro'.
  { destruct o; simpl in *; try done; intros m Hm; apply Hro; apply (tl_comps _ _ _ Ht); try done; apply HnF; by left. }
  destruct (refused_stops (lost F) cap tr' s s0 o Hr0 Hp Hal) as [[Hroom Hsome]|(s1 & H1 & H2)]; try done.
  - intros e He. eapply (lost_dead d cap eq_refl); try done. by apply Hown.
  - intros E. specialize (Hcr E). lia.
  - left. rewrite (alike_ac _ _ _ Hal), <- (tells_asks _ _ _ _ Ht Hown) in Hh.
    destruct (step_returns d Hd eq_refl _ _ _ o Hr0 Hh (args_ok_mode _ _ _ Ha) Hroom Hp) as (s1 & r & Hst).
    + by eapply tells_order.
    + by eapply tells_own.
    + destruct o; simpl; try done; try (specialize (Hcr eq_refl); lia).
      * apply (tl_alive _ _ _ Ht); [apply HnF; by left|by apply Hdes].
      * intros m Hm. by eapply Hsome.
    + rewrite Hst in Hsame. destruct (step d o s) as [s' r'| |] eqn:E; try done. exists s', r'. split; [done|]. by apply step_own_mode.
  - right. by exists s1.
Qed.

Lemma crun_debug cap tr s : crun c cap tr s → dcrun d cap tr s.
Proof using Hc.
  induction 1 as [s Hcap H|tr s o x s' Hr IH Hh Ha Hro Hown Hdes Hcr Huse Hends].
  - constructor. revert H. unfold store_with_capacity. simpl. assert (0 <? cap = true) as -> by by apply N.ltb_lt. by destruct (c_mode c).
  - assert (order_use_ok (answered tr) o ∨ c = d ∧ x = Panicked) as [Huse'|[Heq ->]].
    { destruct Huse as [?|[Hm ->]]; [by left|right]. split; [|done]. rewrite (in_mode_id c) at 1. by rewrite Hm. }
    + destruct (caught_step_both _ _ _ _ IH Hh Ha Hro Huse' Hown Hcr Hdes) as [(s1 & r & H1 & H2)|(s1 & H1 & H2)];
        destruct x as [r'|]; simpl in Hends; rewrite H2 in Hends; try done.
      * injection Hends as -> ->. econstructor; try done. by apply room_or_not_debug.
      * injection Hends as ->. econstructor; try done. by apply room_or_not_debug.
    + econstructor; try done; [by apply room_or_not_debug|]. simpl in *. by rewrite <- Heq.
Qed.

Lemma both_values cap tr s e : crun c cap tr s → e ∈ issued (answered tr) →
  ∃ x, comps (answered tr) e x ∧ observed c s e x ∧ (is_Some x ↔ alive_in (answered tr) e).
Proof using Hc.
  intros Hr He. destruct (caught_values d cap Hd eq_refl _ _ _ (crun_debug _ _ _ Hr) He) as (x & H1 & H2 & H3).
  exists x. split; [done|]. split; [by apply observed_own_mode|done].
Qed.
Lemma both_observed cap tr s e x : crun c cap tr s → e ∈ issued (answered tr) → observed c s e x ↔ observed d s e x.
Proof using Hc.
  intros Hr He. split; [|apply observed_own_mode]. intros Ho.
  destruct (caught_values d cap Hd eq_refl _ _ _ (crun_debug _ _ _ Hr) He) as (y & _ & Hy & _).
  by rewrite (observed_inj _ _ _ _ _ Ho (observed_own_mode _ _ _ _ Hy)).
Qed.
Lemma both_query cap tr s q : crun c cap tr s → NoDup (q_types q) → q_types q ≠ [] →
  ∃ it l it1 it2, component_query c q s = POk it ∧
    yields (qiter_next_with (ec_ver (st_ec s))) it l it1 ∧ yields qiter_next it l.*2 it2 ∧ qiter_len it = length l ∧
    NoDup l.*1 ∧ disjoint_items l ∧
    (∀ e, e ∈ l.*1 ↔ e ∈ issued (answered tr) ∧ ∃ m, observed c s e (Some m) ∧ ∀ t, t ∈ q_types q → is_Some (m !! t)) ∧
    (∀ e rs, (e, rs) ∈ l → get_components_refs c s e (q_types q) = POk (Some rs) ∧
      ∃ m, observed c s e (Some m) ∧ read_ref (ac_pages (st_ac s)) <$> rs = values m (q_types q)).
Proof using Hc.
  intros Hr Hq Hne. destruct (caught_query d cap Hd eq_refl _ _ q (crun_debug _ _ _ Hr) Hq Hne) as (it & l & it1 & it2 & H1 & H2 & H3 & H4 & H5 & H6 & H7 & H8).
  exists it, l, it1, it2. split; [by rewrite <- component_query_own|]. split_and!; try done.
  - intros e. rewrite H7. split; intros (He & m & Hm & Hall); (split; [done|]; exists m; split; [by eapply both_observed|done]).
  - intros e rs Hin. destruct (H8 e rs Hin) as (Hrs & m & Hm & Hv). split; [by apply refs_own|]. exists m. split; [by apply observed_own_mode|done].
Qed.
Lemma both_return cap tr s o : crun c cap tr s → healthy c (st_ac s) (asks (answered tr) o) → args_ok c o → room d (answered tr) o →
  order_use_ok (answered tr) o → own (answered tr) o → (creating o = true → N.of_nat (creations tr) < 2 ^ 32 - 1) →
  match o with
  | ODestroy e => alive_in (answered tr) e
  | ORemove e T => ∀ m, comps (answered tr) e (Some m) → m = ∅ ∨ ∃ t, is_Some (m !! t) ∧ t ∉ T
  | _ => True
  end → ∃ s' r, step c o s = ROk s' r.
Proof using Hc.
  intros Hr Hh Ha Hro Huse Hown Hcr Hs.
  destruct (caught_return d cap Hd eq_refl _ _ o (crun_debug _ _ _ Hr) Hh (args_ok_mode _ _ _ Ha) Hro Huse Hown Hcr Hs) as (s' & r & H).
  exists s', r. by apply step_own_mode.
Qed.
Lemma both_defined cap tr s o : crun c cap tr s → healthy c (st_ac s) (asks (answered tr) o) → args_ok c o → room_or_not c (answered tr) o →
  order_use_ok (answered tr) o → own (answered tr) o → (creating o = true → N.of_nat (creations tr) < 2 ^ 32 - 1) →
  (∀ e, o = ODestroy e → alive_in (answered tr) e) → defined c o s.
Proof using Hc.
  intros Hr Hh Ha Hro Huse Hown Hcr Hdes w Hub.
  destruct (caught_step_both _ _ _ _ (crun_debug _ _ _ Hr) Hh Ha Hro Huse Hown Hcr Hdes) as [(s1 & r & _ & H)|(s1 & _ & H)]; congruence.
Qed.
Lemma both_told cap tr s : crun c cap tr s → ∃ tr' F s0, explains tr tr' F ∧ hrun d cap tr' s0 ∧
  ∀ e, e ∈ issued (answered tr) → ∀ x, observed c s e x ↔ observed d s0 e x.
Proof using Hc.
  intros Hr. destruct (caught_told d cap Hd eq_refl _ _ (crun_debug _ _ _ Hr)) as (tr' & F & s0 & H1 & H2 & H3).
  exists tr', F, s0. split_and!; try done. intros e He x. rewrite <- (H3 e He). by eapply both_observed.
Qed.
Lemma both_same cap tr s o : crun c cap tr s → healthy c (st_ac s) (asks (answered tr) o) → args_ok c o → room_or_not c (answered tr) o →
  order_use_ok (answered tr) o → own (answered tr) o → (creating o = true → N.of_nat (creations tr) < 2 ^ 32 - 1) →
  (∀ e, o = ODestroy e → alive_in (answered tr) e) →
  ∀ x s', ends c o s x s' ↔ ends d o s x s'.
Proof using Hc.
  intros Hr Hh Ha Hro Huse Hown Hcr Hdes x s'.
  destruct (caught_step_both _ _ _ _ (crun_debug _ _ _ Hr) Hh Ha Hro Huse Hown Hcr Hdes) as [(s1 & r & H1 & H2)|(s1 & H1 & H2)];
    destruct x; simpl; by rewrite H1, H2.
Qed.
Lemma dcrun_prun e cap tr s : dcrun e cap tr s → prun e cap tr s.
Proof using. induction 1; [by constructor|by econstructor]. Qed.
Lemma answered_snoc tr o x : answered (tr ++ [(o, x)]) = answered tr ++ match x with Returned r => [(o, r)] | Panicked => [] end.
Proof using. unfold answered. rewrite omap_app. simpl. by destruct x. Qed.
Lemma crun_orders cap tr s : crun c cap tr s → orders_proper (answered tr).
Proof using.
  induction 1 as [s Hcap H|tr s o x s' Hr IH Hh Ha Hro Hown Hdes Hcr Huse Hends].
  - intros tr1 ? ? ? Heq. by destruct tr1.
  - rewrite answered_snoc. destruct x as [r|]; [|by rewrite app_nil_r]. apply proper_snoc'; [done|]. by destruct Huse as [?|[_ [=]]].
Qed.
Lemma both_has_tag cap tr s t e : crun c cap tr s → ec_cap (st_ec s) < 2 ^ 32 → tags_on_live (answered tr) → alive_in (answered tr) e →
  ∃ b : bool, has_tag c s t e = POk b ∧ (b = true ↔ tagged (answered tr) t e).
Proof using Hc.
  intros Hr Hcap Ht He. pose proof Hc as [Hbs _ _].
  exact (caught_has_tag d cap Hbs eq_refl _ _ t e (dcrun_prun _ _ _ _ (crun_debug _ _ _ Hr)) Hcap Ht He).
Qed.
Lemma both_order cap tr s g : crun c cap tr s → ec_cap (st_ec s) < 2 ^ 32 →
  let l := members (answered tr) g in
  NoDup l ∧ (∀ e, e ∈ l → alive_in (answered tr) e) ∧
  first_ordered c s g = POk (head l) ∧
  last_ordered c s g = POk (last l) ∧
  (∀ i e, l !! i = Some e → next_ordered c s g e = POk (l !! S i) ∧ previous_ordered c s g e = POk (before l i)) ∧
  (∀ e, alive_in (answered tr) e → e ∉ l → next_ordered c s g e = POk None ∧ previous_ordered c s g e = POk None).
Proof using Hc.
  intros Hr Hcap. pose proof Hc as [Hbs _ _].
  exact (caught_order d cap Hbs eq_refl _ _ g (dcrun_prun _ _ _ _ (crun_debug _ _ _ Hr)) Hcap (crun_orders _ _ _ Hr)).
Qed.
End both.

(** ** Such histories, by computation *)
Definition refusesb (c : cfg) (a : archetype) : bool := match layout_new (c_mode c) a with PPanic => true | _ => false end.
Definition roomb (c : cfg) (S : gset tid) : bool := fits_typesb (in_mode Debug c) S || refusesb c (arch_of c S).
Lemma refusesb_ok c a : refusesb c a = true → refuses c a.
Proof. unfold refusesb, refuses. by destruct (layout_new (c_mode c) a). Qed.
Lemma roomb_ok c S : roomb c S = true → fits_types (in_mode Debug c) S ∨ refuses_types c S.
Proof.
  intros [H|H]%orb_prop; [left; by apply fits_typesb_ok|right]. intros a Hwf HS. rewrite (arch_of_eq _ _ _ Hwf HS). by apply refusesb_ok.
Qed.
Definition cargsb (c : cfg) (tr : trace) (o : op) : bool :=
  match o with
  | OCreateWith a => incrb (arch_ids a) && nonemptyb a && bool_decide (a = ctype_of c <$> arch_ids a) && (fitsb (in_mode Debug c) a || refusesb c a)
  | OAdd e vals => nonemptyb vals && bool_decide (NoDup vals.*1) && vals_okb c vals &&
      match types tr e with Some ts => roomb c (ts ∪ list_to_set vals.*1) | None => true end
  | OSet e vals => nonemptyb vals && bool_decide (NoDup vals.*1) && vals_okb c vals
  | ORemove e T => nonemptyb T && bool_decide (NoDup T) &&
      match types tr e with Some ts => roomb c (ts ∖ list_to_set T) | None => true end
  | OWrite _ _ => false
  | _ => true
  end.
Lemma cargsb_ok c tr o : cargsb c tr o = true → args_ok c o ∧ room_or_not c tr o.
Proof.
  intros H2. destruct o; simpl in *; try done.
  - apply andb_prop in H2 as [H2 Hf]. apply andb_prop in H2 as [H2 Hb%bool_decide_eq_true]. apply andb_prop in H2 as [Hi%incrb_ok Hn%nonemptyb_ok].
    split; [done|]. apply orb_prop in Hf as [Hf|Hf]; [left|right; by apply refusesb_ok].
    unfold fitsb in Hf. unfold fits. destruct (layout_new (c_mode (in_mode Debug c)) a) as [ly| |]; try done. exists ly. split; [done|]. by apply N.leb_le.
  - apply andb_prop in H2 as [H2 Hf]. apply andb_prop in H2 as [H2 Hv%vals_okb_ok]. apply andb_prop in H2 as [Hn%nonemptyb_ok Hnd%bool_decide_eq_true].
    split; [done|]. intros m Hm%comps_types. simpl in Hm. rewrite <- Hm in Hf. by apply roomb_ok.
  - apply andb_prop in H2 as [H2 Hf]. apply andb_prop in H2 as [Hn%nonemptyb_ok Hnd%bool_decide_eq_true].
    split; [done|]. intros m Hm%comps_types. simpl in Hm. rewrite <- Hm in Hf. by apply roomb_ok.
  - apply andb_prop in H2 as [H2 Hv%vals_okb_ok]. apply andb_prop in H2 as [Hn%nonemptyb_ok Hnd%bool_decide_eq_true]. done.
Qed.
Definition ownb (tr : trace) (o : op) : bool := forallb (λ e, bool_decide (e ∈ issued tr)) (handles o).
Definition destroyb (tr : trace) (o : op) : bool := match o with ODestroy e => bool_decide (e ∈ live tr) | _ => true end.
Lemma use_check_ok tr o : use_check (live tr) (members tr) o = true → order_use_ok tr o.
Proof.
  intros H3. destruct o; simpl in *; try done; rewrite <- ?live_alive;
    repeat match goal with H : _ && _ = true |- _ => apply andb_prop in H as [? ?] end;
    repeat match goal with H : bool_decide _ = true |- _ => apply bool_decide_eq_true in H end; done.
Qed.
Fixpoint cexec (c : cfg) (ops : list (list entity → op)) (hs : list entity) (tr : list (op * outcome)) (s : store) : option (list (op * outcome) * store) :=
  match ops with
  | [] => Some (tr, s)
  | o :: r =>
    let o := o hs in
    if healthyb c (st_ac s) (asks (answered tr) o) && cargsb c (answered tr) o && ownb (answered tr) o && destroyb (answered tr) o &&
       use_check (live (answered tr)) (members (answered tr)) o &&
       (N.of_nat (creations tr) <? 2 ^ 32 - 1) then
      match step c o s with
      | ROk s' x => cexec c r (match x with Some e => hs ++ [e] | None => hs end) (tr ++ [(o, Returned x)]) s'
      | RPanic s' => cexec c r hs (tr ++ [(o, Panicked)]) s'
      | RUB _ => None
      end
    else None
  end.
Definition cexec0 (c : cfg) (cap : N) (ops : list (list entity → op)) : option (list (op * outcome) * store) :=
  match store_with_capacity (c_mode c) cap with POk s => cexec c ops [] [] s | _ => None end.
Lemma cexec_run c cap ops hs tr s tr' s' : crun c cap tr s → cexec c ops hs tr s = Some (tr', s') → crun c cap tr' s'.
Proof.
  revert hs tr s. induction ops as [|o ops IH]; intros hs tr s Hr; simpl; [by intros [= <- <-]|]. set (oo := o hs).
  destruct (_ && _ && _ && _ && _ && _) eqn:E; [|done]. apply andb_prop in E as [[[[[H1%healthyb_ok [H2 H3]%cargsb_ok]%andb_prop H4]%andb_prop H5]%andb_prop H6]%andb_prop H7%N.ltb_lt].
  assert (own (answered tr) oo) as Hown.
  { intros e He. unfold ownb in H4. rewrite forallb_forall in H4. eapply bool_decide_eq_true_1, H4. by apply elem_of_list_In. }
  assert (∀ e, oo = ODestroy e → alive_in (answered tr) e) as Hd.
  { intros e Heq. rewrite Heq in H5. simpl in H5. apply live_alive. by apply bool_decide_eq_true_1 in H5. }
  apply use_check_ok in H6 as Huse.
  destruct (step c oo s) as [s1 r|s1|] eqn:Est; [| |done]; intros H; (eapply IH; [|exact H]); econstructor; try done; by left.
Qed.
Lemma cexec0_run c cap ops tr s : 0 < cap → cexec0 c cap ops = Some (tr, s) → crun c cap tr s.
Proof.
  intros Hcap. unfold cexec0. destruct (store_with_capacity (c_mode c) cap) as [s0| |] eqn:E; [|done..]. apply cexec_run. by constructor.
Qed.
(** Type 7 has size 0, and archetypes with it are refused: the second creation panics after it took the id of an entity that had
    components; so does adding it to an entity with a component. Removing the only component panics, too. *)
Definition ex_caught : list (list entity → op) :=
  [λ _, OCreateWith (ex_arch [1]); λ _, OCreateWith (ex_arch [1; 2]); λ hs, OAdd (h 0 hs) [(1, [1; 2; 3; 4])];
   λ hs, OAdd (h 1 hs) [(1, [5; 6; 7; 8])]; λ hs, ODestroy (h 0 hs); λ _, OCreateWith (ex_arch [7]);
   λ hs, OAdd (h 1 hs) [(7, [])]; λ _, OCreate; λ hs, OAdd (h 2 hs) [(1, [9; 9; 9; 9])]; λ hs, ORemove (h 2 hs) [1];
   λ hs, OTagAdd 3 (h 2 hs); λ hs, OSet (h 1 hs) [(2, [1; 1; 1; 1; 1; 1; 1; 1])]; λ hs, OOrdAdd 5 (h 2 hs); λ hs, OOrdPrev 5 (h 1 hs) (h 2 hs)].
