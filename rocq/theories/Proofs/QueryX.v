(** QueryX.v — component queries over histories; iterators stay finished. *)
From Verif.Proofs Require Export CompQ TagsP TagsX.
Local Open Scope N_scope.

(** ** Iterators stay finished *)
Lemma cq_pages_ok c q pages offs ps vs n : cq_pages c q pages offs ps = POk (vs, n) → ∀ v, v ∈ vs → (0 < pv_count v)%nat.
Proof.
  revert vs n. induction ps as [|p ps IH]; intros vs n; simpl.
  - intros [= <- <-] v Hv. by apply elem_of_nil in Hv.
  - intros (pg & _ & H)%pbind_ok. apply pbind_ok in H as ([vs' n'] & Hr & [= Heq]). destruct (Nat.eqb_spec (page_count pg) 0) as [E|E].
    + injection Heq as <- <-. by eapply IH.
    + injection Heq as <- <-. intros v [->|Hv]%elem_of_cons; [simpl; lia|]. by eapply IH.
Qed.
Lemma cq_archs_ok c q s ais vs n : cq_archs c q s ais = POk (vs, n) → ∀ v, v ∈ vs → (0 < pv_count v)%nat.
Proof.
  revert vs n. induction ais as [|i ais IH]; intros vs n; simpl.
  - intros [= <- <-] v Hv. by apply elem_of_nil in Hv.
  - intros (al & _ & H)%pbind_ok. destruct (negb _); [by eapply IH|]. apply pbind_ok in H as (offs & _ & H). apply pbind_ok in H as (ps & _ & H).
    apply pbind_ok in H as ([vs1 n1] & H1 & H). apply pbind_ok in H as ([vs2 n2] & H2 & [= <- <-]). intros v [Hv|Hv]%elem_of_app; simpl in *.
    + by eapply cq_pages_ok.
    + by eapply IH.
Qed.
Lemma component_query_views c q s it : component_query c q s = POk it → views_ok it.
Proof. unfold component_query. intros ([vs n] & H & [= <-])%pbind_ok. unfold views_ok. simpl. by eapply cq_archs_ok. Qed.
Lemma qiter_next_inv it x it' : views_ok it → qiter_next it = POk (x, it') →
  views_ok it' ∧ qi_count it' = qi_count it ∧ (if x then ∃ y, qrest it = y :: qrest it' else qrest it = [] ∧ qrest it' = []).
Proof.
  intros Hok Hn. pose proof (qiter_next_spec it Hok) as H. destruct (qrest it) as [|[v k] r].
  - destruct H as (it1 & Hn1 & ? & ? & ?). rewrite Hn in Hn1. injection Hn1 as -> ->. done.
  - destruct H as (it1 & Hr & ? & ? & _ & _ & Hn1). rewrite Hn in Hn1. symmetry in Hn1. apply pbind_ok in Hn1 as (rs & _ & [= <- <-]).
    split; [done|]. split; [done|]. exists (v, k). congruence.
Qed.
Lemma qiter_next_with_inv vers it x it' : views_ok it → qiter_next_with vers it = POk (x, it') →
  views_ok it' ∧ qi_count it' = qi_count it ∧ (if x then ∃ y, qrest it = y :: qrest it' else qrest it = [] ∧ qrest it' = []).
Proof.
  intros Hok. unfold qiter_next_with. intros ([o it1] & Hn & H)%pbind_ok. apply qiter_next_inv in Hn; [|done]. simpl in H. destruct o.
  - apply pbind_ok in H as (id & _ & H). apply pbind_ok in H as (v & _ & [= <- <-]). done.
  - injection H as <- <-. done.
Qed.
Lemma advance_views {X} (next : qiter → pres (option X * qiter)) : (∀ it x it', views_ok it → next it = POk (x, it') → views_ok it') →
  ∀ n it it', views_ok it → advance next n it = POk it' → views_ok it'.
Proof.
  intros Hn n. induction n as [|n IH]; intros it it' Hok; simpl.
  - by intros [= <-].
  - intros ([x it1] & H1 & H2)%pbind_ok. eapply IH; [|exact H2]. simpl. eauto.
Qed.
Lemma component_query_stays_finished c q s it n it1 it2 : component_query c q s = POk it →
  advance qiter_next n it = POk it1 → qiter_next it1 = POk (None, it2) → finished qiter_next it2.
Proof.
  intros Hq Ha Hn. pose proof (component_query_views _ _ _ _ Hq) as Hok.
  assert (views_ok it1) as Hok1. { eapply (advance_views qiter_next); [|done|done]. intros ? ? ? H1 H2. by apply qiter_next_inv in H2 as (? & _). }
  apply qiter_next_inv in Hn as (? & _ & _ & ?); [|done]. by apply qiter_finished.
Qed.
Lemma component_query_with_stays_finished c q s vers it n it1 it2 : component_query c q s = POk it →
  advance (qiter_next_with vers) n it = POk it1 → qiter_next_with vers it1 = POk (None, it2) → finished (qiter_next_with vers) it2.
Proof.
  intros Hq Ha Hn. pose proof (component_query_views _ _ _ _ Hq) as Hok.
  assert (views_ok it1) as Hok1. { eapply (advance_views (qiter_next_with vers)); [|done|done]. intros ? ? ? H1 H2. by apply qiter_next_with_inv in H2 as (? & _). }
  apply qiter_next_with_inv in Hn as (? & _ & _ & ?); [|done]. by apply qiter_finished_with.
Qed.
Lemma filter_next_inv vers bv depth : ∀ it x it', views_ok it → filter_next depth vers bv it = Some (POk (x, it')) →
  views_ok it' ∧ (x = None → qrest it' = []).
Proof.
  induction depth as [|depth IH]; intros it x it' Hok; simpl; [done|].
  destruct (qiter_next_with vers it) as [[[y|] it1]| |] eqn:E; try done.
  - apply qiter_next_with_inv in E as (Hok1 & _ & _); [|done]. destruct (bv_get bv (e_id y.1)) as [[]| |]; try done.
    + by intros [= <- <-].
    + by apply IH.
  - intros [= <- <-]. by apply qiter_next_with_inv in E as (Hok1 & _ & _ & ?).
Qed.
Lemma filter_stays_finished c q s s' bv depth it n it1 it2 : component_query c q s = POk it →
  advance (filtering depth s' bv) n it = POk it1 → filtering depth s' bv it1 = POk (None, it2) → finished (filtering depth s' bv) it2.
Proof.
  intros Hq Ha Hn. pose proof (component_query_views _ _ _ _ Hq) as Hok.
  assert (∀ i x i', filtering depth s' bv i = POk (x, i') → filter_next depth (ec_ver (st_ec s')) bv i = Some (POk (x, i'))) as Hf.
  { intros i x i'. unfold filtering. destruct (filter_next _ _ _ _) as [r|]; [|done]. simpl. by intros ->. }
  assert (views_ok it1) as Hok1. { eapply (advance_views (filtering depth s' bv)); [|done|done]. intros ? ? ? H1 H2%Hf. by apply filter_next_inv in H2 as (? & _). }
  assert (∃ d, depth = S d) as [d ->]. { destruct depth; [done|by eexists]. }
  apply Hf, filter_next_inv in Hn as (Hok2 & Hr2); [|done]. specialize (Hr2 eq_refl).
  apply (advance_done _ (λ it, views_ok it ∧ qrest it = [])); [|done]. intros i [Hi Hri].
  destruct (qiter_finished_with (ec_ver (st_ec s')) i Hi Hri 0%nat) as (i1 & i2 & [= <-] & Hn). exists i2.
  unfold filtering. simpl. rewrite Hn. simpl. split; [done|]. by apply qiter_next_with_inv in Hn as (? & _ & _ & ?).
Qed.
Lemma eiter_stays_finished it it' : eiter_next it = POk (None, it') → finished eiter_next it' ∧ finished eiter_next_with it'.
Proof.
  intros H. assert (it' = it ∧ ei_ranges it !! ei_range it = None) as [-> Hn].
  { unfold eiter_next in H. destruct (ei_ranges it !! ei_range it) as [[? ?]|]; [|by injection H as <-].
    apply pbind_ok in H as (e & _ & H). apply pbind_ok in H as (v & _ & H). apply pbind_ok in H as (i & _ & H). destruct (if Nat.leb _ _ then _ else _).
    by apply pbind_ok in H as (? & _ & ?). }
  split; apply (advance_done _ (λ it, ei_ranges it !! ei_range it = None)); try done; intros i Hi; exists i.
  - unfold eiter_next. by rewrite Hi.
  - unfold eiter_next_with, eiter_next. by rewrite Hi.
Qed.
Lemma oiter_stays_finished vers it it' : oiter_next it = POk (None, it') → finished oiter_next it' ∧ finished (oiter_next_with vers) it'.
Proof.
  intros H. assert (it' = it ∧ oi_ranges it !! oi_range it = None) as [-> Hn].
  { unfold oiter_next in H. destruct (oi_ranges it !! oi_range it) as [[? ?]|]; [|by injection H as <-]. destruct (if Nat.leb _ _ then _ else _).
    apply pbind_ok in H as (v & _ & H). by apply pbind_ok in H as (? & _ & ?). }
  split; apply (advance_done _ (λ it, oi_ranges it !! oi_range it = None)); try done; intros i Hi; exists i.
  - unfold oiter_next. by rewrite Hi.
  - unfold oiter_next_with, oiter_next. by rewrite Hi.
Qed.

(** All items, for examples. *)
Fixpoint drain {I X} (fuel : nat) (next : I → pres (option X * I)) (it : I) : pres (list X) :=
  match fuel with
  | O => POk []
  | S fuel => r ← next it; match r.1 with None => mret [] | Some x => l ← drain fuel next r.2; mret (x :: l) end
  end.

(** The entities and values of the items. *)
Definition shown (s : store) (l : list (entity * list cref)) : list (entity * list (list cell)) :=
  List.map (λ x, (x.1, List.map (read_ref (ac_pages (st_ac s))) x.2)) l.
Definition show_query (c : cfg) (q : access) (s : store) : pres (list (entity * list (list cell))) :=
  it ← component_query c q s;
  l ← drain (S (qiter_len it)) (qiter_next_with (ec_ver (st_ec s))) it;
  mret (shown s l).

(** ** Items *)
Lemma yields_advance {I X} (next : I → pres (option X * I)) it l it' : yields next it l it' → ∀ n, (n ≤ length l)%nat →
  ∃ it1, advance next n it = POk it1 ∧ yields next it1 (drop n l) it'.
Proof.
  induction 1 as [it it' Hn|it x it1 l it' Hn Hy IH]; intros n Hle.
  - simpl in Hle. assert (n = 0%nat) as -> by lia. exists it. split; [done|]. by constructor.
  - destruct n as [|n]; simpl in *.
    + exists it. split; [done|]. by econstructor.
    + rewrite Hn. simpl. apply IH. lia.
Qed.
Lemma yields_fun {I X} (next : I → pres (option X * I)) it l it' l2 it2 : yields next it l it' → yields next it l2 it2 → l = l2 ∧ it' = it2.
Proof.
  intros H. revert l2 it2. induction H as [it it' Hn|it x it1 l it' Hn Hy IH]; intros l2 it2 H2; inversion H2; subst.
  - split; congruence.
  - congruence.
  - congruence.
  - assert (x0 = x ∧ it3 = it1) as [-> ->] by (split; congruence). edestruct IH as [-> ->]; done.
Qed.
Lemma advance_count n : ∀ it it', views_ok it → advance qiter_next n it = POk it' → qi_count it' = qi_count it.
Proof.
  induction n as [|n IH]; intros it it' Hok; simpl; [by intros [= <-]|].
  intros ([x it1] & H1 & H2)%pbind_ok. apply qiter_next_inv in H1 as (Hok1 & Hc1 & _); [|done]. rewrite (IH _ _ Hok1 H2). done.
Qed.

(** Tag types once added stay known. *)
Lemma tags_ids_mono c o s s' r : step c o s = ROk s' r → (∀ t, t ∈ tg_ids (st_tags s) → t ∈ tg_ids (st_tags s')) ∧ (∀ t e, o = OTagAdd t e → search_ok (c_bs c) → incr (tg_ids (st_tags s)) → t ∈ tg_ids (st_tags s')).
Proof.
  intros H%step_tags.
  assert (∀ n, tags_grow n (st_tags s) = ROk (st_tags s') () → tg_ids (st_tags s') = tg_ids (st_tags s)) as Hg.
  { intros n Hx. unfold tags_grow in Hx. apply bind_ok in Hx as (s1 & x & [-> ->]%get_ok & Hx). apply bind_ok in Hx as (s2 & b & [_ ->]%lift_ok & Hx).
    apply put_ok in Hx. by rewrite Hx. }
  destruct H as [o Ho [[_ ->]|H]|e _ H|t e _ H|t e _ H|o H1 H2 H3 _ ->].
  - split; [done|]. intros t e ->. naive_solver.
  - rewrite (Hg _ H). split; [done|]. intros t e ->. naive_solver.
  - split; [|done]. unfold tags_remove_all in H. apply bind_ok in H as (s1 & x & [-> ->]%get_ok & H).
    apply bind_ok in H as (s2 & b & [_ ->]%lift_ok & H). apply put_ok in H. by rewrite H.
  - unfold tags_add in H. apply bind_ok in H as (s1 & x & [-> ->]%get_ok & H). apply bind_ok in H as (s1 & i & H1 & H).
    apply bind_ok in H as (s2 & x & [-> ->]%get_ok & H). apply bind_ok in H as (s2 & v & [Hv%vget_ok ->]%lift_ok & H).
    apply bind_ok in H as (s2 & v' & [Hv' ->]%lift_ok & H). apply put_ok in H. rewrite H. simpl. clear H.
    destruct (c_bs c (tg_ids (st_tags s)) t) as [j|j] eqn:E.
    + apply ret_ok in H1 as [Heq ->]. subst. split; [done|]. intros t' e' [= -> ->] Hbs Hinc.
      destruct (search_cases _ _ t' Hbs Hinc) as [(j' & Hj & Hl)|(j' & Hj & _)]; [by eapply elem_of_list_lookup_2|congruence].
    + apply bind_ok in H1 as (s2 & ids & [[_ ->]%vinsert_ok ->]%lift_ok & H1). apply bind_ok in H1 as (s2 & [] & ->%put_ok & H1).
      apply bind_ok in H1 as (s2 & bvs & [[_ ->]%vinsert_ok ->]%lift_ok & H1). apply bind_ok in H1 as (s2 & [] & Hs2%put_ok & [Heq ->]%ret_ok). subst. simpl.
      split.
      * intros t' Ht. rewrite <- (take_drop j (tg_ids (st_tags s))) in Ht. set_solver.
      * intros t' e' [= -> ->] _ _. set_solver.
  - split; [|done]. unfold tags_remove in H. apply bind_ok in H as (s1 & x & [-> ->]%get_ok & H). destruct (c_bs c _ _).
    + apply bind_ok in H as (s1 & v & [Hv%vget_ok ->]%lift_ok & H). apply bind_ok in H as (s2 & v' & [Hv' ->]%lift_ok & H). apply put_ok in H. by rewrite H.
    + apply ret_ok in H as [_ Heq]. by rewrite Heq.
  - split; [done|]. intros t e ->. naive_solver.
Qed.
Lemma tag_ids_added c cap tr s t e r : search_ok (c_bs c) → run c cap tr s → (OTagAdd t e, r) ∈ tr → t ∈ tg_ids (st_tags s).
Proof.
  intros Hbs. induction 1 as [s H|tr s o s' r' Hr IH H]; [by intros ?%elem_of_nil|].
  destruct (tags_ids_mono _ _ _ _ _ H) as [Hm Ha]. intros [Hx|Hx]%elem_of_app; [auto|]. apply elem_of_list_singleton in Hx. injection Hx as <- _.
  eapply Ha; [done|done|]. apply (run_tags_inv c Hbs _ _ _ Hr).
Qed.
Lemma tags_ids_only c o s s' r t : step c o s = ROk s' r → t ∈ tg_ids (st_tags s') → t ∈ tg_ids (st_tags s) ∨ ∃ e, o = OTagAdd t e.
Proof.
  intros H%step_tags.
  assert (∀ n, tags_grow n (st_tags s) = ROk (st_tags s') () → tg_ids (st_tags s') = tg_ids (st_tags s)) as Hg.
  { intros n Hx. unfold tags_grow in Hx. apply bind_ok in Hx as (s1 & x & [-> ->]%get_ok & Hx). apply bind_ok in Hx as (s2 & b & [_ ->]%lift_ok & Hx).
    apply put_ok in Hx. by rewrite Hx. }
  destruct H as [o Ho [[_ ->]|H]|e _ H|t' e _ H|t' e _ H|o H1 H2 H3 _ ->].
  - auto.
  - rewrite (Hg _ H). auto.
  - unfold tags_remove_all in H. apply bind_ok in H as (s1 & x & [-> ->]%get_ok & H).
    apply bind_ok in H as (s2 & b & [_ ->]%lift_ok & H). apply put_ok in H. rewrite H. auto.
  - unfold tags_add in H. apply bind_ok in H as (s1 & x & [-> ->]%get_ok & H). apply bind_ok in H as (s1 & i & H1 & H).
    apply bind_ok in H as (s2 & x & [-> ->]%get_ok & H). apply bind_ok in H as (s2 & v & [Hv%vget_ok ->]%lift_ok & H).
    apply bind_ok in H as (s2 & v' & [Hv' ->]%lift_ok & H). apply put_ok in H. rewrite H. simpl. clear H.
    destruct (c_bs c (tg_ids (st_tags s)) t') as [j|j] eqn:E.
    + apply ret_ok in H1 as [Heq ->]. subst. auto.
    + apply bind_ok in H1 as (s2 & ids & [[_ ->]%vinsert_ok ->]%lift_ok & H1). apply bind_ok in H1 as (s2 & [] & ->%put_ok & H1).
      apply bind_ok in H1 as (s2 & bvs & [[_ ->]%vinsert_ok ->]%lift_ok & H1). apply bind_ok in H1 as (s2 & [] & Hs2%put_ok & [Heq ->]%ret_ok). subst. simpl.
      intros Ht. rewrite <- (take_drop j (tg_ids (st_tags s))). set_solver.
  - unfold tags_remove in H. apply bind_ok in H as (s1 & x & [-> ->]%get_ok & H). destruct (c_bs c _ _).
    + apply bind_ok in H as (s1 & v & [Hv%vget_ok ->]%lift_ok & H). apply bind_ok in H as (s2 & v' & [Hv' ->]%lift_ok & H). apply put_ok in H. rewrite H. auto.
    + apply ret_ok in H as [_ Heq]. rewrite Heq. auto.
  - auto.
Qed.
Lemma tag_ids_iff c cap tr s t : search_ok (c_bs c) → run c cap tr s → t ∈ tg_ids (st_tags s) ↔ ∃ e r, (OTagAdd t e, r) ∈ tr.
Proof.
  intros Hbs Hr. split; [|intros (e & r & Hx); by eapply tag_ids_added].
  induction Hr as [s H|tr s o s' r' Hr IH H].
  - unfold store_with_capacity in H. apply pbind_ok in H as ([] & _ & [= <-]). simpl. by intros ?%elem_of_nil.
  - intros [Ht|[e ->]]%(tags_ids_only _ _ _ _ _ _ H).
    + destruct (IH Ht) as (e & r & Hx). exists e, r. apply elem_of_app. by left.
    + exists e, r'. apply elem_of_app. right. by left.
Qed.
Lemma filter_tag_panic_iff c cap tr s t : cfg_ok c → run c cap tr s → filter_tag c s t = PPanic ↔ ∀ e r, (OTagAdd t e, r) ∉ tr.
Proof.
  intros [Hbs _ _] Hr. pose proof (run_tags_inv c Hbs _ _ _ Hr) as Hti. pose proof (tag_ids_iff _ _ _ _ t Hbs Hr) as Hiff.
  unfold filter_tag, has_tag_bitvec. destruct (search_cases _ _ t Hbs (ti_sorted _ _ Hti)) as [(i & Hi & Hx)|(i & Hi & _ & Hn & _)]; rewrite Hi.
  - pose proof (proj1 Hiff (elem_of_list_lookup_2 _ _ _ Hx)) as (e & r & Hin).
    apply lookup_lt_Some in Hx. rewrite <- (ti_len _ _ Hti) in Hx. apply lookup_lt_is_Some in Hx as [bv Hbv].
    rewrite (proj2 (vget_ok _ _ _) Hbv). split; [done|]. intros H. by destruct (H e r).
  - split; [|done]. intros _ e r Hin. apply Hn, Hiff. eauto.
Qed.

Section q.
Context (c : cfg) (Hc : cfg_ok c) (Hmd : c_mode c = Debug).

Lemma observed_lt s e x : observed c s e x → e_id e < entities_capacity s.
Proof using Hmd.
  clear Hc. intros [H _]. unfold is_alive, ec_is_alive, entities_capacity in *. rewrite Hmd in H. simpl in H. unfold validate_id in H.
  by destruct (N.ltb_spec (e_id e) (ec_cap (st_ec s))).
Qed.
Lemma observed_D cap tr s D e m : hrun c cap tr s → comp_state c s (issued tr) (live tr) D →
  observed c s e (Some m) ↔ e ∈ live tr ∧ D !! e_id e = Some m.
Proof using Hc Hmd.
  intros Hr Hs. split.
  - intros Ho. pose proof (observed_lt _ _ _ Ho) as Hlt. pose proof (observed_inj _ _ _ _ _ Ho (state_observed c Hc _ _ _ _ _ Hs Hlt)) as Heq.
    unfold cview in Heq. by destruct (decide (e ∈ live tr)).
  - intros [He HD]. destruct (cs_row _ _ _ _ _ _ Hs He) as (_ & _ & Hlt & _). pose proof (state_observed c Hc _ _ _ _ e Hs Hlt) as Ho.
    unfold cview in Ho. by rewrite decide_True, HD in Ho.
Qed.
Lemma query_exact cap tr s q : hrun c cap tr s → NoDup (q_types q) → q_types q ≠ [] →
  ∃ it l it1 it2, component_query c q s = POk it ∧
    yields (qiter_next_with (ec_ver (st_ec s))) it l it1 ∧ yields qiter_next it l.*2 it2 ∧ qiter_len it = length l ∧
    NoDup l.*1 ∧ disjoint_items l ∧
    (∀ e, e ∈ l.*1 ↔ ∃ m, observed c s e (Some m) ∧ ∀ t, t ∈ q_types q → is_Some (m !! t)) ∧
    (∀ e rs, (e, rs) ∈ l → get_components_refs c s e (q_types q) = POk (Some rs) ∧
      ∃ m, observed c s e (Some m) ∧ read_ref (ac_pages (st_ac s)) <$> rs = values m (q_types q)).
Proof using Hc Hmd.
  intros Hr Hq Hne. destruct (hrun_state c Hc Hmd _ _ _ Hr) as (D & Hs & Hcs).
  destruct (query_items c Hc _ _ _ _ _ Hs Hq Hne) as (it & l & Hit & _ & Hlen & (it1 & Hy1 & _) & (it2 & Hy2 & _) & Hnd & Hl & Hin).
  exists it, l, it1, it2. split_and!; try done.
  - eapply items_disjoint; try done. intros e rs Hx. by destruct (Hl _ _ Hx) as (_ & ? & ?).
  - intros e. rewrite Hin. split.
    + intros (He & m & HD & Hall). exists m. split; [by eapply observed_D|]. by apply has_all_spec.
    + intros (m & Ho & Hall). apply (observed_D _ _ _ _ _ _ Hr Hs) in Ho as [He HD]. split; [done|]. exists m. split; [done|]. by apply has_all_spec.
  - intros e rs Hx. destruct (Hl _ _ Hx) as (He & Hlt & Hg). split; [done|].
    destruct (refs_inv c Hc _ _ _ _ _ _ _ Hs Hlt Hne Hg) as (_ & m & p & k & HD & _ & Hloc & Hat). exists m. split; [by eapply observed_D|].
    apply values_Forall2. eapply read_refs_spec; [apply Hs|done|done].
Qed.
Lemma len_after_next cap tr s q : hrun c cap tr s → NoDup (q_types q) → q_types q ≠ [] →
  ∃ it l it1, component_query c q s = POk it ∧ yields qiter_next it l it1 ∧
    ∀ n, (n ≤ length l)%nat → ∃ it2, advance qiter_next n it = POk it2 ∧ yields qiter_next it2 (drop n l) it1 ∧
      qiter_len it2 = (n + length (drop n l))%nat.
Proof using Hc Hmd.
  intros Hr Hq Hne. destruct (query_exact _ _ _ _ Hr Hq Hne) as (it & l & it1 & it2 & Hit & _ & Hy & Hlen & _).
  exists it, l.*2, it2. split; [done|]. split; [done|]. intros n Hle.
  destruct (yields_advance _ _ _ _ Hy n Hle) as (it3 & Ha & Hy3). exists it3. split; [done|]. split; [done|].
  rewrite fmap_length in Hle. unfold qiter_len in *. rewrite (advance_count _ _ _ (component_query_views _ _ _ _ Hit) Ha), Hlen.
  rewrite drop_length, fmap_length. lia.
Qed.

(** Write queries. *)
Lemma write_query_exact cap tr s q f : hrun c cap tr s → NoDup (q_types q) →
  (∀ e l, length (f e l) = length (q_write q) ∧ vals_ok c (zip (q_write q) (f e l))) →
  ∃ s', query_write c q f s = ROk s' () ∧
    (∀ e x, observed c s e x → observed c s' e ((λ m, if has_all m (q_types q) then put (zip (q_write q) (f e (values m (q_read q)))) m else m) <$> x)) ∧
    st_ec s' = st_ec s ∧ st_tags s' = st_tags s ∧ st_orders s' = st_orders s.
Proof using Hc Hmd.
  intros Hr Hq Hf. destruct (hrun_state c Hc Hmd _ _ _ Hr) as (D & Hs & Hcs).
  pose proof (query_write_wp c Hc s _ _ D q f False (λ _, False) Hs Hq Hf) as H.
  destruct (query_write c q f s) as [s' []| |]; [|done..]. simpl in H. exists s'. destruct H as (Hids & D' & Hi' & Hval & Hdom).
  injection Hids as He Ht Ho. split; [done|]. split_and!; try done. intros e x Hx.
  pose proof (observed_lt _ _ _ Hx) as Hlt. rewrite (observed_inj _ _ _ _ _ Hx (state_observed c Hc _ _ _ _ _ Hs Hlt)).
  assert (comp_state c s' (issued tr) (live tr) D') as Hs'.
  { split; [rewrite He; apply Hs|done|]. intros id. rewrite Hdom. apply Hs. }
  assert (e_id e < ec_cap (st_ec s')) as Hlt' by (by rewrite He).
  pose proof (state_observed c Hc _ _ _ _ e Hs' Hlt') as Ho'.
  assert (cview (live tr) D' e = (λ m, if has_all m (q_types q) then put (zip (q_write q) (f e (values m (q_read q)))) m else m) <$> cview (live tr) D e) as <-; [|done].
  unfold cview. destruct (decide (e ∈ live tr)) as [Hl|Hl]; [|done].
  destruct (cs_row _ _ _ _ _ _ Hs Hl) as (m & HD & _). rewrite HD, (Hval _ _ Hl HD). done.
Qed.

(** Filtering by a tag. *)
Lemma none_skipped_next {X} (P : X → bool) n u y l : (∀ x, x ∈ u → P x = false) → P y = true →
  none_skipped P n (u ++ y :: l) ↔ (length u < n)%nat ∧ none_skipped P n l.
Proof using.
  clear. intros Hu Hy. split.
  - intros H. split.
    + destruct (le_lt_dec n (length u)) as [Hle|]; [|done]. destruct (H [] (take n u) (drop n u ++ y :: l)) as (x & Hx & Ht).
      * simpl. by rewrite app_assoc, take_drop.
      * rewrite take_length. lia.
      * apply elem_of_take in Hx as (k & Hk & _). rewrite Hu in Ht by (by eapply elem_of_list_lookup_2). done.
    + intros l1 l2 l3 -> Hl. apply (H (u ++ y :: l1) l2 l3); [|done]. by rewrite <- app_assoc.
  - intros [Hlen H] l1 l2 l3 Heq Hl.
    destruct (decide (length u < length l1)%nat) as [Hlt|Hge].
    + assert (drop (S (length u)) l1 ++ l2 ++ l3 = l) as He.
      { pose proof (f_equal (drop (S (length u))) Heq) as Hd. rewrite drop_app_ge in Hd by lia.
        replace (S (length u) - length u)%nat with 1%nat in Hd by lia. simpl in Hd. rewrite drop_app_le in Hd by lia. done. }
      by eapply (H _ l2 l3).
    + assert (l2 !! (length u - length l1)%nat = Some y) as Hx.
      { assert ((l1 ++ l2 ++ l3) !! length u = Some y) as Hx by (rewrite <- Heq; by apply list_lookup_middle).
        rewrite lookup_app_r in Hx by lia. by rewrite lookup_app_l in Hx by lia. }
      exists y. split; [by eapply elem_of_list_lookup_2|done].
Qed.
Lemma none_skipped_rest {X} (P : X → bool) n u : (∀ x, x ∈ u → P x = false) → none_skipped P n u ↔ (length u < n)%nat.
Proof using.
  clear. intros Hu. split.
  - intros H. destruct (le_lt_dec n (length u)) as [Hle|]; [|done]. destruct (H [] (take n u) (drop n u)) as (x & Hx & Ht).
    + simpl. by rewrite take_drop.
    + rewrite take_length. lia.
    + apply elem_of_take in Hx as (k & Hk & _). rewrite Hu in Ht by (by eapply elem_of_list_lookup_2). done.
  - intros Hlen l1 l2 l3 -> Hl. rewrite !app_length in Hlen. lia.
Qed.
Lemma split_tagged {X} (P : X → bool) (l : list X) : (∃ u y r, l = u ++ y :: r ∧ (∀ x, x ∈ u → P x = false) ∧ P y = true) ∨ (∀ x, x ∈ l → P x = false).
Proof using.
  clear. induction l as [|x l IH]; [right; by intros x ?%elem_of_nil|]. destruct (P x) eqn:E.
  - left. exists [], x, l. split_and!; try done. by intros z ?%elem_of_nil.
  - destruct IH as [(u & y & r & -> & Hu & Hy)|Hn].
    + left. exists (x :: u), y, r. split_and!; try done. intros z [->|Hz]%elem_of_cons; auto.
    + right. intros z [->|Hz]%elem_of_cons; auto.
Qed.
(** One call of next(): the items up to the next tagged one. *)
Lemma filter_next_skip vers bv (P : entity * list cref → bool) u : ∀ it l it' depth, yields (qiter_next_with vers) it (u ++ l) it' →
  (∀ x, x ∈ u ++ l → bv_get bv (e_id x.1) = POk (P x)) → (∀ x, x ∈ u → P x = false) →
  ∃ it1, yields (qiter_next_with vers) it1 l it' ∧ filter_next (length u + depth) vers bv it = filter_next depth vers bv it1.
Proof using.
  clear. induction u as [|x u IH]; intros it l it' depth Hy HP Hu; [by exists it|]. simpl in *.
  inversion Hy as [|? ? it1 ? ? Hn Hy1]; subst. destruct (IH it1 l it' depth Hy1) as (it2 & Hy2 & Hf); [intros; apply HP; by right|intros; apply Hu; by right|].
  exists it2. split; [done|]. rewrite Hn, HP, Hu by (by left). done.
Qed.
Lemma filter_depth vers bv it l it' : yields (qiter_next_with vers) it l it' →
  ∀ depth, (depth ≤ length l)%nat → (∀ x, x ∈ take depth l → bv_get bv (e_id x.1) = POk false) →
  filter_next depth vers bv it = None.
Proof using.
  clear. induction 1 as [it it' Hn|it x it1 l it' Hn Hy IH]; intros depth Hd HP; (destruct depth as [|depth]; [done|]); simpl in *; [lia|].
  rewrite Hn, (HP x) by (by left). apply IH; [lia|]. intros y Hy'. apply HP. by right.
Qed.
Lemma filter_none vers bv (P : entity * list cref → bool) it u l it' depth : yields (qiter_next_with vers) it (u ++ l) it' →
  (∀ x, x ∈ u ++ l → bv_get bv (e_id x.1) = POk (P x)) → (∀ x, x ∈ u → P x = false) → (depth ≤ length u)%nat → filter_next depth vers bv it = None.
Proof using.
  clear. intros Hy HP Hu Hd. eapply filter_depth; [exact Hy|rewrite app_length; lia|]. intros x Hx. rewrite take_app_le in Hx by done.
  apply elem_of_take in Hx as (k & Hk & _). apply elem_of_list_lookup_2 in Hk. rewrite HP by (apply elem_of_app; by left). by rewrite Hu.
Qed.
Lemma filter_yields vers bv (P : entity * list cref → bool) depth : ∀ n it l it', (length l ≤ n)%nat → yields (qiter_next_with vers) it l it' →
  (∀ x, x ∈ l → bv_get bv (e_id x.1) = POk (P x)) →
  (none_skipped P depth l → yields (λ it, default PPanic (filter_next depth vers bv it)) it (List.filter P l) it') ∧
  ∀ r it2, yields (λ it, default PPanic (filter_next depth vers bv it)) it r it2 → none_skipped P depth l.
Proof using.
  clear. assert (∀ l, (∀ x, x ∈ l → P x = false) → List.filter P l = []) as Hnil.
  { induction l as [|x l IH]; intros H; [done|]. simpl. rewrite H by (by left). apply IH. intros y Hy. apply H. by right. }
  induction n as [|n IH]; intros it l it' Hn Hy HP.
  all: destruct (split_tagged P l) as [(u & y & r & -> & Hu & Ht)|Hu].
  1: rewrite app_length in Hn; simpl in Hn; lia.
  2:{ rewrite app_length in Hn. simpl in Hn. pose proof (none_skipped_next P depth u y r Hu Ht) as Hs0. revert Hs0. generalize (none_skipped P depth (u ++ y :: r)). intros Q Hs0.
    rewrite List.filter_app, (Hnil u Hu). simpl. rewrite Ht.
    destruct (decide (length u < depth)%nat) as [Hlt|Hge].
    - destruct (filter_next_skip vers bv P u it (y :: r) it' (S (depth - length u - 1)) Hy HP Hu) as (it1 & Hy1 & Hf).
      replace (length u + S (depth - length u - 1))%nat with depth in Hf by lia.
      inversion Hy1 as [|? ? it3 ? ? Hn1 Hy2]; subst. simpl in Hf. rewrite Hn1 in Hf. rewrite (HP y) in Hf by (apply elem_of_app; right; by left). rewrite Ht in Hf.
      destruct (IH it3 r it') as [H1 H2]; [lia|done|intros; apply HP; apply elem_of_app; right; by right|]. split.
      + intros [_ Hs]%Hs0. econstructor; [by rewrite Hf|auto].
      + intros r' it2 Hy'. apply Hs0. split; [done|]. inversion Hy' as [? ? Hc|? ? ? ? ? Hc Hy3]; subst; rewrite Hf in Hc; [done|].
        simpl in Hc. injection Hc as <- <-. by eapply H2.
    - split; [intros [? _]%Hs0; lia|]. intros r' it2 Hy'. exfalso. pose proof (filter_none vers bv P it u (y :: r) it' depth Hy HP Hu ltac:(lia)) as Hf.
      inversion Hy' as [? ? Hc|? ? ? ? ? Hc Hy3]; subst; by rewrite Hf in Hc. }
  all: pose proof (none_skipped_rest P depth l Hu) as Hs0; revert Hs0; generalize (none_skipped P depth l); intros Q Hs0; rewrite (Hnil l Hu); rewrite <- (app_nil_r l) in Hy, HP; split.
  1,3: intros Hlt%Hs0; destruct (filter_next_skip vers bv P l it [] it' (S (depth - length l - 1)) Hy HP Hu) as (it1 & Hy1 & Hf);
    replace (length l + S (depth - length l - 1))%nat with depth in Hf by lia; inversion Hy1 as [? ? Hn1|]; subst; simpl in Hf; rewrite Hn1 in Hf;
    constructor; by rewrite Hf.
  all: intros r' it2 Hy'; apply Hs0; destruct (le_lt_dec depth (length l)) as [Hle|]; [|done]; exfalso;
    pose proof (filter_none vers bv P it l [] it' depth Hy HP Hu Hle) as Hf; inversion Hy' as [? ? Hc|? ? ? ? ? Hc Hy3]; subst; by rewrite Hf in Hc.
Qed.
Lemma filter_tag_exact cap tr s q t : hrun c cap tr s → NoDup (q_types q) → q_types q ≠ [] →
  (∃ e r, (OTagAdd t e, r) ∈ tr) →
  ∃ bv it l it1, filter_tag c s t = POk bv ∧ component_query c q s = POk it ∧
    yields (qiter_next_with (ec_ver (st_ec s))) it l it1 ∧
    ∀ depth, (none_skipped (item_tagged c s t) depth l → yields (filtering depth s bv) it (List.filter (item_tagged c s t) l) it1) ∧
      ∀ r it2, yields (filtering depth s bv) it r it2 → none_skipped (item_tagged c s t) depth l.
Proof using Hc Hmd.
  intros Hr Hq Hne Hadd. destruct (hrun_state c Hc Hmd _ _ _ Hr) as (D & Hs & Hcs). pose proof Hc as [Hbs _ _].
  destruct (query_items c Hc _ _ _ _ _ Hs Hq Hne) as (it & l & Hit & _ & Hlen & (it1 & Hy1 & _) & _ & Hnd & Hl & Hin).
  pose proof (run_tags_inv c Hbs _ _ _ (hrun_run _ _ _ _ Hr)) as Hti.
  assert (t ∈ tg_ids (st_tags s)) as Ht.
  { destruct Hadd as (e & r & Hx). eapply tag_ids_added; [exact Hbs|by apply hrun_run|exact Hx]. }
  assert (∃ i bv, c_bs c (tg_ids (st_tags s)) t = BFound i ∧ tg_bvs (st_tags s) !! i = Some bv) as (i & bv & Hi & Hbv).
  { destruct (search_cases _ _ t Hbs (ti_sorted _ _ Hti)) as [(i & Hi & Hx)|(i & _ & _ & Hn & _)]; [|done].
    apply lookup_lt_Some in Hx. rewrite <- (ti_len _ _ Hti) in Hx. apply lookup_lt_is_Some in Hx as [bv Hbv]. eauto. }
  assert (∀ x, x ∈ l → bv_get bv (e_id x.1) = POk (item_tagged c s t x)) as Hx.
  { intros [e rs] Hx. destruct (Hl _ _ Hx) as (_ & Hlt & _).
    unfold item_tagged, has_tag, tags_has. rewrite Hi. simpl. rewrite (proj2 (vget_ok _ _ _) Hbv). simpl.
    pose proof (ti_sized _ _ Hti) as Hf. rewrite Forall_lookup in Hf. rewrite bv_get_lt by (eapply bv_sized_lt; [by eapply Hf|done]). done. }
  exists bv, it, l, it1. split_and!; try done.
  - unfold filter_tag, has_tag_bitvec. rewrite Hi. by apply vget_ok.
  - intros depth. by eapply filter_yields.
Qed.
End q.

Lemma component_len c cap tr s q : cfg_ok c → c_mode c = Debug → hrun c cap tr s → NoDup (q_types q) → q_types q ≠ [] →
  ∃ it l it1, component_query c q s = POk it ∧ yields qiter_next it l it1 ∧ qiter_len it = length l.
Proof.
  intros Hc Hmd Hr Hq Hne. destruct (query_exact c Hc Hmd _ _ _ _ Hr Hq Hne) as (it & l & it1 & it2 & Hit & _ & Hy & Hlen & _).
  exists it, l.*2, it2. by rewrite fmap_length.
Qed.
Lemma drain_yields {I X} (next : I → pres (option X * I)) fuel : ∀ it l, drain fuel next it = POk l → (length l < fuel)%nat → ∃ it', yields next it l it'.
Proof.
  induction fuel as [|fuel IH]; intros it l; simpl; [lia|]. intros ([[x|] it1] & Hn & H)%pbind_ok Hlen; simpl in H.
  - apply pbind_ok in H as (l' & Hl & [= <-]). simpl in Hlen. apply IH in Hl as [it' Hy]; [|lia]. exists it'. by econstructor.
  - injection H as <-. exists it1. by constructor.
Qed.
Lemma len_not_exact : ∃ c cap tr s q it x it1 l it2,
  cfg_ok c ∧ c_mode c = Debug ∧ hrun c cap tr s ∧ NoDup (q_types q) ∧ q_types q ≠ [] ∧
  component_query c q s = POk it ∧ qiter_next it = POk (Some x, it1) ∧ yields qiter_next it1 l it2 ∧ qiter_len it1 ≠ length l.
Proof.
  pose (c := ex_cfg Debug). pose (s := end_store c 1 ex_comps). pose (q := Access [1] []).
  assert (match component_query c q s with POk it => match qiter_next it with POk (Some x, it1) => match drain 9 qiter_next it1 with
    POk l => (length l <? 9)%nat && negb (qiter_len it1 =? length l)%nat | _ => false end | _ => false end | _ => false end = true) as H.
  { vm_compute. reflexivity. }
  assert (hrun c 1 (end_trace c 1 ex_comps) s) as Hr by (apply hend_run; vm_compute; reflexivity). clearbody s. revert Hr. generalize (end_trace c 1 ex_comps). intros tr Hr.
  destruct (component_query c q s) as [it| |] eqn:E1; try done. destruct (qiter_next it) as [[[x|] it1]| |] eqn:E2; try done.
  destruct (drain 9 qiter_next it1) as [l| |] eqn:E3; try done. apply andb_prop in H as [H1 H2].
  destruct (drain_yields qiter_next 9 _ _ E3) as [it2 Hy]; [by apply Nat.ltb_lt|].
  exists c, 1, tr, s, q, it, x, it1, l, it2. split_and!; try done; [apply ex_cfg_ok|apply NoDup_singleton|].
  intros Heq. by rewrite Heq, Nat.eqb_refl in H2.
Qed.
Lemma trace_forallb (P : op → bool) tr o (r : option entity) : forallb P (List.map fst tr) = true → (o, r) ∈ tr → P o = true.
Proof. rewrite forallb_forall. intros H Hx. apply H, in_map_iff. exists (o, r). split; [done|]. by apply elem_of_list_In. Qed.
Lemma filter_tag_panics : ∃ c cap tr s t,
  cfg_ok c ∧ c_mode c = Debug ∧ hrun c cap tr s ∧ (∀ e r, (OTagAdd t e, r) ∉ tr) ∧
  has_tag c s t (Entity 0 1) = POk false ∧ filter_tag c s t = PPanic.
Proof.
  pose (c := ex_cfg Debug). pose (tr := end_trace c 1 ex_comps). pose (s := end_store c 1 ex_comps).
  assert (hrun c 1 tr s) as Hr by (apply hend_run; vm_compute; reflexivity).
  assert (forallb (λ o, match o with OTagAdd _ _ => false | _ => true end) (List.map fst tr) = true) as Hb by (vm_compute; reflexivity).
  assert (has_tag c s 7 (Entity 0 1) = POk false) as H1 by (vm_compute; reflexivity).
  assert (filter_tag c s 7 = PPanic) as H2 by (vm_compute; reflexivity). clearbody s tr.
  exists c, 1, tr, s, 7. split_and!; [apply ex_cfg_ok|done|exact Hr| |exact H1|exact H2].
  intros e r Hx. by apply (trace_forallb _ _ _ _ Hb) in Hx.
Qed.
