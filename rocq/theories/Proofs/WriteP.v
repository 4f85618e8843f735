(** WriteP.v — writing through the references of an iterator. *)
From Verif.Spec Require Export Writes.
From Verif.Proofs Require Export OrdQ SafeP.
Local Open Scope N_scope.

(** How often [e] is in the list. *)
Definition times (e : entity) (l : list entity) : nat := length (List.filter (λ x, bool_decide (x = e)) l).

(** References do not depend on the contents of the pages. *)
Definition shape (p : page) : list N * N := (pg_ids p, pg_vcap p).
Lemma write_shape pages r v : shape <$> write_ref pages r v = shape <$> pages.
Proof.
  unfold write_ref. destruct (pages !! r_page r) as [p|] eqn:E; [|done]. rewrite list_fmap_insert.
  apply list_insert_id. by rewrite list_lookup_fmap, E.
Qed.
Lemma assign_shape rs vs : ∀ pages, shape <$> assign_to_refs pages rs vs = shape <$> pages.
Proof. revert vs. induction rs as [|r rs IH]; intros [|v vs] pages; simpl; try done. by rewrite IH, write_shape. Qed.
Lemma shape_lookup (pages pages' : list page) i p : shape <$> pages' = shape <$> pages → pages !! i = Some p → ∃ p', pages' !! i = Some p' ∧ shape p' = shape p.
Proof.
  intros Hs Hp. assert ((shape <$> pages') !! i = Some (shape p)) as H by (rewrite Hs, list_lookup_fmap, Hp; done).
  rewrite list_lookup_fmap in H. destruct (pages' !! i) as [p'|]; [|done]. injection H as H. exists p'. split; [done|]. unfold shape. congruence.
Qed.
Lemma with_pages_refs c s pages e T : shape <$> pages = shape <$> ac_pages (st_ac s) →
  get_components_refs c (with_pages s pages) e T = get_components_refs c s e T.
Proof.
  intros Hs. unfold get_components_refs, is_valid_with_archetype, is_alive, has_archetype, get_page_index, get_index_in_page. simpl.
  destruct (ec_is_alive _ _ _) as [[]| |]; simpl; try done. destruct (bv_get _ _) as [[]| |]; simpl; try done.
  destruct (aget (st_page s) (e_id e)) as [pi| |]; simpl; try done. unfold page_view_unchecked, arch_with_layout_unchecked, vget_unchecked. simpl.
  destruct (ac_p2a (st_ac s) !! pi); simpl; try done. destruct (ac_archs (st_ac s) !! _); simpl; try done.
  destruct (ac_layouts (st_ac s) !! _); simpl; try done.
  assert (length pages = length (ac_pages (st_ac s))) as Hl by (rewrite <- (fmap_length shape pages), Hs; apply fmap_length).
  destruct (ac_pages (st_ac s) !! pi) as [p|] eqn:E.
  - apply lookup_lt_Some in E. destruct (lookup_lt_is_Some_2 pages pi) as [p' ->]; [lia|]. done.
  - apply lookup_ge_None in E. rewrite (proj2 (lookup_ge_None pages pi)) by lia. done.
Qed.

(** References to a part of a tuple. *)
Lemma offsets_app c T1 T2 a ly os : get_offsets c (T1 ++ T2) a ly = POk (Some os) →
  get_offsets c T1 a ly = POk (Some (take (length T1) os)) ∧ get_offsets c T2 a ly = POk (Some (drop (length T1) os)).
Proof.
  revert os. induction T1 as [|t T1 IH]; intros os; simpl; [by rewrite drop_0|].
  destruct (find_component_index c a t); [|done]. destruct (ly_offs ly !! _); [|done].
  destruct (get_offsets c (T1 ++ T2) a ly) as [[os'|]| |]; simpl; try done. intros [= <-]. destruct (IH os') as [-> ->]; [done|]. done.
Qed.
Lemma get_offsets_length c T a ly os : get_offsets c T a ly = POk (Some os) → length os = length T.
Proof.
  revert os. induction T as [|t T IH]; intros os; simpl; [by intros [= <-]|].
  destruct (find_component_index c a t); [|done]. destruct (ly_offs ly !! _); [|done].
  destruct (get_offsets c T a ly) as [[os'|]| |]; simpl; try done. intros [= <-]. simpl. by rewrite (IH os').
Qed.
Lemma to_refs_app l1 l2 rs : ptrs_to_refs (l1 ++ l2) = POk rs →
  ptrs_to_refs l1 = POk (take (length l1) rs) ∧ ptrs_to_refs l2 = POk (drop (length l1) rs).
Proof.
  revert rs. induction l1 as [|p l1 IH]; intros rs; simpl; [by rewrite drop_0|]. destruct (ptr_to_ref p); simpl; try done.
  destruct (ptrs_to_refs (l1 ++ l2)) as [rs'| |]; simpl; try done. intros [= <-]. destruct (IH rs') as [-> ->]; done.
Qed.
Lemma refs_app c s e T1 T2 rs : get_components_refs c s e (T1 ++ T2) = POk (Some rs) →
  get_components_refs c s e T1 = POk (Some (take (length T1) rs)) ∧ get_components_refs c s e T2 = POk (Some (drop (length T1) rs)).
Proof.
  unfold get_components_refs. destruct (is_valid_with_archetype _ _ _) as [[]| |]; simpl; try done.
  destruct (get_page_index _ _); simpl; try done. destruct (page_view_unchecked _ _) as [v| |]; simpl; try done.
  destruct (get_index_in_page _ _) as [k| |]; simpl; try done. unfold view_refs.
  destruct (get_offsets c (T1 ++ T2) _ _) as [[os|]| |] eqn:E; simpl; try done. pose proof (get_offsets_length _ _ _ _ _ E) as Hl.
  apply offsets_app in E as [-> ->]. simpl. unfold get_refs, get_ptrs, add_to_ptrs.
  rewrite <- (take_drop (length T1) os) at 1. rewrite zip_with_app by (rewrite app_length in Hl; rewrite take_length; lia).
  rewrite fmap_app. destruct (ptrs_to_refs _) as [rs'| |] eqn:E2; simpl; try done. intros [= ->].
  apply to_refs_app in E2 as [E1 E2].
  rewrite fmap_length, zip_with_length_l in E1, E2 by (rewrite app_length in Hl; rewrite take_length; lia). rewrite E1, E2. done.
Qed.

Lemma with_pages_id s : with_pages s (ac_pages (st_ac s)) = s.
Proof. by destruct s as [? []]. Qed.

(** Writing through the items is setting the components of their entities. *)
Section writes.
Context (c : cfg) (q : access) (f : entity → list (list cell) → list (list N)) (Hlen : ∀ e l, length (f e l) = length (q_write q)).
Lemma set_refs s e rs vals : get_components_refs c s e (q_write q) = POk (Some rs) → length vals = length (q_write q) →
  step c (OSet e (zip (q_write q) vals)) s = ROk (with_pages s (assign_to_refs (ac_pages (st_ac s)) rs vals)) None.
Proof using.
  intros Hrs Hl. simpl. unfold no_out, set_components, mbind, M_bind, getS, lift, putS, mret, M_ret.
  rewrite fst_zip, snd_zip, Hrs by lia. done.
Qed.
Lemma yields_writes {I X} (next : I → pres (option X * I)) (refs : X → list cref) (fx : X → list (list cell) → list (list N)) it l it' :
  yields next it l it' → ∀ s tr es, Forall2 (λ x e, get_components_refs c s e (q_types q) = POk (Some (refs x)) ∧ fx x = f e) l es →
  ∃ pages tr', writes q next refs fx (ac_pages (st_ac s)) it pages ∧ shape <$> pages = shape <$> ac_pages (st_ac s) ∧
    set_each c q f tr s tr' (with_pages s pages) es.
Proof using Hlen.
  induction 1 as [it it' Hn|it x it1 l it' Hn Hy IH]; intros s tr es Hf.
  - inversion Hf; subst. exists (ac_pages (st_ac s)), tr. split; [by econstructor|]. split; [done|]. rewrite with_pages_id. constructor.
  - inversion Hf as [|? e ? es' [Hx Hfx] Hf']; subst. apply refs_app in Hx as [Hx1 Hx2].
    set (n := length (q_read q)) in *. set (v := read_ref (ac_pages (st_ac s)) <$> take n (refs x)).
    set (pages1 := assign_to_refs (ac_pages (st_ac s)) (drop n (refs x)) (fx x v)).
    assert (shape <$> pages1 = shape <$> ac_pages (st_ac s)) as Hs1 by apply assign_shape.
    destruct (IH (with_pages s pages1) (tr ++ [(OSet e (zip (q_write q) (f e v)), None)]) es') as (pages & tr' & Hw & Hs & Hset).
    { eapply Forall2_impl; [exact Hf'|]. intros y e' [Hy1 Hy2]. split; [|done]. by rewrite with_pages_refs. }
    exists pages, tr'. split; [by eapply writes_item|]. split; [by rewrite Hs|]. eapply (set_one _ _ _ _ _ _ v); [| |].
    + unfold read_components. rewrite Hx1. done.
    + apply set_refs; [done|]. apply Hlen.
    + rewrite <- Hfx. rewrite <- Hfx in Hset. exact Hset.
Qed.
End writes.

Section effect.
Context (c : cfg) (Hc : cfg_ok c) (Hmd : c_mode c = Debug).
Lemma has_all_put m vals T : has_all m T = true → has_all (put vals m) T = true.
Proof using.
  rewrite !has_all_spec. intros H t Ht. specialize (H t Ht). revert m H. induction vals as [|[t' v] vals IH]; intros m H; simpl; [done|].
  apply IH. rewrite lookup_insert_is_Some. destruct (decide (t' = t)); auto.
Qed.
Lemma iter_r {A} (g : A → A) n x : Nat.iter (S n) g x = Nat.iter n g (g x).
Proof using. induction n as [|n IH]; simpl; [done|]. by rewrite <- IH. Qed.
Lemma no_refs s e v : read_components c s e [] = POk (Some v) → v = [].
Proof using.
  unfold read_components, get_components_refs. destruct (is_valid_with_archetype _ _ _) as [[]| |]; simpl; try done.
  destruct (get_page_index _ _); simpl; try done. destruct (page_view_unchecked _ _); simpl; try done.
  destruct (get_index_in_page _ _); simpl; try done. by intros [= <-].
Qed.
Lemma set_each_effect q f tr s tr' s' es : set_each c q f tr s tr' s' es → (∀ e, writer_ok c q (f e)) → ∀ I L D, comp_state c s I L D →
  (∀ e, e ∈ es → e ∈ L ∧ ∃ m, D !! e_id e = Some m ∧ has_all m (q_types q) = true) →
  ∃ D', comp_state c s' I L D' ∧ ∀ e m, e ∈ L → D !! e_id e = Some m → D' !! e_id e = Some (Nat.iter (times e es) (updated q (f e)) m).
Proof using Hc.
  induction 1 as [tr s|tr s e v s1 tr' s' es Hv o Hst Hset IH]; intros Hf I L D Hs Hes.
  { exists D. split; [done|]. intros e m _ HD. done. }
  destruct (Hes e) as (He & m & HD & Hall); [by left|].
  assert (e_id e < ec_cap (st_ec s)) as Hlt by (by apply (ci_lt _ _ _ _ (cs_inv _ _ _ _ _ Hs) _ m)).
  assert (v = values m (q_read q)) as ->.
  { destruct (q_read q) as [|t T] eqn:E.
    - apply no_refs in Hv. by subst.
    - pose proof (read_components_wp c Hc s I L D e (t :: T) Hs Hlt ltac:(done)) as H. rewrite decide_True in H by done.
      destruct H as (m' & Hm' & H). rewrite Hv in H. assert (m' = m) as -> by congruence. unfold expected in H.
      destruct (has_all m (t :: T)); [|done]. by injection H. }
  set (v := values m (q_read q)) in *. destruct (Hf e v) as [Hl Hok].
  assert (comp_state c s1 I L (<[e_id e := updated q (f e) m]> D)) as Hs1.
  { destruct (q_write q) as [|t T] eqn:E.
    - unfold updated. rewrite E, put_nil, insert_id by done. simpl in Hst. unfold no_out, set_components, mbind, M_bind, getS, lift, putS, mret, M_ret in Hst.
      simpl in Hst. destruct (get_components_refs c s e []) as [[rs|]| |]; simpl in Hst; try done.
      + injection Hst as <-. change (comp_state c (with_pages s (assign_to_refs (ac_pages (st_ac s)) rs [])) I L D).
        assert (assign_to_refs (ac_pages (st_ac s)) rs [] = ac_pages (st_ac s)) as -> by (by destruct rs). by rewrite with_pages_id.
      + injection Hst as <-. done.
    - assert (no_out (set_components c e (zip (t :: T) (f e v))) s = ROk s1 None) as Hst' by exact Hst. clear Hst. rewrite <- E in *.
      apply no_out_ok in Hst' as [Hst _].
      assert ((zip (q_write q) (f e v)).*1 = q_write q) as Hfst by (apply fst_zip; lia).
      eapply (sat_ok True) in Hst; [|eapply (set_components_wp c Hc s I L D e (zip (q_write q) (f e v)) True (λ _, True)); try done].
      2: { intros Hz. rewrite Hz in Hfst. by rewrite E in Hfst. }
      rewrite Hfst, decide_True in Hst by done. destruct Hst as (Hids & m' & Hm' & Hi & _). assert (m' = m) as -> by congruence.
      assert (has_all m (q_write q) = true) as Hw.
      { apply has_all_spec. intros x Hx. rewrite has_all_spec in Hall. apply Hall. unfold q_types. apply elem_of_app. by right. }
      rewrite Hw in Hi. injection Hids as He1 _ _. split; [rewrite He1; apply Hs|exact Hi|].
      intros id. rewrite lookup_insert_is_Some', <- (cs_dom _ _ _ _ _ Hs). split; [intros [<-|]; [by eexists|done]|auto]. }
  destruct (IH Hf _ _ _ Hs1) as (D' & Hs' & HD').
  { intros e' He'. destruct (Hes e') as (HL & m' & Hm' & Hall'); [by right|]. split; [done|]. destruct (decide (e_id e = e_id e')) as [Heq|Hne].
    - rewrite Heq, lookup_insert. eexists. split; [done|]. apply has_all_put. congruence.
    - rewrite lookup_insert_ne by done. eauto. }
  exists D'. split; [done|]. intros e' m' HL Hm'. unfold times. simpl. case_bool_decide as Heq.
  - subst e'. rewrite HD in Hm'. injection Hm' as <-. simpl length. rewrite iter_r. apply HD'; [done|]. by rewrite lookup_insert.
  - apply HD'; [done|]. rewrite lookup_insert_ne; [done|]. intros Hid. apply Heq. exact (same_ids _ _ _ _ _ (cs_ec _ _ _ _ _ Hs) He HL Hid).
Qed.
Lemma set_each_hrun q f cap tr s tr' s' es : set_each c q f tr s tr' s' es → (∀ e, writer_ok c q (f e)) → q_write q ≠ [] → NoDup (q_write q) →
  hrun c cap tr s → hrun c cap tr' s'.
Proof using.
  induction 1 as [tr s|tr s e v s1 tr' s' es Hv o Hst Hset IH]; intros Hf Hne Hnd Hr; [done|].
  destruct (Hf e v) as [Hl Hok]. assert ((zip (q_write q) (f e v)).*1 = q_write q) as Hfst by (apply fst_zip; lia).
  apply IH; try done. eapply hrun_step; try done. simpl. rewrite Hfst. split_and!; try done. intros Hz. rewrite Hz in Hfst. simpl in Hfst. congruence.
Qed.

(** All together, for a list of entities that have the types. *)
Lemma write_items {I X} (next : I → pres (option X * I)) (refs : X → list cref) fx f cap tr s q it l it' es :
  hrun c cap tr s → NoDup (q_types q) → q_types q ≠ [] → (∀ e, writer_ok c q (f e)) → yields next it l it' →
  Forall2 (λ x e, get_components_refs c s e (q_types q) = POk (Some (refs x)) ∧ fx x = f e) l es → (∀ e, e ∈ es → e ∈ issued tr) →
  ∃ pages tr', writes q next refs fx (ac_pages (st_ac s)) it pages ∧ set_each c q f tr s tr' (with_pages s pages) es ∧
    (∀ e x, observed c s e x → observed c (with_pages s pages) e (Nat.iter (times e es) (updated q (f e)) <$> x)) ∧
    (q_write q ≠ [] → hrun c cap tr' (with_pages s pages)).
Proof using Hc Hmd.
  intros Hr Hnd Hne Hf Hy Hes Hiss. destruct (hrun_state c Hc Hmd _ _ _ Hr) as (D & Hs & _).
  destruct (yields_writes c q f (λ e l, proj1 (Hf e l)) next refs fx it l it' Hy s tr es Hes) as (pages & tr' & Hw & _ & Hset).
  exists pages, tr'. split; [done|]. split; [done|]. split.
  - destruct (set_each_effect _ _ _ _ _ _ _ Hset Hf _ _ _ Hs) as (D' & Hs' & HD').
    { intros e [n He]%elem_of_list_lookup. destruct (Forall2_lookup_r _ _ _ _ _ Hes He) as (x & _ & Hg & _).
      assert (e_id e < ec_cap (st_ec s)) as Hlt.
      { eapply (own_lt c Hmd); [by eapply hrun_run|]. eapply Hiss, elem_of_list_lookup_2, He. }
      destruct (refs_inv c Hc _ _ _ _ _ _ _ Hs Hlt Hne Hg) as (HL & m & _ & _ & HD & Hall & _).
      eauto. }
    intros e x Hx. pose proof (observed_lt c Hmd _ _ _ Hx) as Hlt. rewrite (observed_inj _ _ _ _ _ Hx (state_observed c Hc _ _ _ _ _ Hs Hlt)).
    pose proof (state_observed c Hc _ _ _ _ e Hs' Hlt) as Ho'. 
    assert (cview (live tr) D' e = Nat.iter (times e es) (updated q (f e)) <$> cview (live tr) D e) as <-; [|done].
    unfold cview. destruct (decide (e ∈ live tr)) as [Hl|Hl]; [|done]. destruct (cs_row _ _ _ _ _ _ Hs Hl) as (m & HD & _). by rewrite HD, (HD' _ _ Hl HD).
  - intros Hw'. apply NoDup_app in Hnd as (_ & _ & Hnd). eapply set_each_hrun; try done.
Qed.
End effect.

Lemma filter_times e g l : times e (List.filter g l) = if g e then times e l else 0%nat.
Proof.
  unfold times. induction l as [|x l IH]; simpl; [by destruct (g e)|].
  destruct (g x) eqn:Ex; simpl; case_bool_decide as He; subst; rewrite ?Ex in *; simpl; rewrite ?IH; destruct (g e); try done; congruence.
Qed.
Lemma times_nodup e l : NoDup l → times e l = if decide (e ∈ l) then 1%nat else 0%nat.
Proof.
  unfold times. induction 1 as [|x l Hx Hl IH]; simpl; [done|]. case_bool_decide as He; simpl; rewrite IH.
  - subst. rewrite decide_False by done. by rewrite decide_True by (by left).
  - destruct (decide (e ∈ l)); [rewrite decide_True by (by right)|rewrite decide_False by set_solver]; done.
Qed.

Lemma put_other vals (m : gmap tid (list cell)) t : t ∉ vals.*1 → put vals m !! t = m !! t.
Proof.
  unfold put. revert m. induction vals as [|[t' v] vals IH]; intros m; simpl; [done|]. intros [Hne Hn]%not_elem_of_cons. rewrite IH by done.
  by rewrite lookup_insert_ne.
Qed.
Lemma zip_fst_sub {A B} (l : list A) (k : list B) x : x ∈ (zip l k).*1 → x ∈ l.
Proof.
  revert k. induction l as [|a l IH]; intros [|b k]; simpl; try (intros H; by apply elem_of_nil in H).
  intros [->|H]%elem_of_cons; [by left|right; eauto].
Qed.
Lemma updated_twice q f m : NoDup (q_types q) → updated q f (updated q f m) = updated q f m.
Proof.
  intros (_ & Hd & _)%NoDup_app. unfold updated at 1 3.
  assert (values (updated q f m) (q_read q) = values m (q_read q)) as ->.
  { unfold values. apply list_fmap_ext. intros i t Ht. f_equal. apply put_other. intros Hx%zip_fst_sub.
    eapply Hd; [by eapply elem_of_list_lookup_2|done]. }
  apply put_ext. intros t Ht. unfold updated. by apply put_other.
Qed.
Lemma updated_times q f m n : NoDup (q_types q) → Nat.iter (S n) (updated q f) m = updated q f m.
Proof. intros Hnd. induction n as [|n IH]; [done|]. simpl in *. rewrite IH. by apply updated_twice. Qed.
Lemma times_in e l : match times e l with O => e ∉ l | S _ => e ∈ l end.
Proof.
  unfold times. induction l as [|x l IH]; simpl; [apply not_elem_of_nil|]. case_bool_decide; simpl; [subst; by left|].
  destruct (length _); set_solver.
Qed.
Lemma component_writes c cap tr s q f : cfg_ok c → c_mode c = Debug → hrun c cap tr s → NoDup (q_types q) → q_types q ≠ [] → (∀ e, writer_ok c q (f e)) →
  ∃ it es pages tr', component_query c q s = POk it ∧
    writes q (qiter_next_with (ec_ver (st_ec s))) snd (λ x, f x.1) (ac_pages (st_ac s)) it pages ∧
    NoDup es ∧ (∀ e, e ∈ es ↔ qualifies c s q e) ∧ set_each c q f tr s tr' (with_pages s pages) es ∧
    (∀ e m, observed c s e (Some m) → observed c (with_pages s pages) e (Some (if has_all m (q_types q) then updated q (f e) m else m))) ∧
    (q_write q ≠ [] → hrun c cap tr' (with_pages s pages)).
Proof.
  intros Hc Hmd Hr Hnd Hne Hf.
  destruct (query_exact c Hc Hmd _ _ _ _ Hr Hnd Hne) as (it & l & it1 & _ & Hit & Hy & _ & _ & Hes & _ & Hin & Hx).
  destruct (write_items c Hc Hmd _ snd (λ x, f x.1) f _ _ _ _ _ _ _ l.*1 Hr Hnd Hne Hf Hy) as (pages & tr' & Hw & Hset & Hobs & Hhr).
  { apply Forall2_fmap_r, Forall_Forall2_diag, Forall_forall. intros [e rs] He. simpl. split; [|done]. by apply Hx. }
  { intros e (m & Hm & _)%Hin. destruct (hrun_state c Hc Hmd _ _ _ Hr) as (D & Hs & _).
    destruct (proj1 (observed_D c Hc Hmd _ _ _ _ _ _ Hr Hs) Hm) as [HL _]. by apply (inv_live_issued _ _ _ (cs_ec _ _ _ _ _ Hs)). }
  exists it, l.*1, pages, tr'. split_and!; try done. intros e m Hm. specialize (Hobs _ _ Hm). rewrite times_nodup in Hobs by done.
  destruct (has_all m (q_types q)) eqn:E.
  - rewrite decide_True in Hobs; [exact Hobs|]. apply Hin. exists m. split; [done|]. by apply has_all_spec.
  - rewrite decide_False in Hobs; [exact Hobs|]. intros (m' & Hm' & Hall)%Hin. apply has_all_spec in Hall.
    pose proof (observed_inj _ _ _ _ _ Hm Hm') as [= ->]. congruence.
Qed.

Lemma entity_writes c cap tr s q ents f : cfg_ok c → c_mode c = Debug → hrun c cap tr s → NoDup (q_types q) → q_types q ≠ [] →
  (∀ e, e ∈ ents → had_components tr e) → (∀ e, writer_ok c q (f e)) →
  ∃ it g pages tr', entity_query c q s ents = POk it ∧ writes q eiter_next_with snd (λ x, f x.1) (ac_pages (st_ac s)) it pages ∧
    (∀ e, g e = true ↔ qualifies c s q e) ∧ set_each c q f tr s tr' (with_pages s pages) (List.filter g ents) ∧
    (∀ e m, observed c s e (Some m) → observed c (with_pages s pages) e
      (Some (if has_all m (q_types q) && bool_decide (e ∈ ents) then updated q (f e) m else m))) ∧
    (q_write q ≠ [] → hrun c cap tr' (with_pages s pages)).
Proof.
  intros Hc Hmd Hr Hnd Hne Hhad Hf.
  destruct (entity_query_exact c _ _ _ q ents Hc Hmd Hr Hnd Hne Hhad) as (it & l & it' & g & Hit & Hy & _ & Hl & Hg & Hx).
  destruct (write_items c Hc Hmd _ snd (λ x, f x.1) f _ _ _ _ _ _ _ l.*1 Hr Hnd Hne Hf Hy) as (pages & tr' & Hw & Hset & Hobs & Hhr).
  { apply Forall2_fmap_r, Forall_Forall2_diag, Forall_forall. intros [e rs] He. simpl. split; [|done]. by apply Hx. }
  { intros e He. rewrite Hl in He. apply elem_of_list_In, filter_In in He as [He _]. eapply had_issued, Hhad. by apply elem_of_list_In. }
  rewrite Hl in Hset, Hobs. exists it, g, pages, tr'. split_and!; try done. intros e m Hm. specialize (Hobs _ _ Hm). rewrite filter_times in Hobs.
  destruct (has_all m (q_types q)) eqn:E; simpl.
  - replace (g e) with true in Hobs.
    { pose proof (times_in e ents) as Ht. destruct (times e ents) as [|n]; [rewrite bool_decide_false by done; exact Hobs|].
      rewrite bool_decide_true by done. by rewrite <- (updated_times q (f e) m n). }
    symmetry. apply Hg. exists m. split; [done|]. by apply has_all_spec.
  - destruct (g e) eqn:Ege; [|exact Hobs]. apply Hg in Ege as (m' & Hm' & Hall). apply has_all_spec in Hall.
    pose proof (observed_inj _ _ _ _ _ Hm Hm') as [= ->]. congruence.
Qed.

Lemma ordered_writes c cap tr s q g f fuel : cfg_ok c → c_mode c = Debug → hrun c cap tr s → orders_proper tr → NoDup (q_types q) → q_types q ≠ [] →
  (∀ e, e ∈ members tr g → had_components tr e) → (length (members tr g) < fuel)%nat → writer_ok c q f →
  ∃ it p pages tr', ordered_query fuel c q s g = Some (POk it) ∧ writes q oiter_next id (λ _, f) (ac_pages (st_ac s)) it pages ∧
    (∀ e, p e = true ↔ qualifies c s q e) ∧ set_each c q (λ _, f) tr s tr' (with_pages s pages) (List.filter p (members tr g)) ∧
    (∀ e m, observed c s e (Some m) → observed c (with_pages s pages) e
      (Some (if has_all m (q_types q) && bool_decide (e ∈ members tr g) then updated q f m else m))) ∧
    (q_write q ≠ [] → hrun c cap tr' (with_pages s pages)).
Proof.
  intros Hc Hmd Hr Hop Hnd Hne Hhad Hfuel Hf.
  destruct (ordered_query_exact c _ _ _ q g fuel Hc Hmd Hr Hop Hnd Hne Hhad Hfuel) as (it & l & it' & p & Hit & Hy & _ & Hl & Hg & Hx & _).
  destruct (write_items c Hc Hmd _ id (λ _, f) (λ _, f) _ _ _ _ _ _ _ l.*1 Hr Hnd Hne (λ _, Hf) Hy) as (pages & tr' & Hw & Hset & Hobs & Hhr).
  { apply Forall2_fmap, Forall_Forall2_diag, Forall_forall. intros [e rs] He. simpl. split; [|done]. by apply Hx. }
  { intros e He. rewrite Hl in He. apply elem_of_list_In, filter_In in He as [He _]. eapply had_issued, Hhad. by apply elem_of_list_In. }
  rewrite Hl in Hset, Hobs. exists it, p, pages, tr'. split_and!; try done. intros e m Hm. specialize (Hobs _ _ Hm). rewrite filter_times in Hobs.
  pose proof Hc as [Hbs _ _]. destruct (run_orders c cap Hbs Hmd _ _ (hrun_run _ _ _ _ Hr) Hop) as [Hmem _]. destruct (Hmem g) as [Hndm _]. rewrite times_nodup in Hobs by done.
  destruct (has_all m (q_types q)) eqn:E; simpl.
  - replace (p e) with true in Hobs.
    + case_bool_decide as He; [rewrite decide_True in Hobs by done|rewrite decide_False in Hobs by done]; exact Hobs.
    + symmetry. apply Hg. exists m. split; [done|]. by apply has_all_spec.
  - destruct (p e) eqn:Ege; [|exact Hobs]. apply Hg in Ege as (m' & Hm' & Hall). apply has_all_spec in Hall.
    pose proof (observed_inj _ _ _ _ _ Hm Hm') as [= ->]. congruence.
Qed.

(** For examples. *)
Fixpoint write_run {I X} (k : nat) (q : access) (next : I → pres (option X * I)) (refs : X → list cref)
    (f : X → list (list cell) → list (list N)) (pages : list page) (it : I) : pres (list page) :=
  match k with
  | O => PPanic
  | S k =>
    r ← next it;
    match r.1 with
    | None => mret pages
    | Some x =>
      let n := length (q_read q) in
      write_run k q next refs f (assign_to_refs pages (drop n (refs x)) (f x (read_ref pages <$> take n (refs x)))) r.2
    end
  end.
Lemma write_run_ok {I X} q (next : I → pres (option X * I)) refs f k : ∀ pages it pages', write_run k q next refs f pages it = POk pages' →
  writes q next refs f pages it pages'.
Proof.
  induction k as [|k IH]; intros pages it pages'; [done|]. simpl. destruct (next it) as [[[x|] it']| |] eqn:E; simpl; try done.
  - intros H. eapply writes_item; [done|]. by apply IH.
  - intros [= <-]. by econstructor.
Qed.
