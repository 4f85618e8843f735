(** ScheduleP.v — independent loops over write queries can run in any order. *)
From Verif.Spec Require Export Schedule Caught.
From Verif.Proofs Require Export SystemsP.
Local Open Scope N_scope.

Lemma loops_snoc ls x : loops (ls ++ [x]) = loops ls ++ [(OWrite x.1 x.2, None)].
Proof. unfold loops. by rewrite fmap_app. Qed.
(** What the loops do to an entity. *)
Definition done_loops (ls : list loop) (e : entity) (x : option row) : option row := foldl (λ (y : option row) (l : loop), looped l.1 (l.2 e) <$> y) x ls.
Lemma comps_loops tr ls e m : comps (tr ++ loops ls) e m ↔ ∃ m0, comps tr e m0 ∧ m = done_loops ls e m0.
Proof.
  revert m. induction ls as [|l ls IH] using rev_ind; intros m.
  - simpl. rewrite app_nil_r. split; [by exists m|by intros (? & ? & ->)].
  - rewrite loops_snoc, app_assoc, comps_written. setoid_rewrite IH. unfold done_loops. setoid_rewrite foldl_app. simpl. naive_solver.
Qed.
(** Independence of all pairs as a predicate that is easy to permute. *)
Definition apart_loops (x y : loop) : Prop := (∀ t, t ∈ q_write x.1 → t ∉ q_types y.1) ∧ (∀ t, t ∈ q_write y.1 → t ∉ q_types x.1).
Lemma independent_cons x ls : independent (x :: ls) ↔ Forall (apart_loops x) ls ∧ independent ls.
Proof.
  split.
  - intros H. split.
    + apply Forall_lookup. intros j y Hj. split; intros t.
      * by apply (H O (S j) x y).
      * by apply (H (S j) O y x).
    + intros i j a b t Hi Hj Hn. apply (H (S i) (S j)); [done|done|congruence].
  - intros [H H'] [|i] [|j] a b t Hi Hj Hn; simpl in *; [done|..].
    + injection Hi as <-. apply (proj1 (Forall_lookup _ _) H j b Hj).
    + injection Hj as <-. apply (proj1 (Forall_lookup _ _) H i a Hi).
    + apply (H' i j); [done|done|congruence].
Qed.
Lemma apart_loops_sym x y : apart_loops x y → apart_loops y x. Proof. intros [H1 H2]. by split. Qed.
Lemma independent_perm ls ls' : ls ≡ₚ ls' → independent ls → independent ls'.
Proof.
  induction 1 as [|x l l' Hp IH|x y l|l l' l'' H1 IH1 H2 IH2]; [done|..|eauto].
  - rewrite !independent_cons. intros [H1 H2]. split; [by rewrite <- Hp|eauto].
  - rewrite !independent_cons, !Forall_cons. intros [[H1 H2] [H3 H4]]. split_and!; try done. by apply apart_loops_sym.
Qed.
Lemma done_loops_perm ls ls' e x : ls ≡ₚ ls' → independent ls → done_loops ls e x = done_loops ls' e x.
Proof.
  intros Hp. revert x. induction Hp as [|l ls ls' Hp IH|l l' ls|ls ls' ls'' H1 IH1 H2 IH2]; intros x Hi; [done|..].
  - apply independent_cons in Hi as [_ Hi]. unfold done_loops. simpl. by apply IH.
  - apply independent_cons in Hi as [Hi _]. apply Forall_cons in Hi as [[Ha Hb] _]. unfold done_loops. simpl. f_equal. destruct x as [m|]; [|done]. simpl. f_equal.
    by apply looped_swap.
  - rewrite IH1 by done. apply IH2. by eapply independent_perm.
Qed.
Lemma comps_schedule tr ls ls' e m : ls ≡ₚ ls' → independent ls → comps (tr ++ loops ls) e m ↔ comps (tr ++ loops ls') e m.
Proof. intros Hp Hi. rewrite !comps_loops. by setoid_rewrite (λ x, done_loops_perm ls ls' e x Hp Hi). Qed.
Lemma issued_loops tr ls : issued (tr ++ loops ls) = issued tr.
Proof. induction ls as [|l ls IH] using rev_ind; [simpl; by rewrite app_nil_r|]. by rewrite loops_snoc, app_assoc, issued_written. Qed.
Lemma alive_loops tr ls e : alive_in (tr ++ loops ls) e ↔ alive_in tr e.
Proof. induction ls as [|l ls IH] using rev_ind; [simpl; by rewrite app_nil_r|]. by rewrite loops_snoc, app_assoc, alive_written. Qed.
Lemma members_loops tr ls g : members (tr ++ loops ls) g = members tr g.
Proof. induction ls as [|l ls IH] using rev_ind; [simpl; by rewrite app_nil_r|]. by rewrite loops_snoc, app_assoc, members_written. Qed.
Lemma tagged_loops tr ls t e : tagged (tr ++ loops ls) t e ↔ tagged tr t e.
Proof. induction ls as [|l ls IH] using rev_ind; [simpl; by rewrite app_nil_r|]. by rewrite loops_snoc, app_assoc, tagged_written. Qed.
Lemma tags_live_loops tr ls : tags_on_live tr → tags_on_live (tr ++ loops ls).
Proof.
  intros H. induction ls as [|l ls IH] using rev_ind; [simpl; by rewrite app_nil_r|]. rewrite loops_snoc, app_assoc, tags_snoc. split; [done|]. intros t e [|]; done.
Qed.
Lemma frugal_loops c tr ls : frugal c (tr ++ loops ls) ↔ frugal c tr.
Proof. induction ls as [|l ls IH] using rev_ind; [simpl; by rewrite app_nil_r|]. by rewrite loops_snoc, app_assoc, frugal_written. Qed.
Lemma schedule_same c cap cap' tr s s' ls ls' : cfg_ok c → drun (healthy c) c cap (tr ++ loops ls) s → drun (healthy c) c cap' (tr ++ loops ls') s' → ls ≡ₚ ls' → independent ls →
  (∀ e, e ∈ issued tr →
    is_alive c s e = is_alive c s' e ∧
    (∃ a a', get_entity_archetype c s e = POk a ∧ get_entity_archetype c s' e = POk a' ∧ arch_ids <$> a = arch_ids <$> a') ∧
    ∀ T, T ≠ [] → (∀ t, t ∈ T → t ∉ untold (tr ++ loops ls) e) → read_components c s e T = read_components c s' e T) ∧
  (∀ g, first_ordered c s g = first_ordered c s' g ∧ last_ordered c s g = last_ordered c s' g ∧
    ∀ e, alive_in tr e → next_ordered c s g e = next_ordered c s' g e ∧ previous_ordered c s g e = previous_ordered c s' g e) ∧
  (tags_on_live tr → ∀ t e, alive_in tr e → has_tag c s t e = has_tag c s' t e).
Proof.
  intros Hc Hh Hh' Hp Hi. destruct (healthy_alike c cap _ s cap' _ s' (issued tr) (alive_in tr) (tr ++ loops ls) Hc Hh Hh') as (H1 & H2 & H3).
  - intros e He. by rewrite !issued_loops.
  - intros e He. destruct (drun_debug _ _ _ _ Hc Hh) as [Hhr _]. by eapply hrun_full.
  - done.
  - intros e m He Hm. by apply (comps_schedule tr ls ls').
  - intros e He. by rewrite !alive_loops.
  - intros g. by rewrite !members_loops.
  - intros t e _. by rewrite !tagged_loops.
  - split; [exact H1|]. split; [exact H2|]. intros Ht. apply H3; by apply tags_live_loops.
Qed.
Lemma schedule_caught c cap cap' tr1 tr2 s s' tr ls ls' : cfg_ok c → crun c cap tr1 s → crun c cap' tr2 s' → answered tr1 = tr ++ loops ls → answered tr2 = tr ++ loops ls' →
  ls ≡ₚ ls' → independent ls →
  (∀ e, e ∈ issued tr →
    is_alive c s e = is_alive c s' e ∧
    (∃ a a', get_entity_archetype c s e = POk a ∧ get_entity_archetype c s' e = POk a' ∧ arch_ids <$> a = arch_ids <$> a') ∧
    ∀ T, T ≠ [] → (∀ t, t ∈ T → t ∉ untold (tr ++ loops ls) e) → read_components c s e T = read_components c s' e T) ∧
  (ec_cap (st_ec s) < 2 ^ 32 → ec_cap (st_ec s') < 2 ^ 32 →
    (∀ g, first_ordered c s g = first_ordered c s' g ∧ last_ordered c s g = last_ordered c s' g ∧
      ∀ e, alive_in tr e → next_ordered c s g e = next_ordered c s' g e ∧ previous_ordered c s g e = previous_ordered c s' g e) ∧
    (tags_on_live tr → ∀ t e, alive_in tr e → has_tag c s t e = has_tag c s' t e)).
Proof.
  intros Hc Hr Hr' E1 E2 Hp Hi.
  pose proof (caught_alike c Hc cap tr1 s cap' tr2 s' (issued tr) (alive_in tr) (tr ++ loops ls) Hr Hr') as H.
  rewrite E1, E2 in H. destruct H as [H1 H2].
  - intros e He. by rewrite !issued_loops.
  - intros e He. destruct (crun_only _ _ _ _ Hr) as [_ Hf]. rewrite E1 in Hf. apply Hf.
  - done.
  - intros e m He Hm. by apply (comps_schedule tr ls ls').
  - intros e He. by rewrite !alive_loops.
  - intros g. by rewrite !members_loops.
  - intros t e _. by rewrite !tagged_loops.
  - split; [exact H1|]. intros C1 C2. destruct (H2 C1 C2) as [Ho Ht]. split; [exact Ho|]. intros T1. apply Ht; by apply tags_live_loops.
Qed.
(** The loops return in any order. *)
Lemma drun_loops_inv c cap tr s ls : drun (λ _ _, True) c cap (tr ++ loops ls) s → (∃ s0, drun (λ _ _, True) c cap tr s0) ∧ Forall (λ l : loop, args_ok c (OWrite l.1 l.2)) ls.
Proof.
  revert s. induction ls as [|l ls IH] using rev_ind; intros s.
  - simpl. rewrite app_nil_r. eauto.
  - rewrite loops_snoc, app_assoc. intros (s1 & H & (Ha & _) & _)%drun_snoc. apply IH in H as [H1 H2]. split; [done|]. apply Forall_app. split; [done|]. constructor; [exact Ha|constructor].
Qed.
Lemma drun_loops c cap tr s ls : cfg_ok c → frugal c tr → drun (λ _ _, True) c cap tr s → Forall (λ l : loop, args_ok c (OWrite l.1 l.2)) ls →
  ∃ s', drun (λ _ _, True) c cap (tr ++ loops ls) s'.
Proof.
  intros Hc Hf Hd. induction ls as [|l ls IH] using rev_ind; intros Ha; [exists s; simpl; by rewrite app_nil_r|].
  apply Forall_app in Ha as [Ha Hl]. apply Forall_inv in Hl. destruct (IH Ha) as [s1 H1]. rewrite loops_snoc, app_assoc.
  destruct (frugal_returns c cap _ s1 (OWrite l.1 l.2) Hc H1) as (s' & r & Hs'); [by apply frugal_loops|by apply loop_disciplined|].
  pose proof (write_none _ _ _ _ _ _ _ _ (drun_run _ _ _ _ _ H1) Hs') as ->. exists s'. econstructor; [exact H1|done|by apply loop_disciplined|exact Hs'].
Qed.
Lemma schedules c cap tr s ls ls' : cfg_ok c → frugal c tr → drun (λ _ _, True) c cap (tr ++ loops ls) s → ls ≡ₚ ls' → independent ls →
  ∃ s', drun (λ _ _, True) c cap (tr ++ loops ls') s' ∧
  (∀ e, e ∈ issued tr →
    is_alive c s e = is_alive c s' e ∧
    (∃ a a', get_entity_archetype c s e = POk a ∧ get_entity_archetype c s' e = POk a' ∧ arch_ids <$> a = arch_ids <$> a') ∧
    ∀ T, T ≠ [] → (∀ t, t ∈ T → t ∉ untold (tr ++ loops ls) e) → read_components c s e T = read_components c s' e T) ∧
  (∀ g, first_ordered c s g = first_ordered c s' g ∧ last_ordered c s g = last_ordered c s' g ∧
    ∀ e, alive_in tr e → next_ordered c s g e = next_ordered c s' g e ∧ previous_ordered c s g e = previous_ordered c s' g e) ∧
  (tags_on_live tr → ∀ t e, alive_in tr e → has_tag c s t e = has_tag c s' t e).
Proof.
  intros Hc Hf Hd Hp Hi. destruct (drun_loops_inv _ _ _ _ _ Hd) as [[s0 Hd0] Ha]. rewrite Hp in Ha.
  destruct (drun_loops c cap tr s0 ls' Hc Hf Hd0 Ha) as [s' Hd']. exists s'. split; [exact Hd'|].
  destruct (frugal_drun _ _ _ _ Hc Hd (proj2 (frugal_loops c tr ls) Hf)) as [Hh _]. destruct (frugal_drun _ _ _ _ Hc Hd' (proj2 (frugal_loops c tr ls') Hf)) as [Hh' _].
  exact (schedule_same c cap cap tr s s' ls ls' Hc Hh Hh' Hp Hi).
Qed.
(** For examples. *)
Definition after_loops (c : cfg) (ls : list loop) (s : store) : store := foldl (λ s (l : loop), after c (OWrite l.1 l.2) s) s ls.
Fixpoint loops_returnb (c : cfg) (ls : list loop) (s : store) : bool :=
  match ls with [] => true | l :: ls => returnsb c (OWrite l.1 l.2) s && loops_returnb c ls (after c (OWrite l.1 l.2) s) end.
Lemma after_loops_run c cap tr s ls : drun (λ _ _, True) c cap tr s → Forall (λ l : loop, args_ok c (OWrite l.1 l.2)) ls → loops_returnb c ls s = true →
  drun (λ _ _, True) c cap (tr ++ loops ls) (after_loops c ls s).
Proof.
  revert tr s. induction ls as [|l ls IH]; intros tr s Hd Ha; simpl; [by rewrite app_nil_r|]. intros [H1%after_step H2]%andb_prop. apply Forall_cons in Ha as [Ha Has].
  rewrite (cons_middle _ tr), app_assoc. apply IH; [|done|done]. econstructor; [exact Hd|done|by apply loop_disciplined|exact H1].
Qed.
