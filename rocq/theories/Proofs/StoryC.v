(** StoryC.v — the story of an entity when calls panic and the panics are caught. *)
From Verif.Spec Require Export Caught.
From Verif.Proofs Require Export StoryP UnwindB.
Local Open Scope N_scope.

Section caught.
Context (c : cfg) (Hc : cfg_ok c).
Lemma story_answered_snoc tr o x : answered (tr ++ [(o, x)]) = answered tr ++ match x with Returned r => [(o, r)] | Panicked => [] end.
Proof using. unfold answered. rewrite omap_app. simpl. by destruct x. Qed.
Lemma step_only o s s' e : step c o s = ROk s' (Some e) → o = OCreate ∨ ∃ a, o = OCreateWith a.
Proof using. intros H%step_ec. inversion H; subst; try done. Qed.
Lemma crun_only cap tr s : crun c cap tr s → only_creations (answered tr) ∧ ∀ e, full_writes e (answered tr).
Proof using.
  induction 1 as [s _ _|tr s o x s' Hr [IH1 IH2] _ Ha _ _ _ _ _ H].
  - split; [intros o e Hin; by apply elem_of_nil in Hin|intros e q f r Hin; by apply elem_of_nil in Hin].
  - rewrite story_answered_snoc. destruct x as [r|]; [|by rewrite app_nil_r]. simpl in H. split.
    + intros o' e Hin. apply elem_of_app in Hin as [Hin|Hin]; [by eapply IH1|]. apply elem_of_list_singleton in Hin as [= -> <-].
      by eapply step_only.
    + intros e q f r0 Hin. apply elem_of_app in Hin as [Hin|Hin]; [by eapply IH2|].
      apply elem_of_list_singleton in Hin as [= <- <-]. intros l. by apply Ha.
Qed.
End caught.

Lemma story_caught c cap tr s c' cap' tr' s' e : cfg_ok c → cfg_ok c' → crun c cap tr s → crun c' cap' tr' s' →
  e ∈ issued (answered tr) → story e (answered tr) = story e (answered tr') →
  is_alive c s e = is_alive c' s' e ∧
  (∃ a a', get_entity_archetype c s e = POk a ∧ get_entity_archetype c' s' e = POk a' ∧ arch_ids <$> a = arch_ids <$> a') ∧
  ∀ T, T ≠ [] → (∀ t, t ∈ T → t ∉ untold (answered tr) e) → read_components c s e T = read_components c' s' e T.
Proof.
  intros Hc Hc' Hr Hr' He Hst.
  assert (e ∈ issued (answered tr')) as He'. { apply story_issued. rewrite <- Hst. by apply story_issued. }
  destruct (both_values c Hc cap tr s e Hr He) as (x & Hx & Ho & _). destruct (both_values c' Hc' cap' tr' s' e Hr' He') as (y & Hy & Ho' & _).
  destruct (crun_only _ _ _ _ Hr) as [H1 H2]. destruct (crun_only _ _ _ _ Hr') as [H1' _].
  eapply observed_same; [done|done|]. eapply comps_told; [apply H2|done|].
  rewrite (story_comps_only e _ H1), Hst, <- (story_comps_only e _ H1'). done.
Qed.
