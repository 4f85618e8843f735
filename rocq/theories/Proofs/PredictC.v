(** PredictC.v — predicted handles when calls panic and the panics are caught. *)
From Verif.Spec Require Export PredictC.
From Verif.Proofs Require Export StoryC PredictP.
Local Open Scope N_scope.

Lemma handed_back_snoc es bs e b : length es = length bs → handed_back (es ++ [e]) (bs ++ [b]) = handed_back es bs ++ if b : bool then [e] else [].
Proof. intros H. unfold handed_back. rewrite zip_with_app by done. rewrite omap_app. simpl. by destruct b. Qed.

Lemma explains_predicted tr tr' F : explains tr tr' F → only_creations tr' → (∀ o r, (o, r) ∈ tr' → creating o = true → is_Some r) →
  lives tr' = clives tr ∧ length (issued tr') = length (kept tr) ∧ issued (answered tr) = handed_back (issued tr') (kept tr).
Proof.
  induction 1 as [|tr tr' F o r _ IH|tr tr' F o _ IH Ho|tr tr' F a e _ IH]; intros Hoc Hcr; [done|..].
  - apply only_snoc in Hoc as [Hoc Ho]. destruct IH as (H1 & H2 & H3); [done|intros o' r' Hin; eapply Hcr; apply elem_of_app; by left|].
    assert (creating o = true → is_Some r) as Hc. { eapply Hcr. apply elem_of_app. right. by left. }
    rewrite story_answered_snoc, !issued_snoc. unfold lives, clives, kept. rewrite !omap_app. fold (lives tr') (clives tr) (kept tr). simpl.
    rewrite H1. split; [by destruct o|]. destruct r as [e|].
    + assert (creating o = true) as Hcro. { destruct (Ho ltac:(done)) as [->|[a ->]]; done. }
      rewrite Hcro. rewrite !app_length. simpl. split; [lia|]. rewrite handed_back_snoc by done. by rewrite H3.
    + destruct (creating o) eqn:E; [by destruct (Hc eq_refl)|]. rewrite !app_nil_r. done.
  - rewrite story_answered_snoc, app_nil_r. destruct IH as (H1 & H2 & H3); [done..|]. unfold clives, kept. rewrite !omap_app. fold (clives tr) (kept tr). simpl.
    rewrite Ho, !app_nil_r. split; [|done]. rewrite H1. destruct o; try done; by rewrite app_nil_r.
  - apply only_snoc in Hoc as [Hoc _]. destruct IH as (H1 & H2 & H3); [done|intros o' r' Hin; eapply Hcr; apply elem_of_app; by left|].
    rewrite story_answered_snoc, app_nil_r, issued_snoc. unfold lives, clives, kept. rewrite !omap_app. fold (lives tr') (clives tr) (kept tr). simpl.
    rewrite H1. split; [done|]. rewrite !app_length. simpl. split; [lia|]. rewrite handed_back_snoc by done. by rewrite app_nil_r.
Qed.
Lemma run_creations c cap tr s : run c cap tr s → ∀ o r, (o, r) ∈ tr → creating o = true → is_Some r.
Proof.
  induction 1 as [s _|tr s o s' r Hr IH H]; intros o' r' Hin Ho; [by apply elem_of_nil in Hin|].
  apply elem_of_app in Hin as [Hin|Hin]; [by eapply IH|]. apply elem_of_list_singleton in Hin as [= -> ->].
  apply (creation_returns c cap tr s o s' r Hr H). destruct o; try done; [by left|right; eauto].
Qed.
Lemma caught_predicted c cap tr s : cfg_ok c → crun c cap tr s → issued (answered tr) = handed_back (predicted (clives tr)) (kept tr).
Proof.
  intros Hc Hr. destruct (both_told c Hc cap tr s Hr) as (tr' & F & s0 & He & Hh%hrun_run & _).
  destruct (explains_predicted _ _ _ He) as (<- & _ & ->); [by eapply run_only|by eapply run_creations|].
  by rewrite <- (handles_predicted _ _ _ _ Hh).
Qed.
