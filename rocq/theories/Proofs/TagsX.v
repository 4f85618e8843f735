(** TagsX.v — deciding the tag discipline of concrete histories; witnesses against the unrestricted tag claims. *)
From Verif.Proofs Require Export TagsP ExecP.
Local Open Scope N_scope.

Fixpoint tags_check (L : gset entity) (tr : trace) : bool :=
  match tr with
  | [] => true
  | x :: r =>
    match x.1 with
    | OTagAdd _ e | OTagDel _ e => bool_decide (e ∈ L)
    | _ => true
    end && tags_check (live_step L x) r
  end.
Lemma tags_check_ok tr0 tr : tags_check (live tr0) tr = true →
  ∀ tr1 o r tr2 t e, tr = tr1 ++ (o, r) :: tr2 → o = OTagAdd t e ∨ o = OTagDel t e → alive_in (tr0 ++ tr1) e.
Proof.
  revert tr0. induction tr as [|x tr IH]; intros tr0 H tr1 o r tr2 t e Heq Ho; [by destruct tr1|].
  simpl in H. apply andb_prop in H as [Hx H]. destruct tr1 as [|y tr1]; simpl in Heq.
  - injection Heq as -> ->. rewrite app_nil_r. simpl in Hx. apply live_alive.
    destruct Ho as [-> | ->]; by apply bool_decide_eq_true in Hx.
  - injection Heq as <- ->. rewrite cons_middle, app_assoc. eapply (IH (tr0 ++ [x])); [by rewrite live_snoc|done|done].
Qed.
Lemma tags_on_live_check tr : tags_check ∅ tr = true → tags_on_live tr.
Proof. intros H tr1 o r tr2 t e Heq Ho. by eapply (tags_check_ok [] tr). Qed.

(** A stale handle whose id is in use again. *)
Definition stale_tag : list (list entity → op) :=
  [λ _, OCreate; λ hs, ODestroy (h 0 hs); λ _, OCreate; λ hs, OTagAdd 9 (h 1 hs)].
Lemma stale_tag_refuted : ¬ ∀ c cap tr s t e,
  cfg_ok c → c_mode c = Debug → run c cap tr s → ¬ alive_in tr e → e_id e < entities_capacity s →
  has_tag c s t e = POk false.
Proof.
  intros H. specialize (H (ex_cfg Debug) 1 (end_trace (ex_cfg Debug) 1 stale_tag) (end_store (ex_cfg Debug) 1 stale_tag)
    9 (Entity 0 1) (ex_cfg_ok _) eq_refl).
  feed specialize H.
  - apply end_run. vm_compute. reflexivity.
  - rewrite <- live_alive. vm_compute. done.
  - vm_compute. done.
  - vm_compute in H. done.
Qed.

(** A tag added to a handle after its destruction. *)
Definition late_tag : list (list entity → op) :=
  [λ _, OCreate; λ hs, ODestroy (h 0 hs); λ hs, OTagAdd 9 (h 0 hs)].
Lemma new_entity_tag_refuted : ¬ ∀ c cap tr s t e o s',
  cfg_ok c → c_mode c = Debug → run c cap tr s → step c o s = ROk s' (Some e) → has_tag c s' t e = POk false.
Proof.
  intros H.
  assert (∃ s', step (ex_cfg Debug) OCreate (end_store (ex_cfg Debug) 1 late_tag) = ROk s' (Some (Entity 0 2)) ∧
                has_tag (ex_cfg Debug) s' 9 (Entity 0 2) = POk true) as (s' & Hs & Ht).
  { eexists. split; [vm_compute; reflexivity|vm_compute; reflexivity]. }
  specialize (H (ex_cfg Debug) 1 (end_trace (ex_cfg Debug) 1 late_tag) _ 9 _ _ _ (ex_cfg_ok _) eq_refl
    (end_run (ex_cfg Debug) 1 late_tag eq_refl) Hs). congruence.
Qed.
