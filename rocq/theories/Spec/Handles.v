(** Handles.v — what a history of calls says about entity handles. Only the calls and their results are used. *)
From Verif.Model Require Export Run.
Local Open Scope N_scope.

(** All handles returned by creations, in order. *)
Definition issued (tr : trace) : list entity := omap snd tr.

(** The set of live handles: created and not destroyed since. *)
Definition live_step (L : gset entity) (x : op * option entity) : gset entity :=
  (match x.1 with ODestroy e => L ∖ {[ e ]} | _ => L end) ∪
  (match x.2 with Some e => {[ e ]} | None => ∅ end).
Definition live (tr : trace) : gset entity := foldl live_step ∅ tr.

(** [since P Q tr]: some call satisfies [P] and no later call satisfies [Q]. *)
Definition since (P Q : op * option entity → Prop) (tr : trace) : Prop :=
  ∃ tr1 x tr2, tr = tr1 ++ x :: tr2 ∧ P x ∧ Forall (λ y, ¬ Q y) tr2.

(** Liveness said directly: some call returned [e] and no later call destroyed it. *)
Definition alive_in (tr : trace) (e : entity) : Prop :=
  since (λ x, x.2 = Some e) (λ y, y.1 = ODestroy e) tr.

(** The largest number of simultaneously live handles so far. *)
Fixpoint peak_from (L : gset entity) (tr : trace) : N :=
  match tr with
  | [] => N.of_nat (size L)
  | x :: tr' => N.max (N.of_nat (size L)) (peak_from (live_step L x) tr')
  end.
Definition peak (tr : trace) : N := peak_from ∅ tr.

(** Every handle destroyed was alive at that time. *)
Definition destroys_live (tr : trace) : Prop :=
  ∀ tr1 e r tr2, tr = tr1 ++ (ODestroy e, r) :: tr2 → alive_in tr1 e.
