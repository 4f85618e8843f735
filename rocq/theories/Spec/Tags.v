(** Tags.v — what a history of calls says about tags. *)
From Verif.Spec Require Export Handles.
Local Open Scope N_scope.

(** [t] was added to [e], and since then neither removed from [e] nor [e] destroyed. *)
Definition tagged (tr : trace) (t : tid) (e : entity) : Prop :=
  since (λ x, x.1 = OTagAdd t e) (λ y, y.1 = OTagDel t e ∨ y.1 = ODestroy e) tr.

(** Tags are only added to and removed from handles alive at that moment. *)
Definition tags_on_live (tr : trace) : Prop :=
  ∀ tr1 o r tr2 t e, tr = tr1 ++ (o, r) :: tr2 → o = OTagAdd t e ∨ o = OTagDel t e → alive_in tr1 e.
