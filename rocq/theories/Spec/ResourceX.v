(** ResourceX.v — histories of a ResourceStore in which calls panicked and the panics were caught, and histories
    that use handles only while they hold a value. Only the calls and their results are used. *)
From Verif.Spec Require Export Resources.
Local Open Scope N_scope.

Section resources.
Context {T : Type}.
(** Each call with its result, [None] for a call that panicked; the next call meets the store the panic left behind. *)
Inductive prrun (md : mode) (s0 : rs T) : list (rop T * option (rout T)) → rs T → Prop :=
| prrun_init : prrun md s0 [] s0
| prrun_returned tr s o s' r : prrun md s0 tr s → rstep md o s = ROk s' r → prrun md s0 (tr ++ [(o, Some r)]) s'
| prrun_panicked tr s o s' : prrun md s0 tr s → rstep md o s = RPanic s' → prrun md s0 (tr ++ [(o, None)]) s'.
(** The calls that returned. *)
Definition ranswered (tr : list (rop T * option (rout T))) : rtrace T := omap (λ c, (λ r, (c.1, r)) <$> c.2) tr.
(** How many creations were attempted. *)
Definition is_rcreate (o : rop T) : bool := match o with RCreate _ => true | _ => false end.
Definition rattempts (tr : list (rop T * option (rout T))) : nat := length (List.filter (λ c, is_rcreate c.1) tr).
(** Values are released and assigned only through handles that hold one. *)
Definition rcareful (tr : rtrace T) : Prop := ∀ tr1 o r tr2, tr = tr1 ++ (o, r) :: tr2 →
  match o with RCreate _ => True | RRelease e | RAssign e _ => held tr1 e ≠ None end.
End resources.
