(** Resources.v — what a history of calls says about a ResourceStore. Only the calls and their results are used. *)
From Verif.Model Require Export Resource.
Local Open Scope N_scope.

Section resources.
Context {T : Type}.
(** The value under the handle [e]: the one it was created with or last assigned, until released. *)
Definition held_step (e : entity) (x : option T) (c : rop T * rout T) : option T :=
  match c with
  | (RCreate v, RHandle e') => if decide (e' = e) then Some v else x
  | (RRelease e', _) => if decide (e' = e) then None else x
  | (RAssign e' v, _) => if decide (e' = e) then Some v else x
  | _ => x
  end.
Definition held (tr : rtrace T) (e : entity) : option T := foldl (held_step e) None tr.
(** The values the store was given, and those it gave back (a value replaced by an assignment counts). *)
Definition gave (tr : rtrace T) : list T := omap (λ c, match c.1 with RCreate v | RAssign _ v => Some v | RRelease _ => None end) tr.
Definition got (tr : rtrace T) : list T := omap (λ c, match c.2 with RValue v => Some v | RHandle _ => None end) tr.
(** Handles returned. *)
Definition rissued (tr : rtrace T) : list entity := omap (λ c, match c.2 with RHandle e => Some e | RValue _ => None end) tr.
(** A new store. *)
Definition rinit (s : rs T) : Prop := s = rs_new ∨ ∃ cap, s = rs_with_capacity cap.
End resources.
