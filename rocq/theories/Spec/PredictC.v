(** PredictC.v — which handles creations return when calls panic and the panics are caught. *)
From Verif.Spec Require Export Predict Caught.
Local Open Scope N_scope.

(** Creations count also when they panic; destructions when they return. *)
Definition clives (tr : list (op * outcome)) : list life :=
  omap (λ c, match c.1, c.2 with
             | OCreate, _ | OCreateWith _, _ => Some Born
             | ODestroy e, Returned _ => Some (Died (e_id e))
             | _, _ => None
             end) tr.
(** For each creation whether it returned. *)
Definition kept (tr : list (op * outcome)) : list bool :=
  omap (λ c, if creating c.1 then Some (match c.2 with Returned _ => true | Panicked => false end) else None) tr.
(** The handles of the creations that returned. *)
Definition handed_back (es : list entity) (bs : list bool) : list entity := omap (λ x, if x.2 : bool then Some x.1 else None) (zip es bs).
