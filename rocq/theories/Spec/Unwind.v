(** Unwind.v — histories in which calls panic. *)
From Verif.Model Require Import Unwind.
Local Open Scope nat_scope.

(** The calls that may put an entity into another archetype. *)
Definition placing (o : op) : bool := match o with OCreateWith _ | OAdd _ _ | ORemove _ _ => true | _ => false end.
(** How many of these panicked. *)
Fixpoint interrupted (tr : list (op * outcome)) : nat :=
  match tr with
  | [] => 0
  | (o, Panicked) :: r => (if placing o then 1 else 0) + interrupted r
  | (_, Returned _) :: r => interrupted r
  end.
(** Calls that all returned. *)
Definition all_returned (tr : list (op * option entity)) : list (op * outcome) := (λ x, (x.1, Returned x.2)) <$> tr.
(** The calls that returned, with what they returned. *)
Definition answered (tr : list (op * outcome)) : list (op * option entity) :=
  omap (λ x, match x.2 with Returned r => Some (x.1, r) | Panicked => None end) tr.
(** How many calls create an entity, whether they returned or not. *)
Definition creating (o : op) : bool := match o with OCreate | OCreateWith _ => true | _ => false end.
Definition creations (tr : list (op * outcome)) : nat := length (List.filter (λ x, creating x.1) tr).
