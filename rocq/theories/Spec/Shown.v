(** Shown.v — an order group as the API shows it. *)
From Verif.Spec Require Export Orders.
Local Open Scope N_scope.

(** First, last, and next and previous of the members report the list [l]. *)
Definition shows (c : cfg) (s : store) (g : tid) (l : list entity) : Prop :=
  first_ordered c s g = POk (head l) ∧ last_ordered c s g = POk (last l) ∧
  ∀ i e, l !! i = Some e → next_ordered c s g e = POk (l !! S i) ∧ previous_ordered c s g e = POk (before l i).
