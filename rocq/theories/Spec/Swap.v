(** Swap.v — calls that have nothing to do with each other. *)
From Verif.Spec Require Export Story Discipline.

(** The parts of a store: the components of an entity, whether an entity has a tag, an order group. *)
Inductive part_of := Comps (e : entity) | Tagged (t : tid) (e : entity) | Group (g : tid).
(** What the call [x.1], which returned [x.2], changes. A destroyed entity leaves its groups too; that is not counted, because it does not
    matter to the other members. *)
Definition touches (x : op * option entity) (p : part_of) : Prop :=
  match x.1, p with
  | OCreate, Comps e | OCreateWith _, Comps e => x.2 = Some e
  | ODestroy e', Comps e | OAdd e' _, Comps e | ORemove e' _, Comps e | OSet e' _, Comps e => e' = e
  | OWrite _ _, Comps _ => True
  | ODestroy e', Tagged _ e => e' = e
  | OTagAdd t' e', Tagged t e | OTagDel t' e', Tagged t e => t' = t ∧ e' = e
  | OOrdAdd g' _, Group g | OOrdNext g' _ _, Group g | OOrdPrev g' _ _, Group g | OOrdDel g' _, Group g => g' = g
  | _, _ => False
  end.
(** [x] does not create or destroy an entity that [y] is about; if [x] is a creation, [y] is not a creation or a destruction, because the
    handle would be another. *)
Definition lets (x y : op * option entity) : Prop :=
  (∀ e, x.2 = Some e ∨ x.1 = ODestroy e → e ∉ handles y.1) ∧ (is_Some x.2 → y.2 = None ∧ ∀ e, y.1 ≠ ODestroy e).
Definition apart (x y : op * option entity) : Prop := (∀ p, touches x p → touches y p → False) ∧ lets x y ∧ lets y x.
