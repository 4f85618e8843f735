(** Override.v — calls that the next call makes superfluous. *)
From Verif.Spec Require Export Story Orders Discipline.

(** The types [T] are among [U]. *)
Definition within (T U : list tid) : Prop := ∀ t, t ∈ T → t ∈ U.
(** It does not matter whether [x] was made before [y]: [y] gives or takes the components that [x] gave or took or sets them once more; or
    gives or takes the same tag; or makes the same entity leave the same group; or destroys the entity. *)
Definition overrides (x y : op) : Prop :=
  match x, y with
  | OAdd e vals, OAdd e' vals' | OSet e vals, OAdd e' vals' => e' = e ∧ within vals.*1 vals'.*1
  | ORemove e T, OAdd e' vals' => e' = e ∧ within T vals'.*1
  | OAdd e vals, ORemove e' T' | OSet e vals, ORemove e' T' => e' = e ∧ within vals.*1 T'
  | ORemove e T, ORemove e' T' => e' = e ∧ within T T'
  | OSet e vals, OSet e' vals' => e' = e ∧ within vals.*1 vals'.*1 ∧ within vals'.*1 vals.*1
  | OTagAdd t e, OTagAdd t' e' | OTagAdd t e, OTagDel t' e' | OTagDel t e, OTagAdd t' e' | OTagDel t e, OTagDel t' e' => t' = t ∧ e' = e
  | OOrdAdd g e, OOrdDel g' e' | OOrdNext g e _, OOrdDel g' e' | OOrdPrev g e _, OOrdDel g' e' | OOrdDel g e, OOrdDel g' e' => g' = g ∧ e' = e
  | OAdd e _, ODestroy e' | OSet e _, ODestroy e' | ORemove e _, ODestroy e' | OTagAdd _ e, ODestroy e' | OTagDel _ e, ODestroy e'
  | OOrdAdd _ e, ODestroy e' | OOrdNext _ e _, ODestroy e' | OOrdPrev _ e _, ODestroy e' | OOrdDel _ e, ODestroy e' => e' = e
  | _, _ => False
  end.
