(** TakeBack.v — calls that take back the call before them. *)
From Verif.Spec Require Export Story Orders Discipline.

(** After the history [tr], the call [y] takes back what [x] did: a created entity is destroyed; components that the entity did not have are
    added and removed; values are set and set back; a tag is given and taken, or taken and given; a member enters a group and leaves it. *)
Definition undoes (tr : trace) (x y : op * option entity) : Prop :=
  match x.1, y.1 with
  | OCreate, ODestroy e | OCreateWith _, ODestroy e => x.2 = Some e
  | OAdd e vals, ORemove e' T => e' = e ∧ (∀ t, t ∈ T ↔ t ∈ vals.*1) ∧ ∀ t, t ∈ T → t ∉ default ∅ (types tr e)
  | OSet e vals, OSet e' vals' => e' = e ∧ vals'.*1 = vals.*1 ∧ ∀ m t v, comps tr e (Some m) → (t, v) ∈ vals' → m !! t = Some (Some <$> v)
  | OTagAdd t e, OTagDel t' e' => t' = t ∧ e' = e ∧ ¬ tagged tr t e
  | OTagDel t e, OTagAdd t' e' => t' = t ∧ e' = e ∧ tagged tr t e
  | OOrdAdd g e, OOrdDel g' e' | OOrdNext g e _, OOrdDel g' e' | OOrdPrev g e _, OOrdDel g' e' => g' = g ∧ e' = e
  | _, _ => False
  end.
