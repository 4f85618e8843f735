(** Visits.v — the order in which component queries visit entities that stay where they were first placed. *)
From Verif.Spec Require Export Components Queries.
Local Open Scope N_scope.

(** The calls that give components to an entity that has none, with the types given. *)
Definition entry (past : trace) (x : op * option entity) : list (entity * gset tid) :=
  match x with
  | (OCreateWith a, Some e) => [(e, list_to_set (arch_ids a))]
  | (OAdd e vals, _) => if decide (types past e = Some ∅) then [(e, list_to_set vals.*1)] else []
  | _ => []
  end.
Fixpoint entries_after (past tr : trace) : list (entity * gset tid) :=
  match tr with
  | [] => []
  | x :: r => entry past x ++ entries_after (past ++ [x]) r
  end.
Definition entries (tr : trace) : list (entity * gset tid) := entries_after [] tr.

(** The call neither takes components away from an entity nor gives other types to an entity that already has some. *)
Definition stays (past : trace) (o : op) : Prop :=
  match o with
  | ODestroy e | ORemove e _ => types past e = None ∨ types past e = Some ∅
  | OAdd e vals => ∀ S, types past e = Some S → S = ∅ ∨ list_to_set vals.*1 ⊆ S
  | _ => True
  end.
Definition settled (tr : trace) : Prop := ∀ tr1 o r tr2, tr = tr1 ++ (o, r) :: tr2 → stays tr1 o.

(** Each element once, in the order of first occurrence. *)
Fixpoint firsts {X} `{EqDecision X} (l : list X) : list X :=
  match l with
  | [] => []
  | x :: r => x :: filter (λ y, y ≠ x) (firsts r)
  end.
(** By set of types, in the order of first use; for each of them that has the types asked for, its entities in the order
    of entry. *)
Definition in_order (T : list tid) (l : list (entity * gset tid)) : list entity :=
  concat ((λ S, (filter (λ x, x.2 = S) l).*1) <$> filter (λ S, list_to_set T ⊆ S) (firsts l.*2)).
