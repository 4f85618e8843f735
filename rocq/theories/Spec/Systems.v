(** Systems.v — loops over write queries and the calls they have nothing to do with. *)
From Verif.Spec Require Export Story Orders Discipline.
Local Open Scope N_scope.

(** The call [o] does not concern the components that a loop with the query [q] reads and writes: it gives, takes or sets other types, or
    creates an entity that does not have all queried types, or destroys an entity, or it is about tags or groups. Of two loops neither
    writes what the other reads or writes. *)
Definition aside (o : op) (q : access) : Prop :=
  match o with
  | OCreateWith a => ∃ t, t ∈ q_types q ∧ t ∉ arch_ids a
  | OAdd _ vals | OSet _ vals => ∀ t, t ∈ vals.*1 → t ∉ q_types q
  | ORemove _ T => ∀ t, t ∈ T → t ∉ q_types q
  | OWrite q' _ => (∀ t, t ∈ q_write q' → t ∉ q_types q) ∧ (∀ t, t ∈ q_write q → t ∉ q_types q')
  | _ => True
  end.
