(** Story.v — the calls that concern one entity, from its creation on. *)
From Verif.Spec Require Export Components Tags.
Local Open Scope N_scope.

(** The part of a call that concerns [e]: calls that name it, and of a write query what it does to [e]. Calls on order groups are left out. *)
Definition part (e : entity) (o : op) : option op :=
  match o with
  | ODestroy e' | OAdd e' _ | ORemove e' _ | OSet e' _ | OTagAdd _ e' | OTagDel _ e' => if decide (e' = e) then Some o else None
  | OWrite q f => Some (OWrite q (λ _, f e))
  | _ => None
  end.
(** A call that returns [e] begins the story, other calls continue it. *)
Definition story_step (e : entity) (st : trace) (x : op * option entity) : trace :=
  if decide (x.2 = Some e) then [x]
  else match st, part e x.1 with _ :: _, Some o => st ++ [(o, x.2)] | _, _ => st end.
Definition story (e : entity) (tr : trace) : trace := foldl (story_step e) [] tr.

(** The components of [e] whose value the calls do not tell: create_entity_with_archetype gives components without a value; adding and
    setting gives values; a write query gives values that are told if those it reads are. [S]: the types of [e], see Spec/Components.v. *)
Definition untold_step (e : entity) (S : option (gset tid)) (u : gset tid) (o : op) (r : option entity) : gset tid :=
  match o with
  | OCreate => if decide (r = Some e) then ∅ else u
  | OCreateWith a => if decide (r = Some e) then list_to_set (arch_ids a) else u
  | OAdd e' vals => if decide (e' = e) then u ∖ list_to_set vals.*1 else u
  | OSet e' vals => if decide (e' = e ∧ list_to_set vals.*1 ⊆ default ∅ S) then u ∖ list_to_set vals.*1 else u
  | OWrite q _ =>
    if decide (list_to_set (q_types q) ⊆ default ∅ S) then
      if decide (list_to_set (q_read q) ## u) then u ∖ list_to_set (q_write q) else u ∪ list_to_set (q_write q)
    else u
  | _ => u
  end.
Definition untold (tr : trace) (e : entity) : gset tid :=
  (foldl (λ x or, (types_step e x.1 or.1 or.2, untold_step e x.1 x.2 or.1 or.2)) (None, ∅) tr).2.
