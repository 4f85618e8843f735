(** Caught.v — careful use of a store some of whose calls panic. *)
From Verif.Model Require Export Unwind.
From Verif.Spec Require Export Env Components Safety Discipline Unwind.
Local Open Scope N_scope.

(** An archetype with these types is refused: computing its layout panics. *)
Definition refuses (c : cfg) (a : archetype) : Prop := layout_new (c_mode c) a = PPanic.
Definition refuses_types (c : cfg) (S : gset tid) : Prop := ∀ a, arch_wf c a → (∀ t, t ∈ arch_ids a ↔ t ∈ S) → refuses c a.
(** The archetype the call moves its entity to has room in a page (of a debug build, as in Spec/Discipline.v), or is refused. *)
Definition room_or_not (c : cfg) (tr : trace) (o : op) : Prop :=
  let d := in_mode Debug c in
  match o with
  | OCreateWith a => fits d a ∨ refuses c a
  | OAdd e vals => ∀ m, comps tr e (Some m) → let S := dom m ∪ list_to_set vals.*1 in fits_types d S ∨ refuses_types c S
  | ORemove e T => ∀ m, comps tr e (Some m) → let S := dom m ∖ list_to_set T in fits_types d S ∨ refuses_types c S
  | _ => True
  end.
(** [crun c cap tr s]: a history with panics in which the conditions of Spec/Components.v are met, except that archetypes may be
    refused; the handles used were returned by the store; only live entities are destroyed; handles do not run out; and order
    calls are proper, but for those at which a debug build panics. All of this is read off the calls that returned. *)
Inductive crun (c : cfg) (cap : N) : list (op * outcome) → store → Prop :=
| crun_init s : 0 < cap → store_with_capacity (c_mode c) cap = POk s → crun c cap [] s
| crun_step tr s o x s' : crun c cap tr s → healthy c (st_ac s) (asks (answered tr) o) → args_ok c o → room_or_not c (answered tr) o →
    own (answered tr) o →
    (∀ e, o = ODestroy e → alive_in (answered tr) e) →
    (creating o = true → N.of_nat (creations tr) < 2 ^ 32 - 1) →
    order_use_ok (answered tr) o ∨ c_mode c = Debug ∧ x = Panicked →
    ends c o s x s' → crun c cap (tr ++ [(o, x)]) s'.

(** [explains tr tr' F]: [tr'] is a history without panics that has the calls of [tr] that returned; a creation with an archetype
    that panicked is a plain creation in it, whose handle, which no one has, is in [F]; other calls that panicked are left out. *)
Inductive explains : list (op * outcome) → trace → list entity → Prop :=
| explains_nil : explains [] [] []
| explains_returned tr tr' F o r : explains tr tr' F → explains (tr ++ [(o, Returned r)]) (tr' ++ [(o, r)]) F
| explains_nothing tr tr' F o : explains tr tr' F → creating o = false → explains (tr ++ [(o, Panicked)]) tr' F
| explains_made tr tr' F a e : explains tr tr' F → explains (tr ++ [(OCreateWith a, Panicked)]) (tr' ++ [(OCreate, Some e)]) (F ++ [e]).
