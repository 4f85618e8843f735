(** Discipline.v — calls as the documentation intends them. *)
From Verif.Spec Require Export Safety Modes Usage.
Local Open Scope N_scope.

(** Only live entities are destroyed, not all components of an entity are removed, and handles do not run out. *)
Definition sensible (tr : trace) (o : op) : Prop :=
  match o with
  | OCreate | OCreateWith _ => N.of_nat (length (issued tr)) < 2 ^ 32 - 1
  | ODestroy e => alive_in tr e
  | ORemove e T => ∀ m, comps tr e (Some m) → m = ∅ ∨ ∃ t, is_Some (m !! t) ∧ t ∉ T
  | _ => True
  end.
(** Together with the conditions of the other properties. That an archetype has room is a question to the debug build. *)
Definition disciplined (c : cfg) (tr : trace) (o : op) : Prop :=
  args_ok c o ∧ room (in_mode Debug c) tr o ∧ order_use_ok tr o ∧ own tr o ∧ sensible tr o.

(** A run of disciplined calls, whose containers and calls (by the types they ask for) meet [H]. *)
Inductive drun (H : ac → option (gset tid) → Prop) (c : cfg) (cap : N) : trace → store → Prop :=
| drun_init s : 0 < cap → store_with_capacity (c_mode c) cap = POk s → drun H c cap [] s
| drun_step tr s o s' r : drun H c cap tr s → H (st_ac s) (asks tr o) → disciplined c tr o →
    step c o s = ROk s' r → drun H c cap (tr ++ [(o, r)]) s'.

(** The conditions of C16 on the sets of component types a history uses, in terms of the history alone. *)
Definition frugal (c : cfg) (tr : trace) : Prop :=
  let d := in_mode Debug c in
  one_abandoned tr ∧ ((∃ K, c_grow c 0 K = K ∧ same_capacity d K tr) ∨ below_capacity d tr).
(** The weaker condition of C16. *)
Definition considerate (c : cfg) (tr : trace) : Prop := careful (in_mode Debug c) tr.
