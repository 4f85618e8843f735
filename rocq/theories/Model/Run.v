(** Run.v — histories of API calls on one Store. *)
From Verif.Model Require Export Store Query.
Local Open Scope N_scope.

(** One mutating call of the public API of Store: store.rs:53-184, 248-258, query/component.rs:62-117, tag_container.rs:97-105,
    order_group_container.rs:343-368. *)
Inductive op :=
| OCreate                                                        (* create_entity *)
| OCreateWith (a : archetype)                                    (* create_entity_with_archetype *)
| ODestroy (e : entity)                                          (* destroy_entity *)
| OAdd (e : entity) (vals : list (tid * list N))                 (* add_components *)
| ORemove (e : entity) (T : list tid)                            (* remove_components *)
| OSet (e : entity) (vals : list (tid * list N))                 (* get_components_refs_mut, then assignments *)
| OWrite (q : access) (f : entity → list (list cell) → list (list N)) (* a loop over a write query *)
| OTagAdd (t : tid) (e : entity)                                 (* add_tag *)
| OTagDel (t : tid) (e : entity)                                 (* remove_tag *)
| OOrdAdd (g : tid) (e : entity)                                 (* add_entity_order_by *)
| OOrdNext (g : tid) (e to : entity)                             (* add_entity_next_to_order_by *)
| OOrdPrev (g : tid) (e to : entity)                             (* add_entity_previous_to_order_by *)
| OOrdDel (g : tid) (e : entity)                                 (* remove_entity_order_by *).

(** The result of a call: the handle, for creations. *)
Notation out := (option entity) (only parsing).
(** Calls that return nothing. *)
Definition no_out (m : M store unit) : M store out := _ ← m; mret None.

(** The function called, see the comments of [op]. *)
Definition step (c : cfg) (o : op) : M store out :=
  match o with
  | OCreate => e ← create_entity c; mret (Some e)
  | OCreateWith a => e ← create_entity_with_archetype c a; mret (Some e)
  | ODestroy e => no_out (destroy_entity c e)
  | OAdd e vals => no_out (add_components c e vals)
  | ORemove e T => no_out (remove_components c e T)
  | OSet e vals => no_out (set_components c e vals)
  | OWrite q f => no_out (query_write c q f)
  | OTagAdd t e => no_out (add_tag c t e)
  | OTagDel t e => no_out (remove_tag c t e)
  | OOrdAdd g e => no_out (add_order c g e)
  | OOrdNext g e to => no_out (add_order_next c g e to)
  | OOrdPrev g e to => no_out (add_order_prev c g e to)
  | OOrdDel g e => no_out (remove_order c g e)
  end.

(** A trace: the calls made and what they returned, oldest first. *)
Notation trace := (list (op * option entity)) (only parsing).

(** [run c cap tr s]: a store created with capacity [cap] went through the calls of [tr], all of which returned
    normally with the recorded results, and is now [s]. *)
Inductive run (c : cfg) (cap : N) : trace → store → Prop :=
| run_init s : store_with_capacity (c_mode c) cap = POk s → run c cap [] s
| run_step tr s o s' r : run c cap tr s → step c o s = ROk s' r → run c cap (tr ++ [(o, r)]) s'.

(** Executable version, for concrete examples: runs a list of calls, where each call may depend on the handles
    returned so far. *)
Fixpoint exec (c : cfg) (ops : list (list entity → op)) (hs : list entity) (tr : trace) (s : store)
    : res store (trace * list entity) :=
  match ops with
  | [] => ROk s (tr, hs)
  | o :: r =>
    match step c (o hs) s with
    | ROk s' x => exec c r (match x with Some e => hs ++ [e] | None => hs end) (tr ++ [(o hs, x)]) s'
    | RPanic s' => RPanic s'
    | RUB w => RUB w
    end
  end.
Definition exec0 (c : cfg) (cap : N) (ops : list (list entity → op)) : res store (trace * list entity) :=
  match store_with_capacity (c_mode c) cap with
  | POk s => exec c ops [] [] s
  | PPanic => RPanic (Store (ec_new cap) ac_new (tags_new cap) (orders_new cap) [] [] [])
  | PUB w => RUB w
  end.
