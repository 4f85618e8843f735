(** Safety.v — calls made with handles of the store. *)
From Verif.Spec Require Export Components Orders.
Local Open Scope N_scope.

(** The handles passed to a call. *)
Definition handles (o : op) : list entity :=
  match o with
  | OCreate | OCreateWith _ | OWrite _ _ => []
  | ODestroy e | OAdd e _ | ORemove e _ | OSet e _ | OTagAdd _ e | OTagDel _ e | OOrdAdd _ e | OOrdDel _ e => [e]
  | OOrdNext _ e to | OOrdPrev _ e to => [e; to]
  end.
(** They are all handles this store has returned, alive or not. *)
Definition own (tr : trace) (o : op) : Prop := ∀ e, e ∈ handles o → e ∈ issued tr.
(** The call does not perform an undefined operation. *)
Definition defined (c : cfg) (o : op) (s : store) : Prop := ∀ w, step c o s ≠ RUB w.
(** The same for a call that only reads. *)
Definition pdefined {A} (r : pres A) : Prop := ∀ w, r ≠ PUB w.
(** The handles passed are alive. *)
Definition on_live (tr : trace) (o : op) : Prop := ∀ e, e ∈ handles o → alive_in tr e.
Definition all_on_live (tr : trace) : Prop := ∀ tr1 o r tr2, tr = tr1 ++ (o, r) :: tr2 → on_live tr1 o.
