(** Independence.v — the calls that concern a tag type, an order group, the components. *)
From Verif.Spec Require Export Handles.
Local Open Scope N_scope.

(** Each call becomes the part of it that concerns a subject, or nothing. For handles these are creations, whatever the archetype,
    and destructions. They concern every subject. *)
Definition about_handles (o : op) : option op :=
  match o with OCreate | OCreateWith _ => Some OCreate | ODestroy e => Some (ODestroy e) | _ => None end.
Definition about_tag (t : tid) (o : op) : option op :=
  match o with OTagAdd t' _ | OTagDel t' _ => if decide (t' = t) then Some o else None | _ => about_handles o end.
Definition about_group (g : tid) (o : op) : option op :=
  match o with
  | OOrdAdd g' _ | OOrdNext g' _ _ | OOrdPrev g' _ _ | OOrdDel g' _ => if decide (g' = g) then Some o else None
  | _ => about_handles o
  end.
Definition about_components (o : op) : option op :=
  match o with
  | OTagAdd _ _ | OTagDel _ _ | OOrdAdd _ _ | OOrdNext _ _ _ | OOrdPrev _ _ _ | OOrdDel _ _ => None
  | _ => Some o
  end.
(** What a history says about a subject; results are not used. *)
Definition calls (about : op → option op) (tr : trace) : list op := omap about tr.*1.
