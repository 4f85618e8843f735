(** Orders.v — what a history of calls says about order groups: each group is a list of entities. *)
From Verif.Spec Require Export Handles.
Local Open Scope N_scope.

(** Insert [e] directly after / before [to]. *)
Fixpoint insert_after (to e : entity) (l : list entity) : list entity :=
  match l with
  | [] => []
  | x :: r => if bool_decide (x = to) then x :: e :: r else x :: insert_after to e r
  end.
Fixpoint insert_before (to e : entity) (l : list entity) : list entity :=
  match l with
  | [] => []
  | x :: r => if bool_decide (x = to) then e :: x :: r else x :: insert_before to e r
  end.

(** The effect of one call on the group [g]. *)
Definition order_step (g : tid) (l : list entity) (o : op) : list entity :=
  match o with
  | OOrdAdd g' e => if bool_decide (g' = g) then l ++ [e] else l
  | OOrdNext g' e to => if bool_decide (g' = g) then insert_after to e l else l
  | OOrdPrev g' e to => if bool_decide (g' = g) then insert_before to e l else l
  | OOrdDel g' e => if bool_decide (g' = g) then filter (λ x, x ≠ e) l else l
  | ODestroy e => filter (λ x, x ≠ e) l
  | _ => l
  end.
(** The members of the group [g] after the calls of [tr], in order. *)
Definition members (tr : trace) (g : tid) : list entity := foldl (λ l x, order_step g l x.1) [] tr.

(** Proper use: handles are alive, what is added is not yet a member, and insertion targets are members. *)
Definition order_use_ok (tr : trace) (o : op) : Prop :=
  match o with
  | OOrdAdd g e => alive_in tr e ∧ e ∉ members tr g
  | OOrdNext g e to | OOrdPrev g e to => alive_in tr e ∧ e ∉ members tr g ∧ to ∈ members tr g
  | OOrdDel g e => alive_in tr e
  | _ => True
  end.
Definition orders_proper (tr : trace) : Prop :=
  ∀ tr1 o r tr2, tr = tr1 ++ (o, r) :: tr2 → order_use_ok tr1 o.

(** The member before the one at position [i]. *)
Definition before (l : list entity) (i : nat) : option entity := match i with O => None | S j => l !! j end.
