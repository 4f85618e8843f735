(** Queries.v — what it means for an iterator to produce a list of items. *)
From Verif.Model Require Export Query.

(** [yields next it l it']: calling next() on [it] returns the items of [l], then None, leaving [it']. *)
Inductive yields {I X} (next : I → pres (option X * I)) : I → list X → I → Prop :=
| yields_end it it' : next it = POk (None, it') → yields next it [] it'
| yields_item it x it1 l it' : next it = POk (Some x, it1) → yields next it1 l it' → yields next it (x :: l) it'.

(** The state after [n] calls of next(), if all of them return. *)
Fixpoint advance {I X} (next : I → pres (option X * I)) (n : nat) (it : I) : pres I :=
  match n with
  | O => POk it
  | S n => r ← next it; advance next n r.2
  end.
(** Every further call returns None. *)
Definition finished {I X} (next : I → pres (option X * I)) (it : I) : Prop :=
  ∀ n, ∃ it1 it2, advance next n it = POk it1 ∧ next it1 = POk (None, it2).

(** The bytes of a reference. *)
Definition covers (r : cref) (p : nat) (b : N) : Prop := r_page r = p ∧ (r_off r ≤ b < r_off r + r_len r)%N.
(** No byte belongs to two items, or to two components of an item. *)
Definition disjoint_items {X} (l : list (X * list cref)) : Prop :=
  ∀ n1 n2 x1 x2 i1 i2 r1 r2 p b, l !! n1 = Some x1 → l !! n2 = Some x2 → x1.2 !! i1 = Some r1 → x2.2 !! i2 = Some r2 →
    covers r1 p b → covers r2 p b → n1 = n2 ∧ i1 = i2.

(** The entity of the item has the tag, as has_tag() tells. *)
Definition item_tagged {X} (c : cfg) (s : store) (t : tid) (x : entity * X) : bool :=
  match has_tag c s t x.1 with POk b => b | _ => false end.
(** next() of a tag filter on a call stack of the given depth; running out of it ends the program. *)
Definition filtering (depth : nat) (s : store) (bv : bitvec) (it : qiter) : pres (option (entity * list cref) * qiter) :=
  default PPanic (filter_next depth (ec_ver (st_ec s)) bv it).

(** Among any [n] consecutive items one is tagged. *)
Definition none_skipped {X} (tagged : X → bool) (n : nat) (l : list X) : Prop :=
  ∀ l1 l2 l3, l = l1 ++ l2 ++ l3 → length l2 = n → ∃ x, x ∈ l2 ∧ tagged x = true.

(** All components of the items [l] are in the same page. *)
Definition one_page (l : list (entity * list cref)) : Prop :=
  ∀ x y r r', x ∈ l → y ∈ l → r ∈ x.2 → r' ∈ y.2 → r_page r = r_page r'.
