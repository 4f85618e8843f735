(** Writes.v — client code that writes through the references of an iterator, and the same thing done with
    get_components_refs_mut for each entity. *)
From Verif.Spec Require Export Queries Components Orders.
Local Open Scope N_scope.

(** [for x in it { let (r, w) = x; *w = f(x, *r) }]: from the memory [pages] to [pages']. [refs x] are the references of
    the item: those for reading, then those for writing. *)
Inductive writes {I X} (q : access) (next : I → pres (option X * I)) (refs : X → list cref)
    (f : X → list (list cell) → list (list N)) : list page → I → list page → Prop :=
| writes_end pages it it' : next it = POk (None, it') → writes q next refs f pages it pages
| writes_item pages it x it1 pages' : next it = POk (Some x, it1) →
    let n := length (q_read q) in
    writes q next refs f (assign_to_refs pages (drop n (refs x)) (f x (read_ref pages <$> take n (refs x)))) it1 pages' →
    writes q next refs f pages it pages'.
(** The store with that memory. *)
Definition with_pages (s : store) (pages : list page) : store := st_set_ac (ac_set_pages pages (st_ac s)) s.

(** The same for one entity after the other: get_components_refs, then get_components_refs_mut. *)
Inductive set_each (c : cfg) (q : access) (f : entity → list (list cell) → list (list N)) : trace → store → trace → store → list entity → Prop :=
| set_none tr s : set_each c q f tr s tr s []
| set_one tr s e v s1 tr' s' es : read_components c s e (q_read q) = POk (Some v) →
    let o := OSet e (zip (q_write q) (f e v)) in
    step c o s = ROk s1 None → set_each c q f (tr ++ [(o, None)]) s1 tr' s' es → set_each c q f tr s tr' s' (e :: es).

(** What it does to the components [m] of an entity. *)
Definition updated (q : access) (f : list (list cell) → list (list N)) (m : row) : row :=
  put (zip (q_write q) (f (values m (q_read q)))) m.
(** [e] is alive and has the types of the query. *)
Definition qualifies (c : cfg) (s : store) (q : access) (e : entity) : Prop :=
  ∃ m, observed c s e (Some m) ∧ ∀ t, t ∈ q_types q → is_Some (m !! t).
(** The function produces values of the types written. *)
Definition writer_ok (c : cfg) (q : access) (f : list (list cell) → list (list N)) : Prop :=
  ∀ l, length (f l) = length (q_write q) ∧ vals_ok c (zip (q_write q) (f l)).
