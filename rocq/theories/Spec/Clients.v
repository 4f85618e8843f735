(** Clients.v — what the programs in examples/ compute with. *)
From Verif.Spec Require Export Components Queries.
Local Open Scope N_scope.

(** The bytes of the components, all of them initialised. *)
Definition bytes (v : list (tid * list N)) : list (list cell) := (λ tv : tid * list N, Some <$> tv.2) <$> v.
(** What is read through the references of an item. *)
Definition seen (s : store) (refs : list cref) : list (list cell) := read_ref (ac_pages (st_ac s)) <$> refs.
(** A value of the tuple type [T]. *)
Definition of_type (c : cfg) (T : list tid) (v : list (tid * list N)) : Prop := v.*1 = T ∧ vals_ok c v.
