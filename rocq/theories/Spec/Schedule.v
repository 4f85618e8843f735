(** Schedule.v — several loops over write queries, one after the other. *)
From Verif.Spec Require Export Story Orders Discipline.
Local Open Scope N_scope.

(** A loop: its query, and what it writes to an entity, given the values read. *)
Definition loop : Type := access * (entity → list (list cell) → list (list N)).
(** The history of the loops [ls]. *)
Definition loops (ls : list loop) : trace := (λ x : loop, (OWrite x.1 x.2, None)) <$> ls.
(** No loop of [ls] writes what another one reads or writes. *)
Definition independent (ls : list loop) : Prop := ∀ i j x y t, ls !! i = Some x → ls !! j = Some y → i ≠ j → t ∈ q_write x.1 → t ∉ q_types y.1.
