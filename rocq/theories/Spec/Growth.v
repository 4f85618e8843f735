(** Growth.v — how often a history makes the store grow. *)
From Verif.Model Require Import Heap.
From Verif.Spec Require Export Handles.
Local Open Scope N_scope.

(** [growths c cap tr s l]: the history [tr] from a store of capacity [cap] ends in [s]; [l] has, for each call that changed the
    capacity, the capacity before it. These are the numbers of entries that were copied, in each of the tables. *)
Inductive growths (c : cfg) (cap : N) : trace → store → list N → Prop :=
| growths_init s : store_with_capacity (c_mode c) cap = POk s → growths c cap [] s []
| growths_same tr s l o s' r : growths c cap tr s l → step c o s = ROk s' r → entities_capacity s' = entities_capacity s →
    growths c cap (tr ++ [(o, r)]) s' l
| growths_more tr s l o s' r : growths c cap tr s l → step c o s = ROk s' r → entities_capacity s' ≠ entities_capacity s →
    growths c cap (tr ++ [(o, r)]) s' (l ++ [entities_capacity s]).
Definition copied (l : list N) : N := foldr N.add 0 l.
(** The tables of a store: versions, alive bits, pages, indices, archetype bits, one per tag, two per order group. *)
Definition tables (k : stp) : nat := (5 + length (ps_tags k) + length (po_fwd (ps_orders k)) + length (po_bwd (ps_orders k)))%nat.
