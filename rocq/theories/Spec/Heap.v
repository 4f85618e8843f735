(** Heap.v — the contract of std::alloc, on a record of the calls made. *)
From Verif.Model Require Import Heap.
Local Open Scope N_scope.

(** The blocks in use after the given calls (newest first); [None] if one of the calls was undefined behaviour:
    an allocation of size 0, or a deallocation of something that is not a block in use or was allocated with a different
    layout. *)
Fixpoint in_use (h : list ev) : option (gmap N lay) :=
  match h with
  | [] => Some ∅
  | EAlloc p l :: r =>
    m ← in_use r;
    if bool_decide (la_size l ≠ 0 ∧ p ≠ 0 ∧ m !! p = None) then Some (<[p := l]> m) else None
  | EFree p l :: r =>
    m ← in_use r;
    if bool_decide (m !! p = Some l) then Some (delete p m) else None
  end.

(** No call was undefined behaviour. *)
Definition allowed (h : list ev) : Prop := is_Some (in_use h).
(** Moreover everything allocated has been freed. *)
Definition all_freed (h : list ev) : Prop := in_use h = Some ∅.

(** Read directly: a block is allocated once, and freed once, later, with the same layout. *)
Definition freed_once (h : list ev) (p : N) (l : lay) : Prop :=
  ∃ h1 h2 h3, h = h3 ++ EFree p l :: h2 ++ EAlloc p l :: h1 ∧
    ∀ l', EFree p l' ∉ h1 ++ h2 ++ h3 ∧ EAlloc p l' ∉ h1 ++ h2 ++ h3.
