(** Env.v — what the model assumes of its environment: the documented contracts of the Rust standard library. *)
From Verif.Model Require Export Base.
Local Open Scope N_scope.

(** [slice::binary_search] on a sorted slice. Nothing is assumed about unsorted slices. *)
Definition search_ok (bs : list N → N → bsres) : Prop :=
  ∀ l x, StronglySorted N.le l →
    match bs l x with
    | BFound i => l !! i = Some x
    | BMissing i => (i ≤ length l)%nat ∧ Forall (λ y, y < x) (take i l) ∧ Forall (λ y, x < y) (drop i l)
    end.

(** [Vec::reserve] and [Vec::push]: the new capacity is at least what is required. *)
Definition grow_ok (grow : N → N → N) : Prop := ∀ cap required, required ≤ grow cap required.

(** [align_of] is never 0. *)
Definition types_ok (ty : tid → tyinfo) : Prop := ∀ t, 0 < ti_align (ty t).

Record cfg_ok (c : cfg) : Prop := CfgOk {
  cfg_search : search_ok (c_bs c);
  cfg_grow : grow_ok (c_grow c);
  cfg_types : types_ok (c_ty c);
}.
