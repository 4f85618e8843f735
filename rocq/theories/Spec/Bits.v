(** Bits.v — arrays of booleans, the specification of packed bit vectors. *)
From Verif.Model Require Export BitVec.
Local Open Scope N_scope.

(** Calls on a bit vector. *)
Inductive bop := BOn (i : N) | BOff (i : N) | BToggle (i : N) | BGrow (new_len : N).

(** What they do to the packed vector (with its current length in bits) ... *)
Definition bit_step (o : bop) (v : bitvec * N) : pres (bitvec * N) :=
  match o with
  | BOn i => w ← bv_on v.1 i; mret (w, v.2)
  | BOff i => w ← bv_off v.1 i; mret (w, v.2)
  | BToggle i => w ← bv_toggle v.1 i; mret (w, v.2)
  | BGrow n => w ← bv_realloc v.1 v.2 n; mret (w, n)
  end.
Fixpoint bit_steps (os : list bop) (v : bitvec * N) : pres (bitvec * N) :=
  match os with
  | [] => mret v
  | o :: r => w ← bit_step o v; bit_steps r w
  end.

(** ... and to an array of booleans. *)
Definition bspec (o : bop) (f : N → bool) : N → bool := λ j,
  match o with
  | BOn i => if j =? i then true else f j
  | BOff i => if j =? i then false else f j
  | BToggle i => if j =? i then negb (f j) else f j
  | BGrow _ => f j
  end.

(** Indices are below the current length, which only grows. *)
Fixpoint bops_ok (n : N) (os : list bop) : Prop :=
  match os with
  | [] => True
  | (BOn i | BOff i | BToggle i) :: r => i < n ∧ bops_ok n r
  | BGrow m :: r => n ≤ m ∧ bops_ok m r
  end.
