(** Archetypes.v — archetypes as sets of component types. *)
From Verif.Model Require Export Archetype.
Local Open Scope N_scope.

(** Calls on an ArchetypeBuilder. *)
Inductive bcall :=
| BInclude (xs : list ctype)       (* include_component_types, include_components::<T>() *)
| BIncludeArch (a : archetype)     (* include_archetype *)
| BExclude (xs : list ctype)       (* exclude_component_types, exclude_components::<T>() *)
| BBuild.                          (* build, the builder being used further *)

Definition bcall_step (b : builder) (x : bcall) : builder :=
  match x with
  | BInclude xs | BIncludeArch xs => bld_include b xs
  | BExclude xs => bld_exclude b xs
  | BBuild => match bld_build b with ROk b' _ | RPanic b' => b' | RUB _ => b end
  end.
Definition bcalls (xs : list bcall) : builder := foldl bcall_step bld_new xs.

(** The set of types after the calls. *)
Definition tset_step (S : gset tid) (x : bcall) : gset tid :=
  match x with
  | BInclude xs | BIncludeArch xs => S ∪ list_to_set (ct_id <$> xs)
  | BExclude xs => S ∖ list_to_set (ct_id <$> xs)
  | BBuild => S
  end.
Definition tset (xs : list bcall) : gset tid := foldl tset_step ∅ xs.

(** Archetypes made through the public API: from a tuple of distinct types, or by a builder. *)
Definition built (a : archetype) : Prop :=
  (∃ c T, NoDup T ∧ with_components c T = POk a) ∨ (∃ xs b, bld_build (bcalls xs) = ROk b a).

(** Sizes and alignments as Rust has them. *)
Definition rust_type (x : ctype) : Prop := 0 < ct_align x ∧ (ct_align x | ct_size x).

(** Byte [b] of a page belongs to component number [i] of row [k]. *)
Definition owns (a : archetype) (ly : layout) (i : nat) (k : N) (b : N) : Prop :=
  ∃ x o, a !! i = Some x ∧ ly_offs ly !! i = Some o ∧ k < ly_cap ly ∧
    o + ct_size x * k ≤ b < o + ct_size x * k + ct_size x.

(** One row of [a], each component padded to its alignment, ends at this offset. *)
Fixpoint row_end (a : archetype) (o : N) : N :=
  match a with
  | [] => o
  | x :: r => row_end r ((o + (ct_align x - 1)) / ct_align x * ct_align x + ct_size x)
  end.

(** The component type was passed to an include call. *)
Definition included (xs : list bcall) (y : ctype) : Prop :=
  ∃ ys, (BInclude ys ∈ xs ∨ BIncludeArch ys ∈ xs) ∧ y ∈ ys.

(** The largest alignment, and the equal share of a page every component gets. *)
Definition amax (a : archetype) : N := foldr N.max 0 (ct_align <$> a).
Definition slice (a : archetype) : N := PAGE / N.of_nat (length a) - amax a mod PTR_SIZE.
(** The largest alignment, as far as it is taken into account, can be taken from every share. *)
Definition budgeted (a : archetype) : Prop := amax a mod PTR_SIZE * N.of_nat (length a) ≤ PAGE.
(** Components holding [k] values each, one after the other. *)
Definition stacked (k : N) (a : archetype) : archetype := (λ x, CType (ct_id x) (ct_size x * k) (ct_align x)) <$> a.
(** [k] is the largest number of rows such that no component needs more than its share. *)
Definition shares (k : N) (a : archetype) : Prop :=
  (∀ x, x ∈ a → ct_size x * k ≤ slice a) ∧ ∃ x, x ∈ a ∧ slice a < ct_size x * (k + 1).
