(** Base.v — outcomes, raw memory arrays and environment parameters shared by all model files. *)
From stdpp Require Export prelude list numbers gmap sets sorting.
Local Open Scope N_scope.

(** ** Outcomes. This part has no text of its own in /repo: it says what a call can end in, and how calls follow each other. *)

(** Build profile: cargo's dev profile keeps [debug_assert!] and overflow checks, the release profile drops both. *)
Inductive mode := Debug | Release.
Global Instance mode_eq_dec : EqDecision mode.
Proof. solve_decision. Defined.

(** Kinds of undefined behaviour the model can exhibit: the contracts of the unsafe operations used, e.g. entities_container.rs:86-96,
    resource_store.rs:41-43, archetypes_container.rs:133-137, archetype_data_page.rs:92-97. *)
Inductive ub :=
| OutOfBounds      (* raw pointer access outside its allocation *)
| Uninitialised    (* typed read of memory that was never written *)
| UnwrapNone       (* unwrap_unchecked / get_unchecked on a missing value *)
| OverlappingCopy  (* copy_to_nonoverlapping with overlapping ranges *).

(** Outcome of a [&mut self] call: returned with a value, panicked (leaving the state it had then), or undefined. *)
Inductive res (S A : Type) : Type :=
| ROk (s : S) (a : A)
| RPanic (s : S)
| RUB (why : ub).
Global Arguments ROk {S A} s a.
Global Arguments RPanic {S A} s.
Global Arguments RUB {S A} why.

(** Outcome of a [&self] call (the state is not changed). *)
Inductive pres (A : Type) : Type :=
| POk (a : A)
| PPanic
| PUB (why : ub).
Global Arguments POk {A} a.
Global Arguments PPanic {A}.
Global Arguments PUB {A} why.

(** Returning a value, and going on with it: panics and undefined behaviour end the computation. *)
Global Instance pres_ret : MRet pres := λ A a, POk a.
Global Instance pres_bind : MBind pres := λ A B k m,
  match m with POk a => k a | PPanic => PPanic | PUB w => PUB w end.

(** Computations on a state, which a panic leaves as it was when it happened. *)
Definition M (S A : Type) : Type := S → res S A.
Global Instance M_ret S : MRet (M S) := λ A a s, ROk s a.
Global Instance M_bind S : MBind (M S) := λ A B k m s,
  match m s with
  | ROk s' a => k a s'
  | RPanic s' => RPanic s'
  | RUB w => RUB w
  end.

(** Read the whole state / replace it / panic / run a read-only computation on it. *)
Definition getS {S} : M S S := λ s, ROk s s.
Definition putS {S} (s' : S) : M S unit := λ _, ROk s' tt.
Definition modS {S} (f : S → S) : M S unit := λ s, ROk (f s) tt.
Definition panic {S A} : M S A := λ s, RPanic s.
Definition lift {S A} (p : pres A) : M S A := λ s,
  match p with POk a => ROk s a | PPanic => RPanic s | PUB w => RUB w end.

(** Run a computation of a field inside the enclosing structure. *)
Definition zoom {S T A} (get : S → T) (put : T → S → S) (m : M T A) : M S A := λ s,
  match m (get s) with
  | ROk t a => ROk (put t s) a
  | RPanic t => RPanic (put t s)
  | RUB w => RUB w
  end.

(** [assert!] (archetype.rs:30, archetype_layout.rs:77) and [debug_assert!] (entities_container.rs:108, 154, 161,
    order_group_container.rs:133, 138, store.rs:30, resource_store.rs:48, 60, 72, archetype_data_page.rs:53); the latter's condition is not evaluated in release builds. *)
Definition assertP (b : bool) : pres unit := if b then POk tt else PPanic.
Definition dassertP (md : mode) (cond : pres bool) : pres unit :=
  match md with
  | Debug => b ← cond; assertP b
  | Release => POk tt
  end.

(** ** Machine integers *)
(** 2^32, and 2^64 for a 64 bit target *)
Definition u32_size : N := 4294967296.
Definition usize_size : N := 18446744073709551616.

(** [a + b] on u32 (entities_container.rs:78, 93): overflow panics in debug builds and wraps in release builds. *)
Definition u32_add (md : mode) (a b : N) : pres N :=
  if a + b <? u32_size then POk (a + b)
  else match md with Debug => PPanic | Release => POk ((a + b) mod u32_size) end.
(** [a - b] on u32 (entities_container.rs:113). *)
Definition u32_sub (md : mode) (a b : N) : pres N :=
  if b <=? a then POk (a - b)
  else match md with Debug => PPanic | Release => POk (a + u32_size - b) end.
(** [a - b] on usize (archetype_layout.rs:41-42, order_group_container.rs:166-189). *)
Definition usize_sub (md : mode) (a b : N) : pres N :=
  if b <=? a then POk (a - b)
  else match md with Debug => PPanic | Release => POk (a + usize_size - b) end.
(** [x as u32] (entities_container.rs:68) *)
Definition as_u32 (x : N) : N := x mod u32_size.

(** ** Raw arrays: allocations of [*mut T]; a cell is [None] while uninitialised. *)
Notation arr A := (list (option A)) (only parsing).

(** List lookup by a machine integer, for the accesses below (checks the bound in binary first, so that it computes on large ids). *)
Definition nlookup {A} (l : list A) (i : N) : option A :=
  if i <? N.of_nat (length l) then l !! N.to_nat i else None.

(** [*ptr.add(i)] on the blocks of entities_container.rs:7, order_group_container.rs:7-8, store.rs:19-20, resource_store.rs:6 *)
Definition aget {A} (a : arr A) (i : N) : pres A :=
  match nlookup a i with
  | Some (Some v) => POk v
  | Some None => PUB Uninitialised
  | None => PUB OutOfBounds
  end.
(** [*ptr.add(i) = v] on the same blocks *)
Definition aset {A} (a : arr A) (i : N) (v : A) : pres (arr A) :=
  if i <? N.of_nat (length a) then POk (<[N.to_nat i := Some v]> a) else PUB OutOfBounds.

(** src/mem_utils.rs:17-19 alloc_zeroed; 13-15 alloc (contents uninitialised). Allocation failure is not modelled. *)
Definition alloc_filled {A} (v : A) (n : N) : arr A := replicate (N.to_nat n) (Some v).
Definition alloc_uninit {A} (n : N) : arr A := replicate (N.to_nat n) None.

(** ptr.copy_to_nonoverlapping(new, n) from a block [a] to the start of a block [b]. *)
Definition copy_prefix {A} (a b : list A) (n : N) : pres (list A) :=
  if (n <=? N.of_nat (length a)) && (n <=? N.of_nat (length b))
  then POk (take (N.to_nat n) a ++ drop (N.to_nat n) b) else PUB OutOfBounds.

(** src/mem_utils.rs:21-35 realloc: the added capacity is uninitialised. *)
Definition arealloc {A} (a : arr A) (old new : N) : pres (arr A) :=
  if old =? new then POk a else copy_prefix a (alloc_uninit new) old.
(** src/mem_utils.rs:37-48 realloc_with_uninit_capacity_zeroing. *)
Definition arealloc_filled {A} (v : A) (a : arr A) (old new : N) : pres (arr A) :=
  copy_prefix a (alloc_filled v new) old.

(** [Vec] operations that panic when out of bounds: [v[i]], [v[i] = x], [v.insert(i, x)], [v.remove(i)]
    (archetypes_container.rs:196, 211, 265-266, order_group_container.rs:203-210, tag_container.rs:39-40, archetype_builder.rs:37). *)
Definition vidx {A} (l : list A) (i : nat) : pres A :=
  match l !! i with Some x => POk x | None => PPanic end.
Definition vset {A} (l : list A) (i : nat) (x : A) : pres (list A) :=
  match l !! i with Some _ => POk (<[i := x]> l) | None => PPanic end.
Definition vinsert {A} (l : list A) (i : nat) (x : A) : pres (list A) :=
  if Nat.leb i (length l) then POk (take i l ++ x :: drop i l) else PPanic.
Definition vremove {A} (l : list A) (i : nat) : pres (list A) :=
  match l !! i with Some _ => POk (delete i l) | None => PPanic end.
(** [v.get_unchecked(i)] (archetypes_container.rs:133-137, 152-153, 167, order_group_container.rs:235-304, tag_container.rs:28, 49-69) *)
Definition vget_unchecked {A} (l : list A) (i : nat) : pres A :=
  match l !! i with Some x => POk x | None => PUB UnwrapNone end.
(** [v.pop()] / dropping the last element (archetypes_container.rs:220, 261, entities_container.rs:75). *)
Definition vpop {A} (l : list A) : list A := take (pred (length l)) l.
(** [v.swap_remove(i)] (archetype_data_page.rs:64): panics if out of bounds, otherwise the last element takes the place of the i-th. *)
Definition vswap_remove {A} (l : list A) (i : nat) : pres (list A) :=
  match l !! i, last l with
  | Some _, Some x => POk (vpop (<[i := x]> l))
  | _, _ => PPanic
  end.

(** ** Environment *)

(** Result of [slice::binary_search] (archetype.rs:85-93, tag_container.rs:35, order_group_container.rs:200): [Ok(i)] or [Err(i)]. *)
Inductive bsres := BFound (i : nat) | BMissing (i : nat).

(** src/component_type.rs:3-9; the name (only used for Display) is not modelled. [tid] stands for TypeId with its Ord. *)
Notation tid := N (only parsing).
Record tyinfo := TyInfo { ti_size : N; ti_align : N }.

Record cfg := Cfg {
  c_mode : mode;                       (* build profile *)
  c_ty : tid → tyinfo;                 (* size_of and align_of of the type with this TypeId *)
  c_bs : list N → N → bsres;           (* slice::binary_search on values ordered like N *)
  c_grow : N → N → N;                  (* Vec: old capacity, required capacity -> new capacity *)
}.

(** ** Entities: src/entity.rs:1-27 *)
Record entity := Entity { e_id : N; e_ver : N }.
Definition NULL_ID : N := 4294967295.
Definition entity_null : entity := Entity NULL_ID 0.

Global Instance entity_eq_dec : EqDecision entity.
Proof. solve_decision. Defined.
Global Instance entity_countable : Countable entity.
Proof.
  apply (inj_countable' (λ e, (e_id e, e_ver e)) (λ p, Entity p.1 p.2)).
  by intros [].
Defined.
