(** Tuple.v — src/component_tuple.rs (for tuples of any length >= 1; the macro covers 1..12) and
    src/archetype_data_page_view.rs. A tuple type is the list of its TypeIds. *)
From Verif.Model Require Export Base Archetype Page ArchContainer.
Local Open Scope N_scope.

(** component_tuple.rs:8-13 PtrTuple, MutPtrTuple. Raw pointer to a component column: page index, byte offset from the page start, size of the pointee. *)
Record ptr := Ptr { p_page : nat; p_off : N; p_size : N }.
(** component_tuple.rs:8-13 RefTuple, MutRefTuple. A reference to one component: like a pointer, checked to be inside its page when created. *)
Record cref := Ref { r_page : nat; r_off : N; r_len : N }.

(** component_tuple.rs:86-99 get_offsets_unchecked *)
Fixpoint get_offsets_unchecked (c : cfg) (T : list tid) (a : archetype) (ly : layout) : pres (list N) :=
  match T with
  | [] => POk []
  | t :: r =>
    match find_component_index c a t with
    | None => PUB UnwrapNone
    | Some i =>
      match ly_offs ly !! i with
      | None => PUB OutOfBounds
      | Some o => os ← get_offsets_unchecked c r a ly; mret (o :: os)
      end
    end
  end.
(** component_tuple.rs:102-114 get_offsets *)
Fixpoint get_offsets (c : cfg) (T : list tid) (a : archetype) (ly : layout) : pres (option (list N)) :=
  match T with
  | [] => POk (Some [])
  | t :: r =>
    match find_component_index c a t with
    | None => POk None
    | Some i =>
      match ly_offs ly !! i with
      | None => PUB OutOfBounds
      | Some o => os ← get_offsets c r a ly; POk (match os with Some l => Some (o :: l) | None => None end)
      end
    end
  end.

(** component_tuple.rs:153-180 get_ptrs, get_ptrs_mut (entity index 0) *)
Definition get_ptrs (c : cfg) (pi : nat) (T : list tid) (offs : list N) : list ptr :=
  zip_with (λ t o, Ptr pi (data_off 0 o (ti_size (c_ty c t))) (ti_size (c_ty c t))) T offs.
(** component_tuple.rs:183-205 add_to_ptrs(_mut) *)
Definition add_to_ptrs (ps : list ptr) (k : nat) : list ptr :=
  (λ p, Ptr (p_page p) (p_off p + N.of_nat k * p_size p) (p_size p)) <$> ps.
(** component_tuple.rs:218-237 ptrs_to_refs(_mut): a reference outside its allocation is undefined behaviour *)
Definition ptr_to_ref (p : ptr) : pres cref :=
  if in_page (p_off p) (p_size p) then POk (Ref (p_page p) (p_off p) (p_size p)) else PUB OutOfBounds.
Fixpoint ptrs_to_refs (ps : list ptr) : pres (list cref) :=
  match ps with
  | [] => POk []
  | p :: r => x ← ptr_to_ref p; xs ← ptrs_to_refs r; mret (x :: xs)
  end.
(** component_tuple.rs:117-150 get_refs, get_refs_mut *)
Definition get_refs (c : cfg) (pi idx : nat) (T : list tid) (offs : list N) : pres (list cref) :=
  ptrs_to_refs (add_to_ptrs (get_ptrs c pi T offs) idx).

(** archetype_data_page_view.rs:11-25 get_components_refs, get_components_refs_mut *)
Definition view_refs (c : cfg) (v : view) (idx : nat) (T : list tid) : pres (option (list cref)) :=
  o ← get_offsets c T (v_arch v) (v_layout v);
  match o with
  | None => mret None
  | Some offs => rs ← get_refs c (v_page v) idx T offs; mret (Some rs)
  end.
(** archetype_data_page_view.rs:27-36 get_components_refs_mut_unchecked *)
Definition view_refs_unchecked (c : cfg) (v : view) (idx : nat) (T : list tid) : pres (list cref) :=
  offs ← get_offsets_unchecked c T (v_arch v) (v_layout v);
  get_refs c (v_page v) idx T offs.

(** Dereferencing. A read yields the cells; whether they are initialised is up to the reader. *)
Definition read_ref (pages : list page) (r : cref) : list cell :=
  match pages !! r_page r with
  | Some p => mread (pg_mem p) (r_off r) (r_len r)
  | None => []
  end.
(** component_tuple.rs:240-249 [*r = v]: the bytes of a value of the pointee's type *)
Definition write_ref (pages : list page) (r : cref) (v : list N) : list page :=
  match pages !! r_page r with
  | Some p => <[r_page r := Page (pg_ids p) (pg_vcap p) (mwrite (pg_mem p) (r_off r) (Some <$> v))]> pages
  | None => pages
  end.
(** component_tuple.rs:240-249 assign_to_refs *)
Fixpoint assign_to_refs (pages : list page) (rs : list cref) (vs : list (list N)) : list page :=
  match rs, vs with
  | r :: rs', v :: vs' => assign_to_refs (write_ref pages r v) rs' vs'
  | _, _ => pages
  end.
