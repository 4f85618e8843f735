(** Archetype.v — src/archetype.rs, src/archetype_builder.rs, src/component_type.rs, src/archetype_layout.rs *)
From Verif.Model Require Export Base.
Local Open Scope N_scope.

(** component_type.rs:3-9 ComponentType; the name field is dropped. *)
Record ctype := CType { ct_id : tid; ct_size : N; ct_align : N }.

(** component_type.rs:12-19 ComponentType::of::<T>() *)
Definition ctype_of (c : cfg) (t : tid) : ctype := CType t (ti_size (c_ty c t)) (ti_align (c_ty c t)).

(** archetype.rs:10-16 Archetype: four parallel arrays of length component_count, here one list of records. *)
Notation archetype := (list ctype) (only parsing).

(** archetype.rs:188-190 included_ids *)
Definition arch_ids (a : archetype) : list tid := ct_id <$> a.

(** archetype.rs:28-62 Archetype::new: panics on an empty component list. *)
Definition arch_new (sorted_components : list ctype) : pres archetype :=
  _ ← assertP (negb (bool_decide (sorted_components = [])));
  mret sorted_components.

(** [sort_by_key(|a| a.id())]: stable sort by id, as an insertion sort. *)
Fixpoint insert_ct (x : ctype) (l : list ctype) : list ctype :=
  match l with
  | [] => [x]
  | y :: l' => if ct_id x <=? ct_id y then x :: l else y :: insert_ct x l'
  end.
(** ... of the whole list *)
Definition sort_cts (l : list ctype) : list ctype := foldr insert_ct [] l.

(** component_tuple.rs:251-256 into_archetype / archetype.rs:24-26 with_components::<T>() *)
Definition with_components (c : cfg) (T : list tid) : pres archetype :=
  arch_new (sort_cts (ctype_of c <$> T)).

(** archetype.rs:85-93 find_component_index *)
Definition find_component_index (c : cfg) (a : archetype) (t : tid) : option nat :=
  match c_bs c (arch_ids a) t with BFound i => Some i | BMissing _ => None end.
(** archetype.rs:65-67 has_component *)
Definition has_component (c : cfg) (a : archetype) (t : tid) : bool :=
  bool_decide (is_Some (find_component_index c a t)).

(** archetype.rs:110-120 is_same_as *)
Definition is_same_as (a b : archetype) : bool :=
  if negb (Nat.eqb (length a) (length b)) then false
  else bool_decide (arch_ids a = arch_ids b).

(** the loop of archetype.rs:134-139 and 151-156 *)
Fixpoint all_found (c : cfg) (self_ids : list tid) (ids : list tid) : bool :=
  match ids with
  | [] => true
  | t :: r => match c_bs c self_ids t with BMissing _ => false | BFound _ => all_found c self_ids r end
  end.
(** archetype.rs:127-142 is_include_ids *)
Definition is_include_ids (c : cfg) (a : archetype) (ids : list tid) : bool :=
  if Nat.ltb (length (arch_ids a)) (length ids) then false else all_found c (arch_ids a) ids.
(** archetype.rs:123-125 is_include *)
Definition is_include (c : cfg) (a b : archetype) : bool := is_include_ids c a (arch_ids b).
(** archetype.rs:144-159 is_include_only_ids *)
Definition is_include_only_ids (c : cfg) (a : archetype) (ids : list tid) : bool :=
  if negb (Nat.eqb (length (arch_ids a)) (length ids)) then false else all_found c (arch_ids a) ids.

(** archetype.rs:166-185 is_exclude_ids: [self_ids[left_idx..]] panics when left_idx exceeds the length. *)
Fixpoint exclude_loop (c : cfg) (self_ids : list tid) (left_idx : nat) (ids : list tid) : pres bool :=
  match ids with
  | [] => POk true
  | t :: r =>
    if Nat.ltb (length self_ids) left_idx then PPanic
    else match c_bs c (drop left_idx self_ids) t with
         | BFound _ => POk false
         | BMissing found_idx =>
           if Nat.leb (length self_ids) found_idx then POk true   (* break; return true *)
           else exclude_loop c self_ids found_idx r
         end
  end.
(** archetype.rs:166-170, 184-186: the loop starts at index 0 *)
Definition is_exclude_ids (c : cfg) (a : archetype) (ids : list tid) : pres bool :=
  exclude_loop c (arch_ids a) 0 ids.
(** archetype.rs:162-164 is_exclude *)
Definition is_exclude (c : cfg) (a b : archetype) : pres bool := is_exclude_ids c a (arch_ids b).

(** archetype.rs:280-288 Hash: the sequence of values fed to the hasher. *)
Definition arch_hash_input (a : archetype) : list tid := arch_ids a.

(** archetype.rs:210-224: inner loop of ArchetypesUnion::calculate; yields the inner indices paired with [outer_type_id]. *)
Fixpoint union_inner (inner : list tid) (i : nat) (outer_type_id : tid) : list nat :=
  match inner with
  | [] => []
  | inner_type_id :: r =>
    if outer_type_id <? inner_type_id then []          (* break *)
    else if inner_type_id =? outer_type_id then i :: union_inner r (S i) outer_type_id
    else union_inner r (S i) outer_type_id
  end.
(** archetype.rs:207-227: outer loop; pairs (outer index, inner index). *)
Fixpoint union_outer (outer : list tid) (o : nat) (inner : list tid) : list (nat * nat) :=
  match outer with
  | [] => []
  | outer_type_id :: r =>
    ((λ i, (o, i)) <$> union_inner inner 0 outer_type_id) ++ union_outer r (S o) inner
  end.
(** archetype.rs:194-233 ArchetypesUnion::calculate: (lhs_indices, rhs_indices), of equal length. *)
Definition arch_union (lhs rhs : archetype) : list nat * list nat :=
  if Nat.ltb (length rhs) (length lhs)
  then let ps := union_outer (arch_ids lhs) 0 (arch_ids rhs) in (fst <$> ps, snd <$> ps)
  else let ps := union_outer (arch_ids rhs) 0 (arch_ids lhs) in (snd <$> ps, fst <$> ps).

(** ** ArchetypeBuilder: archetype_builder.rs *)
Notation builder := (list ctype) (only parsing).
(** archetype_builder.rs:10-14 *)
Definition bld_new : builder := [].
(** [component_types.contains(comp)]: equality of ComponentType is equality of ids (component_type.rs:56-60) *)
Definition bld_contains (b : builder) (x : ctype) : bool := existsb (λ y, ct_id y =? ct_id x) b.
(** archetype_builder.rs:24-32 include_component_types, and 44-55 include_archetype (the reserve has no effect) *)
Fixpoint bld_include (b : builder) (xs : list ctype) : builder :=
  match xs with
  | [] => b
  | x :: r => bld_include (if bld_contains b x then b else b ++ [x]) r
  end.
(** [position(|c| c == comp)] *)
Fixpoint bld_position (b : builder) (x : ctype) : option nat :=
  match b with
  | [] => None
  | y :: r => if ct_id y =? ct_id x then Some 0%nat else S <$> bld_position r x
  end.
(** archetype_builder.rs:34-42 exclude_component_types *)
Fixpoint bld_exclude (b : builder) (xs : list ctype) : builder :=
  match xs with
  | [] => b
  | x :: r => bld_exclude (match bld_position b x with Some i => delete i b | None => b end) r
  end.
(** archetype_builder.rs:57-61 build: sorts the builder in place, so the builder state is returned as well. *)
Definition bld_build : M builder archetype :=
  _ ← modS sort_cts;
  b ← getS;
  lift (arch_new b).

(** ** ArchetypeLayout: archetype_layout.rs *)
Record layout := Layout { ly_offs : list N; ly_cap : N }.

(** archetype_data_page.rs:16 PAGE_SIZE_BYTES *)
Definition PAGE : N := 16384.
(** archetype_layout.rs:35 size_of::<usize>() on a 64 bit target *)
Definition PTR_SIZE : N := 8.

(** [iter().max().unwrap()] / [iter().min().unwrap()]: panic on an empty iterator *)
Definition list_max1 (l : list N) : pres N :=
  match l with [] => PPanic | x :: r => POk (foldr N.max x r) end.
Definition list_min1 (l : list N) : pres N :=
  match l with [] => PPanic | x :: r => POk (foldr N.min x r) end.
(** archetype_layout.rs:41-42, 47: [a / b] panics when b = 0; 44-49: one division for each size *)
Definition div_checked (a b : N) : pres N := if b =? 0 then PPanic else POk (a / b).
Fixpoint div_all (row : N) (sizes : list N) : pres (list N) :=
  match sizes with
  | [] => POk []
  | s :: r => q ← div_checked row s; qs ← div_all row r; mret (q :: qs)
  end.

(** archetype_layout.rs:30-52 calculate_entities_capacity *)
Definition calc_capacity (md : mode) (a : archetype) : pres N :=
  max_align ← list_max1 (ct_align <$> a);
  let max_align := max_align mod PTR_SIZE in
  row ← div_checked PAGE (N.of_nat (length a));
  row ← usize_sub md row max_align;
  caps ← div_all row (ct_size <$> a);
  list_min1 caps.

(** archetype_layout.rs:65-70: padding to the alignment *)
Definition align_up (offset align : N) : N :=
  let align_offset := offset mod align in
  if align_offset =? 0 then offset else offset + (align - align_offset).
(** archetype_layout.rs:63-75: the loop; returns the offsets and the final offset. align is never 0 in Rust. *)
Fixpoint calc_offsets_loop (a : archetype) (cap offset : N) : list N * N :=
  match a with
  | [] => ([], offset)
  | x :: r =>
    let o := align_up offset (ct_align x) in
    let '(os, e) := calc_offsets_loop r cap (o + ct_size x * cap) in
    (o :: os, e)
  end.
(** archetype_layout.rs:54-79 calculate_offsets *)
Definition calc_offsets (a : archetype) (cap : N) : pres (list N) :=
  let '(os, e) := calc_offsets_loop a cap 0 in
  _ ← assertP (e <=? PAGE);
  mret os.
(** archetype_layout.rs:11-28 ArchetypeLayout::new *)
Definition layout_new (md : mode) (a : archetype) : pres layout :=
  cap ← calc_capacity md a;
  offs ← calc_offsets a cap;
  mret (Layout offs cap).
