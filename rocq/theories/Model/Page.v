(** Page.v — src/archetype_data_page.rs *)
From Verif.Model Require Export Base Archetype.
Local Open Scope N_scope.

(** One byte of component memory; [None] while uninitialised. *)
Notation cell := (option N) (only parsing).
(** Contents of a block of PAGE_SIZE_BYTES bytes, by offset; offsets >= PAGE are never accessed. *)
Notation mem := (N → option N) (only parsing).

(** The bytes [off, off+len): reads of archetype_data_page.rs:80-130 and through references *)
Definition mread (m : mem) (off len : N) : list cell :=
  (λ k, m (off + N.of_nat k)) <$> seq 0 (N.to_nat len).
(** Overwrite the bytes from [off]: writes of archetype_data_page.rs:80-130 and through references *)
Definition mwrite (m : mem) (off : N) (bytes : list cell) : mem := λ x,
  if (off <=? x) && (x <? off + N.of_nat (length bytes))
  then match bytes !! N.to_nat (x - off) with Some b => b | None => m x end
  else m x.

(** archetype_data_page.rs:6-9; the Vec of ids has an explicit capacity, because the code uses it *)
Record page := Page {
  pg_ids : list N;    (* entities_ids *)
  pg_vcap : N;        (* entities_ids.capacity() *)
  pg_mem : mem;       (* the block behind components_data_ptr *)
}.

(** archetype_data_page.rs:18-25 new *)
Definition page_new : page := Page [] 0 (λ _, None).

(** archetype_data_page.rs:33-35 entity_count, 38-40 entity_capacity, 48-50 has_free_space *)
Definition page_count (p : page) : nat := length (pg_ids p).
Definition has_free_space (p : page) : bool := N.of_nat (page_count p) <? pg_vcap p.

(** archetype_data_page.rs:27-30 set_layout: Vec::reserve(additional) grows unless [additional] more elements fit. *)
Definition page_set_layout (c : cfg) (p : page) (ly : layout) : page :=
  let len := N.of_nat (page_count p) in
  if pg_vcap p - len <? ly_cap ly
  then Page (pg_ids p) (c_grow c (pg_vcap p) (len + ly_cap ly)) (pg_mem p)
  else p.

(** archetype_data_page.rs:52-56 add_entity_id, with Vec::push *)
Definition page_add (c : cfg) (p : page) (id : N) : pres (page * nat) :=
  _ ← dassertP (c_mode c) (POk (has_free_space p));
  let vcap := if has_free_space p then pg_vcap p
              else c_grow c (pg_vcap p) (N.of_nat (page_count p) + 1) in
  mret (Page (pg_ids p ++ [id]) vcap (pg_mem p), page_count p).

(** archetype_data_page.rs:132-155 get_component_data_ptr(_mut): the offset from the page start *)
Definition data_off (entity_index : nat) (offset size : N) : N := offset + N.of_nat entity_index * size.
(** [len] bytes at [off] are inside the page *)
Definition in_page (off len : N) : bool := off + len <=? PAGE.

(** [src.copy_to_nonoverlapping(dst, len)] inside one page *)
Definition copy_same (m : mem) (src dst len : N) : pres mem :=
  if in_page src len && in_page dst len then
    if (src + len <=? dst) || (dst + len <=? src) then POk (mwrite m dst (mread m src len))
    else PUB OverlappingCopy
  else PUB OutOfBounds.
(** archetype_data_page.rs:101-130: [src.copy_to_nonoverlapping(dst, len)] between two different pages *)
Definition copy_across (ms md : mem) (src dst len : N) : pres mem :=
  if in_page src len && in_page dst len then POk (mwrite md dst (mread ms src len)) else PUB OutOfBounds.

(** archetype_data_page.rs:80-98 move_component_data; archetype and offsets are traversed together *)
Fixpoint move_component_data (m : mem) (src dst : nat) (a : archetype) (offs : list N) : pres mem :=
  match a, offs with
  | [], _ => POk m
  | x :: a', o :: offs' =>
    m' ← copy_same m (data_off src o (ct_size x)) (data_off dst o (ct_size x)) (ct_size x);
    move_component_data m' src dst a' offs'
  | _ :: _, [] => PUB OutOfBounds
  end.

(** archetype_data_page.rs:58-77 swap_remove_entity_at_index: the id to re-index, if any.
    The ids are changed before the data is moved; a panic is only possible before any change. *)
Definition page_swap_remove (p : page) (index : nat) (a : archetype) (ly : layout) : pres (page * option N) :=
  ids ← vswap_remove (pg_ids p) index;
  let last_index := length ids in
  if Nat.ltb index last_index then
    m ← move_component_data (pg_mem p) last_index index a (ly_offs ly);
    id ← vidx ids index;
    mret (Page ids (pg_vcap p) m, Some id)
  else mret (Page ids (pg_vcap p) (pg_mem p), None).

(** archetype_data_page.rs:101-130: copy [len] bytes from offset [so] of page [sp] to offset [do] of page [dp] (possibly the same page). *)
Definition pages_copy (pages : list page) (sp dp : nat) (so d_o len : N) : pres (list page) :=
  match pages !! sp, pages !! dp with
  | Some ps, Some pd =>
    m ← (if Nat.eqb sp dp then copy_same (pg_mem ps) so d_o len
         else copy_across (pg_mem ps) (pg_mem pd) so d_o len);
    mret (<[dp := Page (pg_ids pd) (pg_vcap pd) m]> pages)
  | _, _ => PPanic
  end.

(** archetype_data_page.rs:113-128: the loop over the pairs of common component positions *)
Fixpoint copy_common (pages : list page) (sp dp : nat) (si di : nat) (sa da : archetype) (sl dl : layout)
    (pairs : list (nat * nat)) : pres (list page) :=
  match pairs with
  | [] => POk pages
  | (x, y) :: r =>
    match ly_offs sl !! x, sa !! x, ly_offs dl !! y, da !! y with
    | Some src_offset, Some cs, Some dst_offset, Some cd =>
      pages' ← pages_copy pages sp dp (data_off si src_offset (ct_size cs))
                          (data_off di dst_offset (ct_size cd)) (ct_size cd);
      copy_common pages' sp dp si di sa da sl dl r
    | _, _, _, _ => PUB OutOfBounds
    end
  end.
(** archetype_data_page.rs:101-129 copy_component_data_to_page_with_new_archetype *)
Definition copy_component_data (pages : list page) (sp dp : nat) (si di : nat)
    (sa da : archetype) (sl dl : layout) : pres (list page) :=
  let '(ls, rs) := arch_union sa da in
  copy_common pages sp dp si di sa da sl dl (zip ls rs).
