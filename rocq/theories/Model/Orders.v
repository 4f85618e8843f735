(** Orders.v — src/order_group_container.rs *)
From Verif.Model Require Export Base.
Local Open Scope N_scope.

(** One group: order_group_container.rs:14-19 OrderGroupInfoMut, the parts of the container belonging to one group. *)
Record grp := Grp {
  g_head : N;
  g_tail : N;
  g_fwd : arr N;
  g_bwd : arr N;
}.
(** Assignments to the fields. *)
Definition g_set_head v g := Grp v (g_tail g) (g_fwd g) (g_bwd g).
Definition g_set_tail v g := Grp (g_head g) v (g_fwd g) (g_bwd g).
Definition g_set_fwd v g := Grp (g_head g) (g_tail g) v (g_bwd g).
Definition g_set_bwd v g := Grp (g_head g) (g_tail g) (g_fwd g) v.

(** [*forward_links.add(i) = v] and [*backward_links.add(i) = v]: order_group_container.rs:36-130, 308-340 *)
Definition fwd_set (i v : N) : M grp unit :=
  g ← getS; a ← lift (aset (g_fwd g) i v); modS (g_set_fwd a).
Definition bwd_set (i v : N) : M grp unit :=
  g ← getS; a ← lift (aset (g_bwd g) i v); modS (g_set_bwd a).
(** [*forward_links.add(i)] and [*backward_links.add(i)]: the same functions *)
Definition fwd_get (i : N) : M grp N := g ← getS; lift (aget (g_fwd g) i).
Definition bwd_get (i : N) : M grp N := g ← getS; lift (aget (g_bwd g) i).

(** order_group_container.rs:132-142 assert_entity_has_no_order *)
Definition assert_no_order (md : mode) (fwd bwd : N) : M grp unit :=
  _ ← lift (dassertP md (POk (fwd =? NULL_ID)));
  lift (dassertP md (POk (bwd =? NULL_ID))).

(** order_group_container.rs:36-62 add_id_ordered_by, after reserve_group *)
Definition grp_add (md : mode) (id : N) : M grp unit :=
  g ← getS;
  if g_head g =? NULL_ID then
    _ ← modS (g_set_head id);
    modS (g_set_tail id)
  else
    f ← fwd_get id;
    b ← bwd_get id;
    _ ← assert_no_order md f b;
    _ ← fwd_set (g_tail g) id;
    _ ← bwd_set id (g_tail g);
    modS (g_set_tail id).

(** order_group_container.rs:65-94 add_id_next_to_ordered_by. The overlapping [&mut] references are read and written in
    program order, every dereference reading the current contents. *)
Definition grp_add_next (md : mode) (id next_to : N) : M grp unit :=
  f ← fwd_get id;
  b ← bwd_get id;
  _ ← assert_no_order md f b;
  fa ← fwd_get next_to;
  _ ← (if fa =? NULL_ID then mret tt
       else
         _ ← bwd_set fa id;
         fa' ← fwd_get next_to;
         fwd_set id fa');
  _ ← fwd_set next_to id;
  _ ← bwd_set id next_to;
  g ← getS;
  if g_tail g =? next_to then modS (g_set_tail id) else mret tt.

(** order_group_container.rs:97-130 add_id_previous_to_ordered_by *)
Definition grp_add_prev (md : mode) (id previous_to : N) : M grp unit :=
  f ← fwd_get id;
  b ← bwd_get id;
  _ ← assert_no_order md f b;
  bp ← bwd_get previous_to;
  _ ← (if bp =? NULL_ID then mret tt
       else
         _ ← fwd_set bp id;
         bp' ← bwd_get previous_to;
         bwd_set id bp');
  _ ← bwd_set previous_to id;
  _ ← fwd_set id previous_to;
  g ← getS;
  if g_head g =? previous_to then modS (g_set_head id) else mret tt.

(** order_group_container.rs:308-339 remove_entity_order_by_internal *)
Definition grp_remove (id : N) : M grp unit :=
  f ← fwd_get id;
  b ← bwd_get id;
  _ ← (if f =? NULL_ID then mret tt else bwd_set f b);
  b ← bwd_get id;
  _ ← (if b =? NULL_ID then mret tt else f ← fwd_get id; fwd_set b f);
  g ← getS;
  _ ← (if g_head g =? id then f ← fwd_get id; modS (g_set_head f) else mret tt);
  g ← getS;
  _ ← (if g_tail g =? id then b ← bwd_get id; modS (g_set_tail b) else mret tt);
  _ ← bwd_set id NULL_ID;
  fwd_set id NULL_ID.

(** order_group_container.rs:5-12 *)
Record orders := Orders {
  og_ids : list tid;          (* group_ids: sorted *)
  og_fwd : list (arr N);      (* group_index_to_forward_links *)
  og_bwd : list (arr N);      (* group_index_to_backward_links *)
  og_head : list N;
  og_tail : list N;
  og_cap : N;                 (* entity_capacity *)
}.

(** order_group_container.rs:24-33 new *)
Definition orders_new (capacity : N) : orders := Orders [] [] [] [] [] capacity.

(** order_group_container.rs:218-224 alloc_links_map: all bytes 0xff, so every link is NULL_ID *)
Definition alloc_links (capacity : N) : arr N := alloc_filled NULL_ID capacity.

(** order_group_container.rs:198-215 reserve_group *)
Definition reserve_group (c : cfg) (t : tid) : M orders nat :=
  s ← getS;
  match c_bs c (og_ids s) t with
  | BFound i => mret i
  | BMissing i =>
    ids ← lift (vinsert (og_ids s) i t);
    _ ← putS (Orders ids (og_fwd s) (og_bwd s) (og_head s) (og_tail s) (og_cap s));
    fwd ← lift (vinsert (og_fwd s) i (alloc_links (og_cap s)));
    bwd ← lift (vinsert (og_bwd s) i (alloc_links (og_cap s)));
    hd ← lift (vinsert (og_head s) i NULL_ID);
    tl ← lift (vinsert (og_tail s) i NULL_ID);
    _ ← putS (Orders ids fwd bwd hd tl (og_cap s));
    mret i
  end.

(** order_group_container.rs:292-306 get_order_group_info_unchecked_mut *)
Definition grp_at (s : orders) (i : nat) : option grp :=
  h ← og_head s !! i; t ← og_tail s !! i; b ← og_bwd s !! i; f ← og_fwd s !! i;
  Some (Grp h t f b).
(** writing back through the references of OrderGroupInfoMut *)
Definition grp_put (i : nat) (g : grp) (s : orders) : orders :=
  Orders (og_ids s) (<[i := g_fwd g]> (og_fwd s)) (<[i := g_bwd g]> (og_bwd s))
         (<[i := g_head g]> (og_head s)) (<[i := g_tail g]> (og_tail s)) (og_cap s).
Definition with_grp {A} (i : nat) (m : M grp A) : M orders A := λ s,
  match grp_at s i with
  | None => RUB UnwrapNone
  | Some g => zoom (λ _, g) (grp_put i) m s
  end.

(** order_group_container.rs:36-62, 65-94, 97-130 including reserve_group *)
Definition orders_add (c : cfg) (t : tid) (id : N) : M orders unit :=
  i ← reserve_group c t; with_grp i (grp_add (c_mode c) id).
Definition orders_add_next (c : cfg) (t : tid) (id next_to : N) : M orders unit :=
  i ← reserve_group c t; with_grp i (grp_add_next (c_mode c) id next_to).
Definition orders_add_prev (c : cfg) (t : tid) (id previous_to : N) : M orders unit :=
  i ← reserve_group c t; with_grp i (grp_add_prev (c_mode c) id previous_to).

(** order_group_container.rs:272-279 get_group_index *)
Definition get_group_index (c : cfg) (s : orders) (t : tid) : option nat :=
  match c_bs c (og_ids s) t with BFound i => Some i | BMissing _ => None end.

(** order_group_container.rs:145-154 remove_id_ordered_by *)
Definition orders_remove (c : cfg) (t : tid) (id : N) : M orders unit :=
  s ← getS;
  match get_group_index c s t with
  | Some i => with_grp i (grp_remove id)
  | None => mret tt
  end.

(** order_group_container.rs:191-195 remove_all_orders_for_id *)
Fixpoint orders_remove_loop (is : list nat) (id : N) : M orders unit :=
  match is with
  | [] => mret tt
  | i :: r => _ ← with_grp i (grp_remove id); orders_remove_loop r id
  end.
Definition orders_remove_all (id : N) : M orders unit :=
  s ← getS; orders_remove_loop (seq 0 (length (og_ids s))) id.

(** order_group_container.rs:174-184: realloc and write_bytes(0xff) on the added part *)
Definition links_grow (a : arr N) (old new : N) : pres (arr N) :=
  a' ← arealloc a old new;
  mret (take (N.to_nat old) a' ++ replicate (length a' - N.to_nat old) (Some NULL_ID)).
Fixpoint links_grow_all (l : list (arr N)) (old new : N) : pres (list (arr N)) :=
  match l with
  | [] => POk []
  | a :: r => a' ← links_grow a old new; r' ← links_grow_all r old new; mret (a' :: r')
  end.
(** order_group_container.rs:166-189 grow. The interleaving of the two vectors in the zip loop does not matter and is dropped. *)
Definition orders_grow (md : mode) (new_capacity : N) : M orders unit :=
  s ← getS;
  _ ← lift (usize_sub md new_capacity (og_cap s));
  bwd ← lift (links_grow_all (og_bwd s) (og_cap s) new_capacity);
  fwd ← lift (links_grow_all (og_fwd s) (og_cap s) new_capacity);
  putS (Orders (og_ids s) fwd bwd (og_head s) (og_tail s) new_capacity).

(** order_group_container.rs:227-245 get_link *)
Definition get_link (c : cfg) (s : orders) (links : list (arr N)) (t : tid) (id : N) : pres (option N) :=
  match c_bs c (og_ids s) t with
  | BFound i =>
    a ← vget_unchecked links i;
    target ← aget a id;
    mret (if target =? NULL_ID then None else Some target)
  | BMissing _ => POk None
  end.
(** order_group_container.rs:157-159, 162-164 *)
Definition get_next_id (c : cfg) (s : orders) (t : tid) (id : N) : pres (option N) := get_link c s (og_fwd s) t id.
Definition get_previous_id (c : cfg) (s : orders) (t : tid) (id : N) : pres (option N) := get_link c s (og_bwd s) t id.

(** order_group_container.rs:248-257 get_head_id, 260-269 get_tail_id *)
Definition get_end_id (c : cfg) (s : orders) (ends : list N) (t : tid) : pres (option N) :=
  match get_group_index c s t with
  | Some i => h ← vget_unchecked ends i; mret (if h =? NULL_ID then None else Some h)
  | None => POk None
  end.
Definition get_head_id (c : cfg) (s : orders) (t : tid) : pres (option N) := get_end_id c s (og_head s) t.
Definition get_tail_id (c : cfg) (s : orders) (t : tid) : pres (option N) := get_end_id c s (og_tail s) t.
