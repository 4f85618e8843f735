(** Store.v — src/store.rs and the [impl Store] blocks of tag_container.rs and order_group_container.rs *)
From Verif.Model Require Export Base BitVec Archetype Entities Tags Orders Page ArchContainer Tuple.
Local Open Scope N_scope.

(** store.rs:13-22 *)
Record store := Store {
  st_ec : ec;
  st_ac : ac;
  st_tags : tags;
  st_orders : orders;
  st_page : arr nat;      (* entity_to_page *)
  st_idx : arr nat;       (* entity_to_index_in_page *)
  st_has : bitvec;        (* entity_has_archetype_bit_vec *)
}.
(** Assignments to the fields, and calls on them (store.rs:14-21). *)
Definition st_set_ec v s := Store v (st_ac s) (st_tags s) (st_orders s) (st_page s) (st_idx s) (st_has s).
Definition st_set_ac v s := Store (st_ec s) v (st_tags s) (st_orders s) (st_page s) (st_idx s) (st_has s).
Definition st_set_tags v s := Store (st_ec s) (st_ac s) v (st_orders s) (st_page s) (st_idx s) (st_has s).
Definition st_set_orders v s := Store (st_ec s) (st_ac s) (st_tags s) v (st_page s) (st_idx s) (st_has s).
Definition st_set_page v s := Store (st_ec s) (st_ac s) (st_tags s) (st_orders s) v (st_idx s) (st_has s).
Definition st_set_idx v s := Store (st_ec s) (st_ac s) (st_tags s) (st_orders s) (st_page s) v (st_has s).
Definition st_set_has v s := Store (st_ec s) (st_ac s) (st_tags s) (st_orders s) (st_page s) (st_idx s) v.
Definition on_ec {A} (m : M ec A) : M store A := zoom st_ec st_set_ec m.
Definition on_ac {A} (m : M ac A) : M store A := zoom st_ac st_set_ac m.
Definition on_tags {A} (m : M tags A) : M store A := zoom st_tags st_set_tags m.
Definition on_orders {A} (m : M orders A) : M store A := zoom st_orders st_set_orders m.

(** store.rs:29-42 with_capacity *)
Definition store_with_capacity (md : mode) (capacity : N) : pres store :=
  _ ← dassertP md (POk (0 <? capacity));
  mret (Store (ec_new capacity) ac_new (tags_new capacity) (orders_new capacity)
              (alloc_filled 0%nat capacity) (alloc_filled 0%nat capacity) (bv_alloc capacity)).
(** store.rs:11, 25-27 new *)
Definition store_new (md : mode) : pres store := store_with_capacity md 10.

(** store.rs:49-51 entities_capacity *)
Definition entities_capacity (s : store) : N := ec_cap (st_ec s).

(** store.rs:334-371: the unchecked accessors *)
Definition get_page_index (s : store) (id : N) : pres nat := aget (st_page s) id.
Definition get_index_in_page (s : store) (id : N) : pres nat := aget (st_idx s) id.
Definition has_archetype (s : store) (id : N) : pres bool := bv_get (st_has s) id.
Definition get_eia (s : store) (id : N) : pres eia :=     (* store.rs:323-331 *)
  p ← get_page_index s id; i ← get_index_in_page s id; mret (Eia p i).
Definition set_page_index (id : N) (p : nat) : M store unit :=
  s ← getS; a ← lift (aset (st_page s) id p); modS (st_set_page a).
Definition set_index_in_page (id : N) (i : nat) : M store unit :=
  s ← getS; a ← lift (aset (st_idx s) id i); modS (st_set_idx a).
Definition enable_archetype (id : N) : M store unit :=
  s ← getS; v ← lift (bv_on (st_has s) id); modS (st_set_has v).
Definition disable_archetype (id : N) : M store unit :=
  s ← getS; v ← lift (bv_off (st_has s) id); modS (st_set_has v).

(** store.rs:291-312 grow_entities_internal *)
Definition grow_entities (md : mode) (old_capacity : N) : M store unit :=
  s ← getS;
  let new_capacity := entities_capacity s in
  a ← lift (arealloc (st_page s) old_capacity new_capacity);
  _ ← modS (st_set_page a);
  b ← lift (arealloc (st_idx s) old_capacity new_capacity);
  _ ← modS (st_set_idx b);
  v ← lift (bv_realloc (st_has s) old_capacity new_capacity);
  _ ← modS (st_set_has v);
  _ ← on_tags (tags_grow new_capacity);
  on_orders (orders_grow md new_capacity).

(** store.rs:76-83 register_new_entity *)
Definition register_new_entity (c : cfg) : M store entity :=
  cr ← on_ec (ec_create (c_mode c));
  _ ← (if container_was_grow cr then grow_entities (c_mode c) (cr_before cr) else mret tt);
  mret (cr_entity cr).

(** store.rs:53-61 create_entity *)
Definition create_entity (c : cfg) : M store entity :=
  e ← register_new_entity c;
  _ ← disable_archetype (e_id e);
  mret e.

(** store.rs:68-70 / 143-146: record where the entity's components are *)
Definition set_location (id : N) (l : eia) : M store unit :=
  _ ← set_page_index id (ea_page l);
  _ ← set_index_in_page id (ea_idx l);
  enable_archetype id.

(** store.rs:63-74 create_entity_with_archetype *)
Definition create_entity_with_archetype (c : cfg) (a : archetype) : M store entity :=
  e ← register_new_entity c;
  l ← on_ac (ac_add_entity c (e_id e) a);
  _ ← set_location (e_id e) l;
  mret e.

(** store.rs:214-227 swap_remove_internal *)
Definition swap_remove_internal (l : eia) : M store unit :=
  r ← on_ac (ac_swap_remove l);
  match r with
  | Some id => set_index_in_page id (ea_idx l)
  | None => mret tt
  end.

(** store.rs:85-104 destroy_entity *)
Definition destroy_entity (c : cfg) (e : entity) : M store unit :=
  s ← getS;
  has ← lift (has_archetype s (e_id e));
  _ ← (if (has : bool) then l ← lift (get_eia s (e_id e)); swap_remove_internal l else mret tt);
  _ ← on_ec (ec_destroy (c_mode c) e);
  _ ← on_tags (tags_remove_all (e_id e));
  on_orders (orders_remove_all (e_id e)).

(** store.rs:230-232 is_alive *)
Definition is_alive (c : cfg) (s : store) (e : entity) : pres bool := ec_is_alive (c_mode c) (st_ec s) e.
(** store.rs:286-288 is_valid_entity_with_archetype *)
Definition is_valid_with_archetype (c : cfg) (s : store) (e : entity) : pres bool :=
  b ← is_alive c s e;
  if (b : bool) then has_archetype s (e_id e) else mret false.

(** store.rs:187-212 move_entity_to_other_archetype *)
Definition move_entity (c : cfg) (e : entity) (a : archetype) : M store eia :=
  s ← getS;
  prev ← lift (get_eia s (e_id e));
  prev_ai ← lift (arch_index_by_page (st_ac s) (ea_page prev));
  l ← on_ac (ac_move_entity c (e_id e) prev prev_ai a);
  _ ← set_page_index (e_id e) (ea_page l);
  _ ← set_index_in_page (e_id e) (ea_idx l);
  _ ← swap_remove_internal prev;
  mret l.

(** store.rs:113-149: make sure the entity is in an archetype that has the types T *)
Definition ensure_types (c : cfg) (e : entity) (T : list tid) : M store eia :=
  s ← getS;
  has ← lift (has_archetype s (e_id e));
  if (has : bool) then
    l ← lift (get_eia s (e_id e));
    ai ← lift (arch_index_by_page (st_ac s) (ea_page l));
    a ← lift (vget_unchecked (ac_archs (st_ac s)) ai);
    if is_include_ids c a T then mret l
    else
      new_arch ← lift (arch_new (sort_cts (bld_include (bld_include bld_new a) (ctype_of c <$> T))));
      move_entity c e new_arch
  else
    a ← lift (with_components c T);
    l ← on_ac (ac_add_entity c (e_id e) a);
    _ ← set_location (e_id e) l;
    mret l.

(** store.rs:106-161 add_components; [vals] gives each type of the tuple with the bytes of its value *)
Definition add_components (c : cfg) (e : entity) (vals : list (tid * list N)) : M store unit :=
  s ← getS;
  alive ← lift (is_alive c s e);
  if negb alive then mret tt
  else
    l ← ensure_types c e vals.*1;
    s ← getS;
    v ← lift (page_view_unchecked (st_ac s) (ea_page l));
    rs ← lift (view_refs_unchecked c v (ea_idx l) vals.*1);
    modS (λ s, st_set_ac (ac_set_pages (assign_to_refs (ac_pages (st_ac s)) rs vals.*2) (st_ac s)) s).

(** store.rs:163-185 remove_components *)
Definition remove_components (c : cfg) (e : entity) (T : list tid) : M store unit :=
  s ← getS;
  ok ← lift (is_valid_with_archetype c s e);
  if negb ok then mret tt
  else
    l ← lift (get_eia s (e_id e));
    ai ← lift (arch_index_by_page (st_ac s) (ea_page l));
    a ← lift (vget_unchecked (ac_archs (st_ac s)) ai);
    new_arch ← lift (arch_new (sort_cts (bld_exclude (bld_include bld_new a) (ctype_of c <$> T))));
    _ ← move_entity c e new_arch;
    mret tt.

(** store.rs:260-272 get_page_info, then archetype_data_page_view.rs: get_components_refs *)
Definition get_components_refs (c : cfg) (s : store) (e : entity) (T : list tid) : pres (option (list cref)) :=
  ok ← is_valid_with_archetype c s e;          (* store.rs:235-258; get_components_refs_mut is the same function *)
  if (ok : bool) then
    pi ← get_page_index s (e_id e);
    v ← page_view_unchecked (st_ac s) pi;
    i ← get_index_in_page s (e_id e);
    view_refs c v i T
  else mret None.

(** Reading through the references returned by get_components_refs (store.rs:235-246). *)
Definition read_components (c : cfg) (s : store) (e : entity) (T : list tid) : pres (option (list (list cell))) :=
  r ← get_components_refs c s e T;
  mret (match r with Some refs => Some (read_ref (ac_pages (st_ac s)) <$> (refs : list cref)) | None => None end).

(** Assigning through the references returned by get_components_refs_mut (store.rs:248-258; nothing if there are none). *)
Definition set_components (c : cfg) (e : entity) (vals : list (tid * list N)) : M store unit :=
  s ← getS;
  r ← lift (get_components_refs c s e vals.*1);
  match r with
  | Some rs => putS (st_set_ac (ac_set_pages (assign_to_refs (ac_pages (st_ac s)) rs vals.*2) (st_ac s)) s)
  | None => mret tt
  end.

(** store.rs:275-283 get_entity_archetype *)
Definition get_entity_archetype (c : cfg) (s : store) (e : entity) : pres (option archetype) :=
  ok ← is_valid_with_archetype c s e;
  if (ok : bool) then
    pi ← aget (st_page s) (e_id e);
    a ← arch_by_page (st_ac s) pi;
    mret (Some a)
  else mret None.

(** store.rs:315-320 get_entity_by_id_unchecked *)
Definition entity_by_id (s : store) (id : N) : pres entity :=
  v ← aget (ec_ver (st_ec s)) id; mret (Entity id v).
Definition entity_by_id_opt (s : store) (o : pres (option N)) : pres (option entity) :=
  x ← o;
  match x with
  | Some id => e ← entity_by_id s id; mret (Some e)
  | None => mret None
  end.

(** tag_container.rs:98-110 *)
Definition add_tag (c : cfg) (t : tid) (e : entity) : M store unit := on_tags (tags_add c t (e_id e)).
Definition remove_tag (c : cfg) (t : tid) (e : entity) : M store unit := on_tags (tags_remove c t (e_id e)).
Definition has_tag (c : cfg) (s : store) (t : tid) (e : entity) : pres bool := tags_has c (st_tags s) t (e_id e).

(** order_group_container.rs:343-368 *)
Definition add_order (c : cfg) (g : tid) (e : entity) : M store unit := on_orders (orders_add c g (e_id e)).
Definition add_order_next (c : cfg) (g : tid) (e to : entity) : M store unit :=
  on_orders (orders_add_next c g (e_id e) (e_id to)).
Definition add_order_prev (c : cfg) (g : tid) (e to : entity) : M store unit :=
  on_orders (orders_add_prev c g (e_id e) (e_id to)).
Definition remove_order (c : cfg) (g : tid) (e : entity) : M store unit := on_orders (orders_remove c g (e_id e)).
(** order_group_container.rs:370-395 *)
Definition next_ordered (c : cfg) (s : store) (g : tid) (e : entity) : pres (option entity) :=
  entity_by_id_opt s (get_next_id c (st_orders s) g (e_id e)).
Definition previous_ordered (c : cfg) (s : store) (g : tid) (e : entity) : pres (option entity) :=
  entity_by_id_opt s (get_previous_id c (st_orders s) g (e_id e)).
Definition first_ordered (c : cfg) (s : store) (g : tid) : pres (option entity) :=
  entity_by_id_opt s (get_head_id c (st_orders s) g).
Definition last_ordered (c : cfg) (s : store) (g : tid) : pres (option entity) :=
  entity_by_id_opt s (get_tail_id c (st_orders s) g).
