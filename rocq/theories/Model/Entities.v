(** Entities.v — src/entities_container.rs *)
From Verif.Model Require Export Base BitVec.
Local Open Scope N_scope.

(** entities_container.rs:4-10 *)
Record ec := EC {
  ec_gaps : list N;          (* gap_ids: Vec<u32>, pushed and popped at the end *)
  ec_cap : N;                (* capacity: usize *)
  ec_ver : arr N;            (* entity_to_version: *mut u32 *)
  ec_alive : bitvec;         (* entity_to_is_alive_bitvec *)
  ec_next : N;               (* next_free_id: u32 *)
}.
(** Assignments to the fields. *)
Definition ec_set_gaps v s := EC v (ec_cap s) (ec_ver s) (ec_alive s) (ec_next s).
Definition ec_set_cap v s := EC (ec_gaps s) v (ec_ver s) (ec_alive s) (ec_next s).
Definition ec_set_ver v s := EC (ec_gaps s) (ec_cap s) v (ec_alive s) (ec_next s).
Definition ec_set_alive v s := EC (ec_gaps s) (ec_cap s) (ec_ver s) v (ec_next s).
Definition ec_set_next v s := EC (ec_gaps s) (ec_cap s) (ec_ver s) (ec_alive s) v.

(** entities_container.rs:12-16 EntityCreation *)
Record creation := Creation { cr_entity : entity; cr_before : N; cr_after : N }.
(** entities_container.rs:178-181 container_was_grow *)
Definition container_was_grow (cr : creation) : bool := negb (cr_after cr =? cr_before cr).

(** entities_container.rs:19-36 new *)
Definition ec_new (capacity : N) : ec :=
  EC [] capacity (alloc_filled 0 capacity) (bv_alloc capacity) 0.

(** entities_container.rs:42-64 grow *)
Definition ec_grow (new_capacity : N) : M ec unit :=
  s ← getS;
  if new_capacity <=? ec_cap s then mret tt
  else
    ver ← lift (arealloc_filled 0 (ec_ver s) (ec_cap s) new_capacity);
    _ ← modS (ec_set_ver ver);
    al ← lift (bv_realloc (ec_alive s) (ec_cap s) new_capacity);
    _ ← modS (ec_set_alive al);
    modS (ec_set_cap new_capacity).

(** entities_container.rs:67-69 will_grow_with_id: compares with [capacity as u32] *)
Definition will_grow_with_id (s : ec) (id : N) : bool := as_u32 (ec_cap s) <=? id.

(** entities_container.rs:71-102 create_entity *)
Definition ec_create (md : mode) : M ec creation :=
  s ← getS;
  id ← (match last (ec_gaps s) with
        | Some id => _ ← modS (ec_set_gaps (vpop (ec_gaps s))); mret id
        | None =>
          let id := ec_next s in
          nf ← lift (u32_add md id 1);
          _ ← modS (ec_set_next nf);
          _ ← (if will_grow_with_id s id then ec_grow (N.max (ec_cap s) 1 * 2) else mret tt);
          mret id
        end);
  s1 ← getS;
  al ← lift (bv_toggle (ec_alive s1) id);
  _ ← modS (ec_set_alive al);
  v ← lift (aget (ec_ver s1) id);
  version ← lift (u32_add md v 1);
  vers ← lift (aset (ec_ver s1) id version);
  _ ← modS (ec_set_ver vers);
  s2 ← getS;
  mret (Creation (Entity id version) (ec_cap s) (ec_cap s2)).

(** entities_container.rs:143-145 validate_id *)
Definition validate_id (s : ec) (id : N) : bool := id <? ec_cap s.
(** entities_container.rs:148-150 validate_entity_version *)
Definition validate_version (s : ec) (e : entity) : pres bool :=
  v ← aget (ec_ver s) (e_id e); mret (v =? e_ver e).

(** entities_container.rs:120-130 is_alive ([&] is not short-circuiting) *)
Definition ec_is_alive (md : mode) (s : ec) (e : entity) : pres bool :=
  _ ← dassertP md (POk (validate_id s (e_id e)));
  v ← validate_version s e;
  b ← bv_get (ec_alive s) (e_id e);
  mret (v && b).

(** entities_container.rs:133-135 is_alive_at_index *)
Definition ec_is_alive_at (s : ec) (i : N) : pres bool := bv_get (ec_alive s) i.

(** entities_container.rs:104-118 destroy_entity, with 152-158 validate_entity_version_with_panic *)
Definition ec_destroy (md : mode) (e : entity) : M ec unit :=
  s ← getS;
  _ ← lift (dassertP md (POk (validate_id s (e_id e))));
  _ ← lift (dassertP md (validate_version s e));
  _ ← lift (dassertP md (ec_is_alive md s e));
  al ← lift (bv_toggle (ec_alive s) (e_id e));
  _ ← modS (ec_set_alive al);
  last_id ← lift (u32_sub md (ec_next s) 1);
  if e_id e =? last_id
  then modS (ec_set_next (e_id e))
  else modS (ec_set_gaps (ec_gaps s ++ [e_id e])).
