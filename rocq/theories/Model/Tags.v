(** Tags.v — src/tag_container.rs *)
From Verif.Model Require Export Base BitVec.
Local Open Scope N_scope.

(** tag_container.rs:5-9. A tag type is represented by its TypeId. *)
Record tags := Tags {
  tg_ids : list tid;         (* tag_ids: sorted *)
  tg_bvs : list bitvec;      (* entity_id_to_has_tag_bitvecs *)
  tg_cap : N;                (* entity_capacity *)
}.

(** tag_container.rs:12-18 new *)
Definition tags_new (capacity : N) : tags := Tags [] [] capacity.

(** tag_container.rs:20-30 has_tag_bitvec: panics for a tag type that was never added *)
Definition has_tag_bitvec (c : cfg) (s : tags) (t : tid) : pres bitvec :=
  match c_bs c (tg_ids s) t with
  | BFound i => vget_unchecked (tg_bvs s) i
  | BMissing _ => PPanic
  end.

(** tag_container.rs:32-52 add_tag *)
Definition tags_add (c : cfg) (t : tid) (id : N) : M tags unit :=
  s ← getS;
  i ← (match c_bs c (tg_ids s) t with
       | BFound i => mret i
       | BMissing i =>
         ids ← lift (vinsert (tg_ids s) i t);
         _ ← putS (Tags ids (tg_bvs s) (tg_cap s));
         bvs ← lift (vinsert (tg_bvs s) i (bv_alloc (tg_cap s)));
         _ ← putS (Tags ids bvs (tg_cap s));
         mret i
       end);
  s ← getS;
  v ← lift (vget_unchecked (tg_bvs s) i);
  v' ← lift (bv_on v id);
  putS (Tags (tg_ids s) (<[i := v']> (tg_bvs s)) (tg_cap s)).

(** tag_container.rs:54-63 remove_tag *)
Definition tags_remove (c : cfg) (t : tid) (id : N) : M tags unit :=
  s ← getS;
  match c_bs c (tg_ids s) t with
  | BFound i =>
    v ← lift (vget_unchecked (tg_bvs s) i);
    v' ← lift (bv_off v id);
    putS (Tags (tg_ids s) (<[i := v']> (tg_bvs s)) (tg_cap s))
  | BMissing _ => mret tt
  end.

(** tag_container.rs:65-74 has_tag *)
Definition tags_has (c : cfg) (s : tags) (t : tid) (id : N) : pres bool :=
  match c_bs c (tg_ids s) t with
  | BFound i => v ← vget_unchecked (tg_bvs s) i; bv_get v id
  | BMissing _ => POk false
  end.

(** [for bitvec in &mut bitvecs { *bitvec = f(bitvec) }] *)
Fixpoint bvs_map (f : bitvec → pres bitvec) (l : list bitvec) : pres (list bitvec) :=
  match l with
  | [] => POk []
  | v :: r => v' ← f v; r' ← bvs_map f r; mret (v' :: r')
  end.

(** tag_container.rs:76-82 remove_all_tags_for_entity *)
Definition tags_remove_all (id : N) : M tags unit :=
  s ← getS;
  bvs ← lift (bvs_map (λ v, bv_off v id) (tg_bvs s));
  putS (Tags (tg_ids s) bvs (tg_cap s)).

(** tag_container.rs:84-93 grow *)
Definition tags_grow (new_capacity : N) : M tags unit :=
  s ← getS;
  bvs ← lift (bvs_map (λ v, bv_realloc v (tg_cap s) new_capacity) (tg_bvs s));
  putS (Tags (tg_ids s) bvs new_capacity).
