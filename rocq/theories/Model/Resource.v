(** Resource.v — src/resource_store.rs, for values of an arbitrary type T. *)
From Verif.Model Require Export Base BitVec Entities.
Local Open Scope N_scope.

Section resource.
Context {T : Type}.

(** resource_store.rs:5-8. The null pointer of new() is an empty block. *)
Record rs := RS { rs_elems : arr T; rs_ec : ec }.
Definition rs_set_elems v s := RS v (rs_ec s).
Definition rs_set_ec v s := RS (rs_elems s) v.

(** resource_store.rs:11-16 new *)
Definition rs_new : rs := RS [] (ec_new 0).
(** resource_store.rs:18-23 with_capacity *)
Definition rs_with_capacity (capacity : N) : rs := RS (alloc_uninit capacity) (ec_new capacity).

(** resource_store.rs:25-45 create *)
Definition rs_create (md : mode) (v : T) : M rs entity :=
  s ← getS;
  let old_capacity := ec_cap (rs_ec s) in
  cr ← zoom rs_ec rs_set_ec (ec_create md);
  s1 ← getS;
  _ ← (if container_was_grow cr then
         a ← lift (arealloc (rs_elems s1) old_capacity (ec_cap (rs_ec s1)));
         modS (rs_set_elems a)
       else mret tt);
  s2 ← getS;
  a ← lift (aset (rs_elems s2) (e_id (cr_entity cr)) v);
  _ ← modS (rs_set_elems a);
  mret (cr_entity cr).

(** resource_store.rs:47-53 release: moves the value out by a bitwise copy; the cell keeps its bits *)
Definition rs_release (md : mode) (e : entity) : M rs T :=
  s ← getS;
  _ ← lift (dassertP md (ec_is_alive md (rs_ec s) e));
  _ ← zoom rs_ec rs_set_ec (ec_destroy md e);
  lift (aget (rs_elems s) (e_id e)).

(** resource_store.rs:56-68 index *)
Definition rs_index (md : mode) (s : rs) (e : entity) : pres T :=
  _ ← dassertP md (ec_is_alive md (rs_ec s) e);
  aget (rs_elems s) (e_id e).

(** resource_store.rs:70-80 index_mut followed by an assignment, which drops and here returns the old value *)
Definition rs_assign (md : mode) (e : entity) (v : T) : M rs T :=
  s ← getS;
  old ← lift (rs_index md s e);
  a ← lift (aset (rs_elems s) (e_id e) v);
  _ ← modS (rs_set_elems a);
  mret old.

(** resource_store.rs:82-92 drop: the values dropped, in order *)
Fixpoint rs_drop_loop (s : rs) (is : list N) : pres (list T) :=
  match is with
  | [] => POk []
  | i :: r =>
    b ← ec_is_alive_at (rs_ec s) i;
    if negb b then rs_drop_loop s r
    else v ← aget (rs_elems s) i; vs ← rs_drop_loop s r; mret (v :: vs)
  end.
Definition rs_drop (s : rs) : pres (list T) :=
  rs_drop_loop s (N.of_nat <$> seq 0 (N.to_nat (ec_cap (rs_ec s)))).

(** Histories of the calls of resource_store.rs:25-80. *)
Inductive rop := RCreate (v : T) | RRelease (e : entity) | RAssign (e : entity) (v : T).
Inductive rout := RHandle (e : entity) | RValue (v : T).
Definition rstep (md : mode) (o : rop) : M rs rout :=
  match o with
  | RCreate v => e ← rs_create md v; mret (RHandle e)
  | RRelease e => v ← rs_release md e; mret (RValue v)
  | RAssign e v => old ← rs_assign md e v; mret (RValue old)
  end.
Definition rtrace : Type := list (rop * rout).
Inductive rrun (md : mode) (s0 : rs) : rtrace → rs → Prop :=
| rrun_init : rrun md s0 [] s0
| rrun_step tr s o s' r : rrun md s0 tr s → rstep md o s = ROk s' r → rrun md s0 (tr ++ [(o, r)]) s'.
End resource.
Global Arguments rs : clear implicits.
Global Arguments rop : clear implicits.
Global Arguments rout : clear implicits.
Global Arguments rtrace : clear implicits.
