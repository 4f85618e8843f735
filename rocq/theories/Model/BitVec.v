(** BitVec.v — src/bitvec_utils.rs: vectors of bits packed in u32 words. *)
From Verif.Model Require Export Base.
Local Open Scope N_scope.

Notation bitvec := (list N) (only parsing).   (* u32 words *)

(** bitvec_utils.rs:73-76 get_len and 78-81 get_bitvec_base_bits (= 32) *)
Definition bv_len (elements : N) : N := elements / 32 + 1.

(** bitvec_utils.rs:3-6 alloc *)
Definition bv_alloc (len : N) : bitvec := replicate (N.to_nat (bv_len len)) 0.

(** bitvec_utils.rs:13-27 realloc *)
Definition bv_realloc (v : bitvec) (old_len new_len : N) : pres bitvec :=
  let old_size := bv_len old_len in
  let new_size := bv_len new_len in
  if old_size =? new_size then POk v
  else copy_prefix v (replicate (N.to_nat new_size) 0) old_size.

(** [1 << mask_bit] as u32 *)
Definition bv_mask (bit_index : N) : N := N.shiftl 1 (bit_index mod 32).
(** [!mask] on u32: bitvec_utils.rs:37 *)
Definition u32_not (m : N) : N := N.lxor m 4294967295.

(** Read-modify-write of the word containing the bit: bitvec_utils.rs:36-37, 47-48, 58-59. *)
Definition bv_upd (f : N → N) (v : bitvec) (bit_index : N) : pres bitvec :=
  match nlookup v (bit_index / 32) with
  | Some w => POk (<[N.to_nat (bit_index / 32) := f w]> v)
  | None => PUB OutOfBounds
  end.

(** bitvec_utils.rs:29-38 set_bit_off *)
Definition bv_off (v : bitvec) (i : N) : pres bitvec :=
  bv_upd (λ w, N.land w (u32_not (bv_mask i))) v i.
(** bitvec_utils.rs:40-49 set_bit_on *)
Definition bv_on (v : bitvec) (i : N) : pres bitvec :=
  bv_upd (λ w, N.lor w (bv_mask i)) v i.
(** bitvec_utils.rs:51-60 toggle_bit *)
Definition bv_toggle (v : bitvec) (i : N) : pres bitvec :=
  bv_upd (λ w, N.lxor w (bv_mask i)) v i.
(** bitvec_utils.rs:62-71 is_bit_on *)
Definition bv_get (v : bitvec) (i : N) : pres bool :=
  match nlookup v (i / 32) with
  | Some w => POk (N.land w (bv_mask i) =? bv_mask i)
  | None => PUB OutOfBounds
  end.
