(** BinarySearch.v — the two implementations of [slice::binary_search] shipped by the Rust standard library
    (library/core/src/slice/mod.rs), for values compared like N; and [Vec]'s growth policy.
    The project does not pin a toolchain, so both are given. They are instances of [c_bs] / [c_grow]. *)
From Verif.Model Require Export Base.
Local Open Scope N_scope.

(** Rust 1.52 - 1.81:
<<
  let mut size = self.len(); let mut left = 0; let mut right = size;
  while left < right {
      let mid = left + size / 2;
      let cmp = f(mid);
      left = if cmp == Less { mid + 1 } else { left };
      right = if cmp == Greater { mid } else { right };
      if cmp == Equal { return Ok(mid); }
      size = right - left;
  }
  Err(left)
>> *)
Fixpoint bs_old_loop (fuel : nat) (l : list N) (x : N) (left right : nat) : bsres :=
  match fuel with
  | O => BMissing left
  | S fuel =>
    if Nat.ltb left right then
      let mid := (left + Nat.div (right - left) 2)%nat in
      match l !! mid with
      | None => BMissing left
      | Some y =>
        match N.compare y x with
        | Eq => BFound mid
        | Lt => bs_old_loop fuel l x (S mid) right
        | Gt => bs_old_loop fuel l x left mid
        end
      end
    else BMissing left
  end.
Definition bs_old (l : list N) (x : N) : bsres := bs_old_loop (S (length l)) l x 0 (length l).

(** Rust 1.82 and later:
<<
  let mut size = self.len();
  if size == 0 { return Err(0); }
  let mut base = 0usize;
  while size > 1 {
      let half = size / 2;
      let mid = base + half;
      base = if f(mid) == Greater { base } else { mid };
      size -= half;
  }
  let cmp = f(base);
  if cmp == Equal { Ok(base) } else { Err(base + (cmp == Less) as usize) }
>> *)
Fixpoint bs_new_loop (fuel : nat) (l : list N) (x : N) (base size : nat) : nat :=
  match fuel with
  | O => base
  | S fuel =>
    if Nat.ltb 1 size then
      let half := Nat.div size 2 in
      let mid := (base + half)%nat in
      let base' := match l !! mid with
                   | Some y => match N.compare y x with Gt => base | _ => mid end
                   | None => base
                   end in
      bs_new_loop fuel l x base' (size - half)
    else base
  end.
Definition bs_new (l : list N) (x : N) : bsres :=
  match l with
  | [] => BMissing 0
  | _ =>
    let base := bs_new_loop (length l) l x 0 (length l) in
    match l !! base with
    | Some y => match N.compare y x with
                | Eq => BFound base
                | Lt => BMissing (S base)
                | Gt => BMissing base
                end
    | None => BMissing base
    end
  end.

(** RawVec::grow_amortized for u32 elements (Vec::push of archetype_data_page.rs:54): max(2 * cap, required, 4). *)
Definition rawvec_grow (cap required : N) : N := N.max 4 (N.max (2 * cap) required).
