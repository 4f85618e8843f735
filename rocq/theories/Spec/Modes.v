(** Modes.v — one program, two builds. *)
From Verif.Model Require Export Base.

(** The same configuration (types, binary search, vector growth) in the build mode [md]. *)
Definition in_mode (md : mode) (c : cfg) : cfg := Cfg md (c_ty c) (c_bs c) (c_grow c).
