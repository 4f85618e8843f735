(** Derive.v — division_ecs_attributes/src/lib.rs. A macro that panics is a compile error. Of the input of a macro only what
    the macros look at is modelled, and the parameters of generic types; of a parameter only its name. The fields of enums and
    unions are left out. *)
From stdpp Require Export strings.
From Verif.Model Require Export Base.
Local Open Scope N_scope.

(** What the derive macros are applied to (division_ecs_attributes/src/lib.rs:4-40). A Rust type: a scalar with size and alignment, or a struct with the types of its fields. *)
Inductive rty := RScalar (size align : N) | RStruct (fields : list rty).
(** syn::Data, matched in division_ecs_attributes/src/lib.rs:8-11, 27-30 *)
Inductive data := DStruct (fields : list rty) | DEnum | DUnion.
(** syn::DeriveInput, division_ecs_attributes/src/lib.rs:6, 25 *)
Record input := Input { in_ident : string; in_params : list string; in_data : data }.

(** division_ecs_attributes/src/lib.rs:4-21 derive_component: the text of the implementation *)
Definition derive_component (i : input) : pres string :=
  let is_supported := match in_data i with DStruct s => Nat.ltb 0 (length s) | _ => false end in
  if negb is_supported then PPanic else POk ("impl Component for " +:+ in_ident i +:+ " {}").
(** division_ecs_attributes/src/lib.rs:23-40 derive_tag *)
Definition derive_tag (i : input) : pres string :=
  let is_supported := match in_data i with DStruct s => Nat.eqb (length s) 0 | _ => false end in
  if negb is_supported then PPanic else POk ("impl Tag for " +:+ in_ident i +:+ " {}").
