(** Derive.v — the derive macros: C72. *)
From Verif.Spec Require Import Env Archetypes Derive.
From Verif.Proofs Require Import ExecP DeriveP.
Local Open Scope N_scope.

(** C72: Component is derived for structs with fields, Tag for structs without fields, and neither for anything else. *)
Theorem C72_component_accepted : ∀ i, (∃ x, derive_component i = POk x) ↔ ∃ fs, in_data i = DStruct fs ∧ fs ≠ [].
Proof. exact derive_component_iff. Qed.
Print Assumptions C72_component_accepted.
Theorem C72_tag_accepted : ∀ i, (∃ x, derive_tag i = POk x) ↔ in_data i = DStruct [].
Proof. exact derive_tag_iff. Qed.
Print Assumptions C72_tag_accepted.
Theorem C72_not_both : ∀ i x, derive_component i = POk x → derive_tag i = PPanic.
Proof. exact derive_not_both. Qed.
Print Assumptions C72_not_both.
(** This does not mean that components have values: a struct with a field may be empty all the same, and every layout with it
    is refused. *)
Theorem C72_components_have_size_refuted : ∀ size align, layout_rules size align → ∃ i x fs,
  derive_component i = POk x ∧ in_data i = DStruct fs ∧ size (RStruct fs) = 0 ∧
  ∀ md t a, CType t (size (RStruct fs)) (align (RStruct fs)) ∈ a → layout_new md a = PPanic.
Proof. exact derived_empty. Qed.
Print Assumptions C72_components_have_size_refuted.
(** With a field that is not empty it has a value, and the type alone is accepted as an archetype if it is not larger than a page. *)
Theorem C72_components_have_size_partial : ∀ size align i x fs f, layout_rules size align → derive_component i = POk x →
  in_data i = DStruct fs → f ∈ fs → 0 < size f →
  0 < size (RStruct fs) ∧
  (size (RStruct fs) ≤ PAGE - align (RStruct fs) mod PTR_SIZE →
   ∀ md t, ∃ ly, layout_new md [CType t (size (RStruct fs)) (align (RStruct fs))] = POk ly ∧ 1 ≤ ly_cap ly).
Proof. exact derived_stored. Qed.
Print Assumptions C72_components_have_size_partial.
(** The text that is derived implements the trait for the type, unless the type has parameters. *)
Theorem C72_implementation_refuted : ∃ i x, derive_component i = POk x ∧ x ≠ impl_for "Component" (in_ident i) (in_params i).
Proof. exact derive_generic_wrong. Qed.
Print Assumptions C72_implementation_refuted.
Theorem C72_component_implementation_partial : ∀ i x, in_params i = [] → derive_component i = POk x →
  x = impl_for "Component" (in_ident i) (in_params i).
Proof. exact derive_text. Qed.
Print Assumptions C72_component_implementation_partial.
Theorem C72_tag_implementation_partial : ∀ i x, in_params i = [] → derive_tag i = POk x → x = impl_for "Tag" (in_ident i) (in_params i).
Proof. exact derive_tag_text. Qed.
Print Assumptions C72_tag_implementation_partial.

(** Position { x: f32, y: f32, z: u8 }, Marker { x: () }, Selected. The rules can be met. *)
Example C72_example :
  let fs := [RScalar 4 4; RScalar 4 4; RScalar 1 1] in
  derive_component (Input "Position" [] (DStruct fs)) = POk "impl Component for Position {}" ∧
  derive_tag (Input "Position" [] (DStruct fs)) = PPanic ∧
  layout_rules ex_size ex_align ∧ ex_size (RStruct fs) = 12 ∧ ex_align (RStruct fs) = 4 ∧
  layout_new Debug [CType 1 12 4] = POk (Layout [0] 1365) ∧
  derive_component (Input "Marker" [] (DStruct [RStruct []])) = POk "impl Component for Marker {}" ∧ ex_size (RStruct [RStruct []]) = 0 ∧
  layout_new Debug [CType 1 12 4; CType 2 0 1] = PPanic ∧
  derive_tag (Input "Selected" [] (DStruct [])) = POk "impl Tag for Selected {}" ∧
  derive_component (Input "Selected" [] (DStruct [])) = PPanic ∧
  impl_for "Component" "Pair" ["A"; "B"] = "impl<A, B> Component for Pair<A, B> {}".
Proof. split; [done|]. split; [done|]. split; [exact ex_rules|]. vm_compute. done. Qed.
