(** Archetypes.v — archetypes as sets of types and page layouts: C17 - C24. *)
From Verif.Spec Require Import Env Handles Archetypes.
From Verif.Proofs Require Import SortedP ArchX.
Local Open Scope N_scope.

(** C17: an accepted layout gives every (component, row) pair bytes of its own, inside the page and aligned. The
    arithmetic of the model does not wrap; in release builds the subtraction of the alignment can wrap for more
    than 2340 components, so those are left out there. *)
Theorem C17_layouts_sound : ∀ md a ly,
  Forall rust_type a → (md = Debug ∨ (length a ≤ 2340)%nat) → layout_new md a = POk ly →
  (∀ i k b, owns a ly i k b → b < PAGE) ∧
  (∀ i k j l b, owns a ly i k b → owns a ly j l b → i = j ∧ k = l) ∧
  (∀ i x o k, a !! i = Some x → ly_offs ly !! i = Some o → (ct_align x | o + ct_size x * k)) ∧
  length (ly_offs ly) = length a.
Proof. exact (λ md a ly Hty _ Hly, layout_good md a ly Hty Hly). Qed.
Print Assumptions C17_layouts_sound.

Example C17_example :
  layout_new Debug [CType 1 12 4; CType 2 1 1; CType 3 24 8] = POk (Layout [0; 2724; 2952] 227) ∧
  owns [CType 1 12 4; CType 2 1 1; CType 3 24 8] (Layout [0; 2724; 2952] 227) 2 226 8399.
Proof.
  split; [vm_compute; reflexivity|]. exists (CType 3 24 8), 2952. repeat split; vm_compute; congruence.
Qed.

(** C18 does not hold. Padding for alignments above 4 bytes is not budgeted for: *)
Theorem C18_fitting_accepted_refuted : ¬ ∀ md a,
  a ≠ [] → Forall rust_type a → Forall (λ x, 0 < ct_size x) a → row_end a 0 ≤ PAGE → ∃ ly, layout_new md a = POk ly.
Proof. exact fitting_refuted. Qed.
Print Assumptions C18_fitting_accepted_refuted.
(** ... zero-sized components divide by zero: *)
Theorem C18_zero_sized_accepted_refuted : ¬ ∀ md a,
  a ≠ [] → Forall rust_type a → row_end a 0 ≤ PAGE → (length a ≤ 1)%nat → ∃ ly, layout_new md a = POk ly.
Proof. exact zero_sized_refuted. Qed.
Print Assumptions C18_zero_sized_accepted_refuted.
(** ... and components larger than an equal share of the page leave room for no row, so that creating an entity panics. *)
Theorem C18_uneven_created_refuted : ¬ ∀ c cap a, cfg_ok c → c_mode c = Debug → 0 < cap →
  a ≠ [] → Forall rust_type a → Forall (λ x, 0 < ct_size x ∧ ct_align x = 8) a → row_end a 0 ≤ PAGE →
  ∃ s r, exec0 c cap [λ _, OCreateWith a] = ROk s r.
Proof. exact uneven_refuted. Qed.
Print Assumptions C18_uneven_created_refuted.
(** What holds: components that are not zero-sized and not larger than an equal share of the page, with alignments
    below 8 bytes or all alignments equal, get a layout with room for at least one row. *)
Theorem C18_fitting_accepted_partial : ∀ md a,
  a ≠ [] → budgeted a → Forall rust_type a → Forall (λ x, 0 < ct_size x) a →
  (∀ x, x ∈ a → ct_size x ≤ slice a) → (amax a < 8 ∨ ∃ al, ∀ x, x ∈ a → ct_align x = al) →
  ∃ ly, layout_new md a = POk ly ∧ 1 ≤ ly_cap ly.
Proof. exact layout_accepts. Qed.
Print Assumptions C18_fitting_accepted_partial.
(** Exactly: an archetype is accepted, with room for [k] rows, if and only if the alignment can be taken from every share (it always
    can for at most 2340 types; in release builds the subtraction wraps otherwise), no component is zero-sized, [k] is the largest number of rows that need no more than an equal share of the page for each component, and these, one component after
    the other with padding, fit the page. Otherwise it is refused. *)
Theorem C18_accepted_exact_partial : ∀ md a k, a ≠ [] → (md = Debug ∨ (length a ≤ 2340)%nat) → Forall rust_type a →
  (∃ ly, layout_new md a = POk ly ∧ ly_cap ly = k) ↔ budgeted a ∧ (∀ x, x ∈ a → 0 < ct_size x) ∧ shares k a ∧ row_end (stacked k a) 0 ≤ PAGE.
Proof. exact layout_iff. Qed.
Print Assumptions C18_accepted_exact_partial.
Theorem C18_refused_exact_partial : ∀ md a, a ≠ [] → (md = Debug ∨ (length a ≤ 2340)%nat) → Forall rust_type a →
  layout_new md a = PPanic ↔ ¬ budgeted a ∨ (∃ x, x ∈ a ∧ ct_size x = 0) ∨ ∃ k, shares k a ∧ PAGE < row_end (stacked k a) 0.
Proof. exact layout_panics_iff. Qed.
Print Assumptions C18_refused_exact_partial.

Example C18_example :
  slice [CType 1 12 4; CType 2 1 1; CType 3 4096 2] = 5457 ∧ amax [CType 1 12 4; CType 2 1 1; CType 3 4096 2] = 4 ∧
  layout_new Release [CType 1 12 4; CType 2 1 1; CType 3 4096 2] = POk (Layout [0; 12; 14] 1).
Proof. vm_compute. done. Qed.

(** Shares of 5461 bytes hold 5 rows each, and these need 16404 of the 16384 bytes; 4 rows would fit. *)
Example C18_exact_example : slice LayoutP.refused = 5461 ∧ shares 5 LayoutP.refused ∧ row_end (stacked 5 LayoutP.refused) 0 = 16404 ∧
  layout_new Debug LayoutP.refused = PPanic ∧ row_end (stacked 4 LayoutP.refused) 0 = 13136.
Proof.
  split; [done|]. split; [|split_and!; vm_compute; reflexivity]. split.
  - intros x Hx. repeat (apply elem_of_cons in Hx as [->|Hx]; [vm_compute; done|]). by apply elem_of_nil in Hx.
  - exists (CType 1 1092 1). split; [by left|done].
Qed.

(** 4096 types of alignment 4 leave shares of nothing, hence no rows; one more and the subtraction overflows. *)
Example C18_budget_example : budgeted (replicate 4096 (CType 1 4 4)) ∧ ¬ budgeted (replicate 4097 (CType 1 4 4)) ∧
  match layout_new Debug (replicate 4096 (CType 1 4 4)) with POk ly => ly_cap ly = 0 | _ => False end ∧ layout_new Debug (replicate 4097 (CType 1 4 4)) = PPanic.
Proof. split_and!; vm_compute; (reflexivity || done || by intros H). Qed.

(** C19: builders compute sets of types; archetypes list them in increasing order, once each. *)
Theorem C19_builder_sets : ∀ xs,
  match bld_build (bcalls xs) with
  | ROk b a => tset xs ≠ ∅ ∧ incr (arch_ids a) ∧ (∀ t, t ∈ arch_ids a ↔ t ∈ tset xs) ∧
      (∀ y, y ∈ a → included xs y) ∧ (∀ y, y ∈ b ↔ y ∈ a)
  | RPanic _ => tset xs = ∅
  | RUB _ => False
  end.
Proof. exact builder_sets. Qed.
Print Assumptions C19_builder_sets.

Example C19_example :
  let x := λ t, CType t 4 4 in
  bld_build (bcalls [BInclude [x 5; x 3; x 5]; BBuild; BExclude [x 5; x 9]; BIncludeArch [x 1; x 3]; BInclude [x 8]; BExclude [x 8]])
  = ROk [x 1; x 3] [x 1; x 3] ∧
  elements (tset [BInclude [x 5; x 3; x 5]; BBuild; BExclude [x 5; x 9]; BIncludeArch [x 1; x 3]; BInclude [x 8]; BExclude [x 8]]) = [1; 3]
  ∧ bld_build (bcalls [BInclude [x 5]; BExclude [x 5]]) = RPanic [].
Proof. vm_compute. done. Qed.

(** C20: is_same_as is equality of the sets of types, and the same archetypes hash alike. *)
Theorem C20_same_is_set_equality : ∀ a b, built a → built b →
  (is_same_as a b = true ↔ ∀ t, t ∈ arch_ids a ↔ t ∈ arch_ids b) ∧
  (is_same_as a b = true → arch_hash_input a = arch_hash_input b).
Proof. exact same_built. Qed.
Print Assumptions C20_same_is_set_equality.

Example C20_example : ∃ a b, with_components (ex_cfg Debug) [3; 1; 2] = POk a ∧ with_components (ex_cfg Debug) [2; 3; 1] = POk b ∧
  built a ∧ built b ∧ is_same_as a b = true.
Proof.
  do 2 eexists. split; [vm_compute; reflexivity|]. split; [vm_compute; reflexivity|].
  split; [left; exists (ex_cfg Debug), [3; 1; 2]; split; [|vm_compute; reflexivity]|
   split; [left; exists (ex_cfg Debug), [2; 3; 1]; split; [|vm_compute; reflexivity]|vm_compute; reflexivity]];
  repeat constructor; set_solver.
Qed.

(** C21: the inclusion tests are right, for id lists without repetitions. *)
Theorem C21_inclusion : ∀ c a, search_ok (c_bs c) → built a →
  (∀ t i, find_component_index c a t = Some i ↔ arch_ids a !! i = Some t) ∧
  (∀ t, find_component_index c a t = None ↔ t ∉ arch_ids a) ∧
  (∀ t, has_component c a t = true ↔ t ∈ arch_ids a) ∧
  (∀ ids, NoDup ids → is_include_ids c a ids = true ↔ ∀ t, t ∈ ids → t ∈ arch_ids a) ∧
  (∀ b, built b → is_include c a b = true ↔ ∀ t, t ∈ arch_ids b → t ∈ arch_ids a).
Proof. exact inclusion_built. Qed.
Print Assumptions C21_inclusion.

Example C21_example : ∃ a, with_components (ex_cfg Debug) [30; 10; 20] = POk a ∧
  find_component_index (ex_cfg Debug) a 20 = Some 1%nat ∧ has_component (ex_cfg Debug) a 15 = false ∧
  is_include_ids (ex_cfg Debug) a [30; 10] = true ∧ is_include_ids (ex_cfg Debug) a [30; 15] = false ∧
  (* with repetitions the answer can be wrong *) is_include_ids (ex_cfg Debug) a [30; 30; 30; 30] = false.
Proof. eexists. split; [vm_compute; reflexivity|]. vm_compute. done. Qed.

(** C22: is_include_only_ids is set equality, for id lists without repetitions. *)
Theorem C22_include_only : ∀ c a ids, search_ok (c_bs c) → built a → NoDup ids →
  is_include_only_ids c a ids = true ↔ ∀ t, t ∈ ids ↔ t ∈ arch_ids a.
Proof. exact include_only_built. Qed.
Print Assumptions C22_include_only.

Example C22_example : ∃ a, with_components (ex_cfg Debug) [30; 10; 20] = POk a ∧
  is_include_only_ids (ex_cfg Debug) a [20; 30; 10] = true ∧ is_include_only_ids (ex_cfg Debug) a [20; 30] = false ∧
  is_include_only_ids (ex_cfg Debug) a [20; 30; 40] = false.
Proof. eexists. split; [vm_compute; reflexivity|]. vm_compute. done. Qed.

(** C23 does not hold for id lists that are not sorted: after an id larger than all types of the archetype the rest
    of the list is ignored. *)
Theorem C23_exclude_refuted : ¬ ∀ c a ids, search_ok (c_bs c) → built a →
  is_exclude_ids c a ids = POk true → ∀ t, t ∈ ids → t ∉ arch_ids a.
Proof. exact exclude_refuted. Qed.
Print Assumptions C23_exclude_refuted.
(** It holds for sorted id lists and for two archetypes; it never panics and "no" is always right. *)
Theorem C23_exclude_partial : ∀ c a, search_ok (c_bs c) → built a →
  (∀ ids, StronglySorted N.le ids →
     ∃ b : bool, is_exclude_ids c a ids = POk b ∧ (b = true ↔ ∀ t, t ∈ ids → t ∉ arch_ids a)) ∧
  (∀ a', built a' →
     ∃ b : bool, is_exclude c a a' = POk b ∧ (b = true ↔ ∀ t, t ∈ arch_ids a' → t ∉ arch_ids a)) ∧
  (∀ ids, ∃ b : bool, is_exclude_ids c a ids = POk b ∧ (b = false → ∃ t, t ∈ ids ∧ t ∈ arch_ids a)).
Proof. exact exclude_built. Qed.
Print Assumptions C23_exclude_partial.

Example C23_example : ∃ a, with_components (ex_cfg Debug) [50; 10] = POk a ∧
  is_exclude_ids (ex_cfg Debug) a [10; 70] = POk false ∧ is_exclude_ids (ex_cfg Debug) a [5; 20; 70] = POk true ∧
  is_exclude_ids (ex_cfg Debug) a [70; 10] = POk true.
Proof. eexists. split; [vm_compute; reflexivity|]. vm_compute. done. Qed.

(** C24: the index pairs used to move an entity between archetypes are the positions of the common types. *)
Theorem C24_common_types : ∀ a b, built a → built b →
  length (arch_union a b).1 = length (arch_union a b).2 ∧
  NoDup (zip (arch_union a b).1 (arch_union a b).2) ∧
  ∀ i j, (i, j) ∈ zip (arch_union a b).1 (arch_union a b).2 ↔
    ∃ t, arch_ids a !! i = Some t ∧ arch_ids b !! j = Some t.
Proof. exact union_built. Qed.
Print Assumptions C24_common_types.

Example C24_example : ∃ a b, with_components (ex_cfg Debug) [50; 10; 30; 20] = POk a ∧ with_components (ex_cfg Debug) [60; 30; 10] = POk b ∧
  arch_union a b = ([0; 2], [0; 1])%nat ∧ arch_union b a = ([0; 1], [0; 2])%nat.
Proof. do 2 eexists. split; [vm_compute; reflexivity|]. split; [vm_compute; reflexivity|]. vm_compute. done. Qed.
