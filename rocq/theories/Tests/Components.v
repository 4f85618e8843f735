(** Components.v — src/tests/components_tests.rs on the model. *)
From Verif.Tests Require Import Harness.
Local Open Scope N_scope.

(** components_tests.rs:20-32 TestComponent1::new, TestComponent2::new *)
Definition tc1 (i : N) : N * list N := (TC1, le 4 i).
Definition tc2 (i : N) : N * list N := (TC2, le 8 (i * 2)).
Definition count (n : nat) : list N := N.of_nat <$> seq 0 n.

(** components_tests.rs:35-65, evaluated in fewer environments *)
Example registry_set_value_for_entity_as_expected :
  forallb (λ e, returns (run_test 255 (λ e,
    a ← archetype_of e [u64; u128];
    xs ← for_map (count 255) (λ i,
      x ← create_entity_with_archetype (e_cfg e) a;
      _ ← assign e x [(u64, le 8 i); (u128, le 16 (255 + i))];
      mret (i, x));
    for_each xs (λ '(i, x), expect_comps e x [(u64, le 8 i); (u128, le 16 (255 + i))])) e)) few_envs = true.
Proof. vm_compute. reflexivity. Qed.

(** components_tests.rs:68-74 *)
Example registry_get_component_ref_mut_is_none_if_component_doesnt_exist :
  passes NEW (λ e, a ← archetype_of e [u64; u128]; x ← create_entity_with_archetype (e_cfg e) a;
    o ← read e x [f32]; expect_eq o None) = true.
Proof. vm_compute. reflexivity. Qed.

(** components_tests.rs:77-85 *)
Example registry_get_component_ref_mut_is_none_if_entity_doesnt_alive :
  passes NEW (λ e, a ← archetype_of e [u64]; x ← create_entity_with_archetype (e_cfg e) a;
    _ ← destroy_entity (e_cfg e) x; o ← read e x [u64]; expect_eq o None) = true.
Proof. vm_compute. reflexivity. Qed.

(** components_tests.rs:88-125 *)
Example registry_destroy_component_after_internal_page_swap_remove_as_expected :
  passes NEW (λ e, a ← archetype_of e [TC1; TC2];
    xs ← for_map (count 4) (λ i,
      x ← create_entity_with_archetype (e_cfg e) a; _ ← assign e x [tc1 i; tc2 i]; mret x);
    x1 ← unwrap (xs !! 1%nat); x3 ← unwrap (xs !! 3%nat);
    _ ← destroy_entity (e_cfg e) x1;
    expect_comps e x3 [tc1 3; tc2 3]) = true.
Proof. vm_compute. reflexivity. Qed.

(** components_tests.rs:128-140 *)
Example add_components_to_empty_archetype_changes_it_respectively :
  passes NEW (λ e, x ← create_entity (e_cfg e); _ ← add e x [tc1 0; tc2 0];
    o ← ask (λ s, get_entity_archetype (e_cfg e) s x); a ← unwrap o;
    expect (is_include_only_ids (e_cfg e) a (e_t e <$> [TC1; TC2]))) = true.
Proof. vm_compute. reflexivity. Qed.

(** components_tests.rs:143-159 *)
Example add_components_values_as_expected :
  passes NEW (λ e, x ← create_entity (e_cfg e);
    _ ← add e x [(TC1, le 4 364)]; _ ← add e x [(TC2, le 8 31)];
    expect_comps e x [(TC1, le 4 364); (TC2, le 8 31)]) = true.
Proof. vm_compute. reflexivity. Qed.

(** components_tests.rs:162-182 *)
Example add_components_with_intersected_types_as_expected :
  passes NEW (λ e, x0 ← create_entity (e_cfg e); x1 ← create_entity (e_cfg e);
    _ ← add e x0 [tc1 1; (u64, le 8 15)]; _ ← add e x1 [tc2 15; tc1 2];
    _ ← expect_comps e x0 [tc1 1; (u64, le 8 15)]; expect_comps e x1 [tc2 15; tc1 2]) = true.
Proof. vm_compute. reflexivity. Qed.

(** components_tests.rs:185-212 *)
Example add_components_values_work_with_different_archetypes :
  passes NEW (λ e, x1 ← create_entity (e_cfg e); _ ← add e x1 [(TC1, le 4 364)];
    x2 ← create_entity (e_cfg e); _ ← add e x2 [(TC2, le 8 31)];
    o ← ask (λ s, get_entity_archetype (e_cfg e) s x1); a1 ← unwrap o;
    _ ← expect (is_include_only_ids (e_cfg e) a1 (e_t e <$> [TC1]));
    o ← ask (λ s, get_entity_archetype (e_cfg e) s x2); a2 ← unwrap o;
    _ ← expect (is_include_only_ids (e_cfg e) a2 (e_t e <$> [TC2]));
    _ ← expect_comps e x1 [(TC1, le 4 364)]; expect_comps e x2 [(TC2, le 8 31)]) = true.
Proof. vm_compute. reflexivity. Qed.

(** components_tests.rs:215-229 *)
Example remove_components_archetype_will_not_contain_erased_types :
  passes NEW (λ e, x ← create_entity (e_cfg e); _ ← add e x [tc1 0; tc2 0];
    _ ← remove_components (e_cfg e) x [e_t e TC2];
    o ← ask (λ s, get_entity_archetype (e_cfg e) s x); a ← unwrap o;
    b ← lift (is_exclude_ids (e_cfg e) a [e_t e TC2]); _ ← expect b;
    expect (is_include_ids (e_cfg e) a [e_t e TC1])) = true.
Proof. vm_compute. reflexivity. Qed.

(** components_tests.rs:232-243 *)
Example remove_components_archetype_values_as_expected :
  passes NEW (λ e, x ← create_entity (e_cfg e); _ ← add e x [tc1 0; tc2 33];
    _ ← remove_components (e_cfg e) x [e_t e TC1];
    expect_comps e x [tc2 33]) = true.
Proof. vm_compute. reflexivity. Qed.
