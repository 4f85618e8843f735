(** Archetypes.v — src/tests/archetype_tests.rs and src/tests/resources_store.rs on the model. *)
From Verif.Tests Require Import Harness.
Local Open Scope N_scope.

(** ArchetypeBuilder::new().include…().build() for a list of includes; each include is a list of component types *)
Definition built (xs : list (list ctype)) : M store archetype :=
  match bld_build (foldl bld_include bld_new xs) with
  | ROk _ a => mret a
  | RPanic _ => panic
  | RUB w => λ _, RUB w
  end.
Definition comps (e : env) (T : list N) : list ctype := ctype_of (e_cfg e) <$> (e_t e <$> T).

(** archetype_tests.rs:21-28 *)
Example archetype_has_component_when_it_build_with_it :
  passes NEW (λ e, a ← archetype_of e [TT1; TT3];
    _ ← expect_eq (length a) 2%nat;
    _ ← expect (has_component (e_cfg e) a (e_t e TT1));
    _ ← expect (negb (has_component (e_cfg e) a (e_t e TT2)));
    expect (has_component (e_cfg e) a (e_t e TT3))) = true.
Proof. vm_compute. reflexivity. Qed.

(** archetype_tests.rs:31-41; clone copies the archetype *)
Example archetype_is_same_as_true_only_with_same_set_of_types :
  passes NEW (λ e, a1 ← archetype_of e [TT1; TT2];
    let a2 := a1 in
    _ ← expect (is_same_as a1 a2);
    a3 ← archetype_of e [TT1; TT3];
    expect (negb (is_same_as a1 a3))) = true.
Proof. vm_compute. reflexivity. Qed.

(** archetype_tests.rs:44-57 *)
Example archetype_include_as_expected :
  passes NEW (λ e, x ← archetype_of e [TT3; u64];
    a ← built [comps e [TT1; TT2]; x];
    _ ← expect (is_include (e_cfg e) a x);
    y ← archetype_of e [f32];
    expect (negb (is_include (e_cfg e) a y))) = true.
Proof. vm_compute. reflexivity. Qed.

(** archetype_tests.rs:60-83 *)
Example archetype_exclude_as_expected :
  passes NEW (λ e, a ← archetype_of e [TT1; u64]; x ← archetype_of e [TT2; TT3];
    b ← lift (is_exclude (e_cfg e) a x); _ ← expect b;
    y ← built [x; comps e [u64]];
    b ← lift (is_exclude (e_cfg e) a y); _ ← expect (negb b);
    y ← built [x; comps e [TT1]];
    b ← lift (is_exclude (e_cfg e) a y); _ ← expect (negb b);
    y ← built [a];
    b ← lift (is_exclude (e_cfg e) a y); expect (negb b)) = true.
Proof. vm_compute. reflexivity. Qed.

(** archetype_tests.rs:135-150 assert_has_type_index, assert_union_len *)
Definition has_type_index (e : env) (a : archetype) (t : N) (is : list nat) : bool :=
  match find_component_index (e_cfg e) a (e_t e t) with Some i => bool_decide (i ∈ is) | None => false end.
Definition check_union (e : env) (T0 T1 common : list N) : M store unit :=
  a0 ← archetype_of e T0; a1 ← archetype_of e T1;
  let u := arch_union a0 a1 in
  _ ← expect_eq (length u.1) (length common); _ ← expect_eq (length u.2) (length common);
  for_each common (λ t, _ ← expect (has_type_index e a0 t u.1); expect (has_type_index e a1 t u.2)).
(** archetype_tests.rs:86-133 *)
Example archetype_union_as_expected :
  passes NEW (λ e,
    _ ← check_union e [TT2] [TT1; TT2] [TT2];
    _ ← check_union e [TT1; TT2] [TT2] [TT2];
    _ ← check_union e [TT1; TT2] [TT3] [];
    check_union e [TT1; TT2; TT3] [TT1; TT3] [TT1; TT3]) = true.
Proof. vm_compute. reflexivity. Qed.

(** ** resources_store.rs. A value is a list of bytes (a String) or [tt] (a DropCounter). The values dropped are those
    release returned and those the drop of the store went through. *)
Definition rs_test {T} (s0 : @rs T) (m : mode → M (@rs T) unit) : bool :=
  forallb (λ md, returns (m md s0)) [Debug; Release].
Definition EXPECTED_STRING : list N := [83; 116; 114; 105; 110; 103].
Definition NEW_STRING : list N := [78; 101; 119].

(** resources_store.rs:31-37 *)
Example resources_store_index_as_expected :
  rs_test rs_new (λ md, e ← rs_create md EXPECTED_STRING; s ← getS; v ← lift (rs_index md s e);
    expect_eq v EXPECTED_STRING) = true.
Proof. vm_compute. reflexivity. Qed.

(** resources_store.rs:40-50 *)
Example resources_store_index_mut_as_expected :
  rs_test rs_new (λ md, e ← rs_create md EXPECTED_STRING; _ ← rs_assign md e NEW_STRING;
    s ← getS; v ← lift (rs_index md s e); expect_eq v NEW_STRING) = true.
Proof. vm_compute. reflexivity. Qed.

(** resources_store.rs:53-63: the store is still alive at the assertion, so only the released value was dropped;
    dropping the store afterwards drops nothing more *)
Example resources_store_release_drops_resource :
  rs_test rs_new (λ md, e ← rs_create md tt; v ← rs_release md e; _ ← expect_eq v tt;
    s ← getS; vs ← lift (rs_drop s); expect_eq (length vs) 0%nat) = true.
Proof. vm_compute. reflexivity. Qed.

(** resources_store.rs:66-75 *)
Example resources_store_drops_as_expected :
  rs_test rs_new (λ md, _ ← rs_create md tt; s ← getS; vs ← lift (rs_drop s); expect_eq (length vs) 1%nat) = true.
Proof. vm_compute. reflexivity. Qed.

(** resources_store.rs:78-91 *)
Example resources_store_drops_many_times_as_expected :
  rs_test (rs_with_capacity 100) (λ md, _ ← for_each (seq 0 100) (λ _, _ ← rs_create md tt; mret tt);
    s ← getS; vs ← lift (rs_drop s); expect_eq (length vs) 100%nat) = true.
Proof. vm_compute. reflexivity. Qed.
