(** Entities.v — src/tests/entities_tests.rs on the model. *)
From Verif.Tests Require Import Harness.
Local Open Scope N_scope.

(** entities_tests.rs:184-186 create_archetype_stub *)
Definition stub (e : env) : M store archetype := archetype_of e [u32].
Definition create_with (e : env) (a : archetype) : M store entity := create_entity_with_archetype (e_cfg e) a.

(** entities_tests.rs:8-10 *)
Example create_not_panics : passes NEW (λ _, mret tt) = true.
Proof. vm_compute. reflexivity. Qed.

(** entities_tests.rs:13-23 *)
Example create_entity_with_archetype_returns_with_new_id_and_first_version :
  passes NEW (λ e, a ← stub e; e1 ← create_with e a; e2 ← create_with e a;
    _ ← expect_eq (e_id e1) 0; _ ← expect_eq (e_ver e1) 1; _ ← expect_eq (e_id e2) 1; expect_eq (e_ver e2) 1) = true.
Proof. vm_compute. reflexivity. Qed.

(** entities_tests.rs:26-36 *)
Example create_entity_with_archetype_oversized_will_increase_capacity :
  passes 1 (λ e, a ← stub e; _ ← create_with e a;
    n ← ask (λ s, POk (entities_capacity s)); _ ← expect_eq n 1;
    _ ← create_with e a;
    n ← ask (λ s, POk (entities_capacity s)); expect_ne n 1) = true.
Proof. vm_compute. reflexivity. Qed.

(** entities_tests.rs:39-44 *)
Example create_entity_entity_is_alive :
  passes NEW (λ e, x ← create_entity (e_cfg e); b ← alive e x; expect b) = true.
Proof. vm_compute. reflexivity. Qed.

(** entities_tests.rs:47-60: get_components_refs and get_components_refs_mut *)
Example create_entity_get_component_refs_is_none :
  passes NEW (λ e, x ← create_entity (e_cfg e); o ← read e x [u32]; expect_eq o None) = true.
Proof. vm_compute. reflexivity. Qed.

(** entities_tests.rs:63-68 *)
Example create_entity_archetype_will_be_empty :
  passes NEW (λ e, x ← create_entity (e_cfg e);
    o ← ask (λ s, get_entity_archetype (e_cfg e) s x); expect (match o with None => true | Some _ => false end)) = true.
Proof. vm_compute. reflexivity. Qed.

(** entities_tests.rs:73-82 *)
Example destroy_entity_when_already_destroyed_panics :
  debug_panics NEW (λ e, a ← stub e; e1 ← create_with e a;
    _ ← destroy_entity (e_cfg e) e1; _ ← create_with e a; destroy_entity (e_cfg e) e1) = true.
Proof. vm_compute. reflexivity. Qed.

(** entities_tests.rs:87-95: a handle of another store. The other store's first handle is id 0, version 1. *)
Example destroy_entity_with_invalid_id_should_panic :
  debug_panics 1 (λ e, destroy_entity (e_cfg e) (Entity 0 1)) = true.
Proof. vm_compute. reflexivity. Qed.
Example destroy_entity_with_invalid_id_other_store :
  passes 2 (λ e, a ← stub e; x ← create_with e a; expect_eq (e_id x, e_ver x) (0, 1)) = true.
Proof. vm_compute. reflexivity. Qed.

(** entities_tests.rs:98-108 *)
Example destroy_entity_will_increase_version_for_entity_with_same_id :
  passes NEW (λ e, a ← stub e; e1 ← create_with e a; _ ← destroy_entity (e_cfg e) e1; e11 ← create_with e a;
    _ ← expect_eq (e_id e1) (e_id e11); _ ← expect_eq (e_ver e11) 2; expect_ne (e_ver e1) (e_ver e11)) = true.
Proof. vm_compute. reflexivity. Qed.

(** entities_tests.rs:111-120 *)
Example is_alive_true_after_creation_false_after_destruction :
  passes NEW (λ e, a ← stub e; x ← create_with e a; b ← alive e x; _ ← expect b;
    _ ← destroy_entity (e_cfg e) x; b ← alive e x; expect (negb b)) = true.
Proof. vm_compute. reflexivity. Qed.

(** entities_tests.rs:123-136 *)
Example destroy_will_not_affect_other_entities :
  passes NEW (λ e, a ← stub e; x ← create_with e a; b ← alive e x; _ ← expect b;
    y ← create_with e a; b ← alive e x; _ ← expect b; b ← alive e y; _ ← expect b;
    _ ← destroy_entity (e_cfg e) x; b ← alive e x; _ ← expect (negb b); b ← alive e y; expect b) = true.
Proof. vm_compute. reflexivity. Qed.

(** entities_tests.rs:139-152 *)
Example increase_capacity_will_not_affect_other_entities :
  passes NEW (λ e, a ← stub e;
    xs ← create_many 33 (x ← create_with e a; b ← alive e x; _ ← expect b; mret x);
    for_each xs (λ x, b ← alive e x; expect b)) = true.
Proof. vm_compute. reflexivity. Qed.

(** entities_tests.rs:155-166 and 169-182 *)
Example get_entity_archetype_same_archetypes :
  passes NEW (λ e, a ← archetype_of e [u64; u32]; x0 ← create_with e a; x1 ← create_with e a;
    a0 ← ask (λ s, get_entity_archetype (e_cfg e) s x0); a0 ← unwrap a0;
    a1 ← ask (λ s, get_entity_archetype (e_cfg e) s x1); a1 ← unwrap a1;
    expect (is_same_as a0 a1)) = true.
Proof. vm_compute. reflexivity. Qed.
Example get_entity_archetype_different_archetypes :
  passes NEW (λ e, a ← archetype_of e [u64; u32]; b ← archetype_of e [u64];
    x0 ← create_with e a; x1 ← create_with e b;
    a0 ← ask (λ s, get_entity_archetype (e_cfg e) s x0); a0 ← unwrap a0;
    a1 ← ask (λ s, get_entity_archetype (e_cfg e) s x1); a1 ← unwrap a1;
    expect (negb (is_same_as a0 a1))) = true.
Proof. vm_compute. reflexivity. Qed.
