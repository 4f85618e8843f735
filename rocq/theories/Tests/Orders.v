(** Orders.v — src/tests/order_group_tests.rs and src/tests/tag_tests.rs on the model. TagA is TestGroup. *)
From Verif.Tests Require Import Harness.
Local Open Scope N_scope.

(** assert_eq! on the observers of the group *)
Definition first_is (e : env) (x : option entity) : M store unit :=
  o ← ask (λ s, first_ordered (e_cfg e) s (e_t e TagA)); expect_eq o x.
Definition last_is (e : env) (x : option entity) : M store unit :=
  o ← ask (λ s, last_ordered (e_cfg e) s (e_t e TagA)); expect_eq o x.
Definition next_is (e : env) (y : entity) (x : option entity) : M store unit :=
  o ← ask (λ s, next_ordered (e_cfg e) s (e_t e TagA) y); expect_eq o x.
Definition prev_is (e : env) (y : entity) (x : option entity) : M store unit :=
  o ← ask (λ s, previous_ordered (e_cfg e) s (e_t e TagA) y); expect_eq o x.
Definition order_by (e : env) (x : entity) : M store unit := add_order (e_cfg e) (e_t e TagA) x.
Definition next_to (e : env) (x to : entity) : M store unit := add_order_next (e_cfg e) (e_t e TagA) x to.
Definition prev_to (e : env) (x to : entity) : M store unit := add_order_prev (e_cfg e) (e_t e TagA) x to.
Definition unorder (e : env) (x : entity) : M store unit := remove_order (e_cfg e) (e_t e TagA) x.
Definition new (e : env) : M store entity := create_entity (e_cfg e).
(** neither neighbour *)
Definition isolated (e : env) (x : entity) : M store unit := _ ← prev_is e x None; next_is e x None.
(** order_group_tests.rs:64-75, 318-343: the group lists exactly these entities *)
Fixpoint chain (e : env) (prev : option entity) (xs : list entity) : M store unit :=
  match xs with
  | [] => mret tt
  | x :: r => _ ← prev_is e x prev; _ ← next_is e x (head r); chain e (Some x) r
  end.
Definition lists (e : env) (xs : list entity) : M store unit :=
  _ ← first_is e (head xs); _ ← last_is e (last xs); chain e None xs.

(** order_group_tests.rs:9-14 *)
Example get_first_or_last_entity_ordered_by_returns_none_when_no_order_group :
  passes NEW (λ e, _ ← first_is e None; last_is e None) = true.
Proof. vm_compute. reflexivity. Qed.

(** order_group_tests.rs:17-36 *)
Example add_entity_order_by_after_first_call_as_expected :
  passes NEW (λ e, x ← new e; _ ← order_by e x; lists e [x]) = true.
Proof. vm_compute. reflexivity. Qed.

(** order_group_tests.rs:39-48 and 51-61 *)
Example add_entity_order_by_multiple_times_order_as_expected :
  passes NEW (λ e, e0 ← new e; e1 ← new e; _ ← order_by e e0; _ ← order_by e e1; lists e [e0; e1]) = true.
Proof. vm_compute. reflexivity. Qed.
Example add_entity_order_by_multiple_times_after_resizing_order_as_expected :
  passes 1 (λ e, e0 ← new e; e1 ← new e; _ ← order_by e e0; _ ← order_by e e1; lists e [e0; e1]) = true.
Proof. vm_compute. reflexivity. Qed.

(** order_group_tests.rs:78-85 *)
Example remove_entity_order_by_from_when_no_group_do_nothing :
  passes NEW (λ e, e0 ← new e; _ ← unorder e e0; b ← alive e e0; expect b) = true.
Proof. vm_compute. reflexivity. Qed.

(** order_group_tests.rs:88-102 *)
Example remove_entity_order_by_after_first_add_as_expected :
  passes NEW (λ e, x ← new e; _ ← order_by e x; _ ← unorder e x; _ ← lists e []; isolated e x) = true.
Proof. vm_compute. reflexivity. Qed.

(** order_group_tests.rs:105-160 *)
Example remove_entity_order_by_multiple_times_as_expected :
  passes 3 (λ e, e0 ← new e; e1 ← new e; e2 ← new e;
    _ ← order_by e e0; _ ← order_by e e1; _ ← order_by e e2;
    _ ← unorder e e1; _ ← isolated e e1; _ ← lists e [e0; e2];
    _ ← unorder e e0; _ ← isolated e e0; _ ← isolated e e1; _ ← lists e [e2];
    _ ← unorder e e2; _ ← isolated e e0; _ ← isolated e e1; _ ← isolated e e2; lists e []) = true.
Proof. vm_compute. reflexivity. Qed.

(** order_group_tests.rs:163-181 *)
Example after_entity_destroy_order_is_removed_too :
  passes NEW (λ e, e0 ← new e; e1 ← new e; e2 ← new e;
    _ ← order_by e e0; _ ← order_by e e1; _ ← order_by e e2;
    _ ← destroy_entity (e_cfg e) e1; _ ← next_is e e0 (Some e2); prev_is e e2 (Some e0)) = true.
Proof. vm_compute. reflexivity. Qed.

(** order_group_tests.rs:186-197 *)
Example add_entity_order_by_panics_on_circular_references :
  debug_panics NEW (λ e, e0 ← new e; e1 ← new e; e2 ← new e;
    _ ← order_by e e0; _ ← order_by e e1; _ ← order_by e e2; order_by e e1) = true.
Proof. vm_compute. reflexivity. Qed.

(** order_group_tests.rs:200-220 *)
Example add_entity_next_to_order_after_single_call_expected :
  passes NEW (λ e, e0 ← new e; e1 ← new e; _ ← order_by e e0; _ ← next_to e e1 e0; lists e [e0; e1]) = true.
Proof. vm_compute. reflexivity. Qed.

(** order_group_tests.rs:223-235 and 238-251 *)
Example add_entity_next_to_order_after_sequential_multiple_times_as_expected :
  passes NEW (λ e, e0 ← new e; e1 ← new e; e2 ← new e;
    _ ← order_by e e0; _ ← next_to e e1 e0; _ ← next_to e e2 e1; lists e [e0; e1; e2]) = true.
Proof. vm_compute. reflexivity. Qed.
Example add_entity_next_to_order_after_unsequential_multiple_time_as_expected :
  passes NEW (λ e, e0 ← new e; e1 ← new e; e2 ← new e;
    _ ← order_by e e0; _ ← next_to e e1 e0; _ ← next_to e e2 e0; lists e [e0; e2; e1]) = true.
Proof. vm_compute. reflexivity. Qed.

(** order_group_tests.rs:256-267 *)
Example add_entity_next_to_order_panics_on_circular_reference :
  debug_panics NEW (λ e, e0 ← new e; e1 ← new e; e2 ← new e;
    _ ← order_by e e0; _ ← next_to e e1 e0; _ ← next_to e e2 e1; next_to e e2 e0) = true.
Proof. vm_compute. reflexivity. Qed.

(** order_group_tests.rs:270-287, 290-302 and 305-317 *)
Example add_entity_previous_to_order_after_first_add_as_expected :
  passes NEW (λ e, e0 ← new e; e1 ← new e; _ ← order_by e e1; _ ← prev_to e e0 e1; lists e [e0; e1]) = true.
Proof. vm_compute. reflexivity. Qed.
Example add_entity_previous_to_order_after_sequential_multiple_calls_as_expected :
  passes NEW (λ e, e0 ← new e; e1 ← new e; e2 ← new e;
    _ ← order_by e e2; _ ← prev_to e e1 e2; _ ← prev_to e e0 e1; lists e [e0; e1; e2]) = true.
Proof. vm_compute. reflexivity. Qed.
Example add_entity_previous_to_order_after_unsequential_multiple_calls_as_expected :
  passes NEW (λ e, e0 ← new e; e1 ← new e; e2 ← new e;
    _ ← order_by e e1; _ ← prev_to e e2 e1; _ ← prev_to e e0 e2; lists e [e0; e2; e1]) = true.
Proof. vm_compute. reflexivity. Qed.

(** tag_tests.rs:12-23 *)
Definition tagged (e : env) (t : N) (x : entity) (b : bool) : M store unit :=
  r ← ask (λ s, has_tag (e_cfg e) s (e_t e t) x); expect_eq r b.
Example add_remove_tag_as_expected :
  passes NEW (λ e, x ← new e; _ ← add_tag (e_cfg e) (e_t e TagA) x; _ ← tagged e TagA x true;
    _ ← remove_tag (e_cfg e) (e_t e TagA) x; tagged e TagA x false) = true.
Proof. vm_compute. reflexivity. Qed.

(** tag_tests.rs:26-44 *)
Example add_one_tag_doesnt_affect_on_other :
  passes NEW (λ e, x ← new e;
    _ ← add_tag (e_cfg e) (e_t e TagA) x; _ ← add_tag (e_cfg e) (e_t e TagB) x;
    _ ← tagged e TagA x true; _ ← tagged e TagB x true;
    _ ← remove_tag (e_cfg e) (e_t e TagB) x; _ ← tagged e TagA x true; _ ← tagged e TagB x false;
    _ ← remove_tag (e_cfg e) (e_t e TagA) x; _ ← tagged e TagA x false; tagged e TagB x false) = true.
Proof. vm_compute. reflexivity. Qed.
