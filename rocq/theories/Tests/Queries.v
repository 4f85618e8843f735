(** Queries.v — src/tests/component_query_test.rs, entity_component_query_test.rs and ordered_component_query_tests.rs
    on the model. *)
From Verif.Tests Require Import Harness.
Local Open Scope N_scope.

Definition count (a n : nat) : list N := N.of_nat <$> seq a n.
Definition create_with (e : env) (a : archetype) : M store entity := create_entity_with_archetype (e_cfg e) a.
Definition reads (e : env) (T : list N) : access := Access (e_t e <$> T) [].
Definition writes (e : env) (T : list N) : access := Access [] (e_t e <$> T).
(** The values behind the references of the items. *)
Definition values (s : store) (its : list (entity * list cref)) : list (entity * list (list cell)) :=
  (λ x : entity * list cref, (x.1, read_ref (ac_pages (st_ac s)) <$> x.2)) <$> its.
(** store.component_query_iter(q): its length and its items with entities *)
Definition comp_query (e : env) (q : access) : M store (nat * list (entity * list cref)) :=
  s ← getS; it ← lift (component_query (e_cfg e) q s);
  xs ← lift (collect 200 (qiter_next_with (ec_ver (st_ec s))) it);
  mret (qiter_len it, xs).

(** component_query_test.rs:22-74; expected_data as (Position, Rotation) *)
Definition expected_data : list (list (list N)) :=
  [[le 4 10 ++ le 4 20; le 8 90]; [le 4 0 ++ le 4 20; le 8 180]].
Example write_and_read_query_test :
  passes NEW (λ e,
    a0 ← archetype_of e [Position; Rotation]; a1 ← archetype_of e [Position; Rotation; u64];
    _ ← create_with e a0; _ ← create_with e a1;
    q ← comp_query e (writes e [Position; Rotation]);
    _ ← for_each (zip q.2 expected_data) (λ '((_, refs), vals),
      s ← getS; putS (st_set_ac (ac_set_pages (assign_to_refs (ac_pages (st_ac s)) refs vals) (st_ac s)) s));
    _ ← expect_eq (length q.2) (length expected_data);
    other ← archetype_of e [f32; u64];
    _ ← create_with e other; _ ← create_with e other;
    r ← comp_query e (reads e [Position; Rotation]);
    _ ← expect_eq r.1 (length expected_data);
    s ← getS;
    _ ← for_each (values s r.2) (λ '(x, vals),
      i ← unwrap (fst <$> list_find (λ y, y = x) q.2.*1);
      exp ← unwrap (expected_data !! (i : nat));
      expect_eq vals (cells <$> exp));
    expect_eq (length r.2) (length expected_data)) = true.
Proof. vm_compute. reflexivity. Qed.

(** component_query_test.rs:77-113 *)
Example query_will_not_iterate_destroyed_entities :
  passes NEW (λ e, a ← archetype_of e [usize];
    xs ← for_map (count 0 10) (λ i,
      x ← create_with e a; _ ← assign e x [(usize, le 8 i)];
      if bool_decide (i ∈ [0; 5; 9]) then _ ← destroy_entity (e_cfg e) x; mret [] else mret [x]);
    q ← comp_query e (reads e [usize]);
    _ ← expect_eq q.1 (length (mjoin xs));
    s ← getS;
    _ ← for_each (values s q.2) (λ '(_, v), expect (bool_decide (v ∉ (λ i, [cells (le 8 i)]) <$> [0; 5; 9])));
    expect (forallb (λ x, bool_decide (x ∈ q.2.*1)) (mjoin xs))) = true.
Proof. vm_compute. reflexivity. Qed.

(** store.entity_component_query_iter(xs, q).with_entities(), with the values *)
Definition ent_query (e : env) (q : access) (xs : list entity) : M store (list (entity * list (list cell))) :=
  s ← getS; it ← lift (entity_query (e_cfg e) q s xs);
  r ← lift (collect 200 eiter_next_with it);
  mret (values s r).

(** entity_component_query_test.rs:19-80; x and y in declaration order, which rustc is free to change *)
Definition xy (e : env) (i : N) : list N :=
  le 4 i ++ le (N.to_nat (ti_size (c_ty (e_cfg e) (e_t e XY))) - 4) (i * 2).
Example entity_component_query_iter_will_not_iterate_over_invalid_entities :
  passes NEW (λ e,
    va ← archetype_of e [XY; TC2]; ia ← archetype_of e [usize];
    let create i := x ← create_with e va;
      _ ← assign e x [(XY, xy e i); (TC2, le 8 (i * 3))];
      mret (x, [cells (xy e i); cells (le 8 (i * 3))]) in
    v1 ← for_map (count 0 7) create;
    inv ← create_many 8 (create_with e ia);
    v2 ← for_map (count 15 6) create;
    its ← ent_query e (reads e [XY; TC2]) ((v1 ++ v2).*1 ++ inv);
    expect_eq its (v1 ++ v2)) = true.
Proof. vm_compute. reflexivity. Qed.

(** entity_component_query_test.rs:128-132: the swaps of the shuffle *)
Definition swap {A} (l : list A) (x y : nat) : list A :=
  match l !! x, l !! y with Some a, Some b => <[y := a]> (<[x := b]> l) | _, _ => l end.
Definition shuffle {A} (l : list A) : list A :=
  foldl (λ l i, if Nat.eqb (i mod 3) 0 then swap l i ((i * 17) mod length l) else l) l (seq 0 (length l - 1)).
(** entity_component_query_test.rs:83-150 *)
Example entity_component_query_iter_order_as_expected :
  forallb (λ e, returns (run_test NEW (λ e,
    a1 ← archetype_of e [XY; TC2]; a2 ← archetype_of e [TC2];
    let create a := x ← create_with e a; _ ← assign e x [(TC2, le 8 (e_id x))];
      mret (x, [cells (le 8 (e_id x))]) in
    l1 ← for_map (seq 0 51) (λ _, create a1);
    l2 ← for_map (seq 0 48) (λ _, create a2);
    let all := l1 ++ l2 in
    _ ← expect_eq (length all) 99%nat;
    let remove m i := l ← m; x ← unwrap (l !! i); _ ← destroy_entity (e_cfg e) x.1; mret (delete i l) in
    l ← foldl remove (mret all) [0; 97; 32; 72]%nat;
    let l := shuffle l in
    its ← ent_query e (reads e [TC2]) l.*1;
    expect_eq its l) e)) few_envs = true.
Proof. vm_compute. reflexivity. Qed.

(** ** ordered_component_query_tests.rs; TagA is TestGroup *)
Definition ord_query (e : env) (T : list N) : M store oiter :=
  ask_fuel (λ s, ordered_query 100 (e_cfg e) (reads e T) s (e_t e TagA)).
Definition ord_values (it : oiter) : M store (list (list (list cell))) :=
  s ← getS; xs ← lift (collect 100 oiter_next it);
  mret ((λ x : list cref, read_ref (ac_pages (st_ac s)) <$> x) <$> xs).
(** ordered_component_query_tests.rs:89-109 create_test_comp1, create_test_comp2 *)
Definition create_comp (e : env) (t : N) (n : nat) (i : N) : M store (entity * list (list cell)) :=
  x ← create_entity (e_cfg e); _ ← add_order (e_cfg e) (e_t e TagA) x; _ ← add e x [(t, le n i)];
  mret (x, [cells (le n i)]).

(** ordered_component_query_tests.rs:19-24 *)
Example empty_query_will_not_iterate :
  passes NEW (λ e, it ← ord_query e [TC1]; xs ← ord_values it; expect_eq (length xs) 0%nat) = true.
Proof. vm_compute. reflexivity. Qed.

(** ordered_component_query_tests.rs:27-55 *)
Example query_will_iterate_with_expected_components_order :
  passes NEW (λ e, l ← for_map (count 0 10) (create_comp e TC1 4);
    let remove m i := l ← m; x ← unwrap (l !! i); _ ← destroy_entity (e_cfg e) x.1; mret (delete i l) in
    l ← foldl remove (mret l) [0; 2; 7]%nat;
    it ← ord_query e [TC1]; _ ← expect_eq (oiter_len it) (length l);
    vs ← ord_values it; expect_eq vs l.*2) = true.
Proof. vm_compute. reflexivity. Qed.

(** ordered_component_query_tests.rs:58-87 *)
Example queries_with_different_components_set_will_filter_entities_not_existed_in_iterated_archetype :
  passes NEW (λ e, a ← for_map (count 0 2) (create_comp e TC1 4); b ← for_map (count 0 3) (create_comp e TC2 8);
    a' ← for_map (count 1 3) (create_comp e TC1 4); b' ← for_map (count 2 5) (create_comp e TC2 8);
    it ← ord_query e [TC1]; vs ← ord_values it; _ ← expect_eq vs (a ++ a').*2;
    it ← ord_query e [TC2]; vs ← ord_values it; expect_eq vs (b ++ b').*2) = true.
Proof. vm_compute. reflexivity. Qed.

(** ordered_component_query_tests.rs:114-137 *)
Example with_entities_iter_as_expected :
  passes NEW (λ e, l ← for_map (count 0 5) (create_comp e TC1 4);
    it ← ord_query e [TC1]; s ← getS;
    xs ← lift (collect 100 (oiter_next_with (ec_ver (st_ec s))) it);
    expect_eq (values s xs) l) = true.
Proof. vm_compute. reflexivity. Qed.
