(** Harness.v — running the repository's own unit tests (src/tests/*.rs) on the model.

    A test is a computation over the model's state. [assert!] is [expect]. A test passes when the computation returns,
    and a #[should_panic] test passes when it panics. Both outcomes exclude undefined behaviour.
    Every test is evaluated in all environments of [envs]: both build profiles, both binary searches of the standard
    library, several orders of the TypeIds (which rustc chooses freely) and both alignments of u128 (8 before Rust 1.77,
    16 since then).
    Simplification: a floating point value is written as the bytes of the integer it came from. Tests only copy and
    compare such values. Padding bytes are written as 0. *)
From Verif.Model Require Export Run Query Resource BinarySearch.
Local Open Scope N_scope.

(** The types the tests use, by number: (name, size, alignment); [u] is the alignment of u128. *)
Definition f32 : N := 1.
Definition u64 : N := 2.
Definition u128 : N := 3.
Definition u32 : N := 4.
Definition usize : N := 5.
Definition TC1 : N := 10.        (* TestComponent1 of components_tests.rs and of ordered_component_query_tests.rs *)
Definition TC2 : N := 11.        (* TestComponent2 of the same files, and of entity_component_query_test.rs *)
Definition TT1 : N := 12.        (* TestType1..3 of archetype_tests.rs *)
Definition TT2 : N := 13.
Definition TT3 : N := 14.
Definition Position : N := 15.   (* component_query_test.rs *)
Definition Rotation : N := 16.
Definition XY : N := 17.         (* TestComponent1 { x: f32, y: u128 } of entity_component_query_test.rs *)
Definition TagA : N := 18.
Definition TagB : N := 19.
Definition types (u : N) : list (N * (N * N)) :=
  [(f32, (4, 4)); (u64, (8, 8)); (u128, (16, u)); (u32, (4, 4)); (usize, (8, 8)); (TC1, (4, 4)); (TC2, (8, 8));
   (TT1, (4, 4)); (TT2, (4, 4)); (TT3, (4, 4)); (Position, (8, 4)); (Rotation, (8, 8));
   (XY, (if u =? 16 then 32 else 24, u)); (TagA, (0, 1)); (TagB, (0, 1))].

(** An environment: configuration of the model, and the TypeId of each type. *)
Record env := Env { e_cfg : cfg; e_t : N → tid }.
(** Multiplying by k modulo a prime permutes the types. *)
Definition rename (k t : N) : N := (t * k) mod 101.
Definition ty_of (k u : N) (t : tid) : tyinfo :=
  match filter (λ x, rename k x.1 = t) (types u) with
  | x :: _ => TyInfo x.2.1 x.2.2
  | [] => TyInfo 4 4
  end.
Definition mk_env (md : mode) (bs : list N → N → bsres) (k u : N) : env :=
  Env (Cfg md (ty_of k u) bs rawvec_grow) (rename k).
Definition envs_of (md : mode) : list env :=
  bs ← [bs_old; bs_new]; k ← [1; 100; 7; 31; 45; 60]; u ← [8; 16]; [mk_env md bs k u].
Definition envs : list env := envs_of Debug ++ envs_of Release.
(** A smaller selection for the tests with many entities. *)
Definition few_envs : list env :=
  md ← [Debug; Release]; k ← [1; 100]; [mk_env md bs_old k 16].

(** Tests over the store. *)
Definition test : Type := env → M store unit.
Definition expect {S} (b : bool) : M S unit := if b then mret tt else panic.
Definition expect_eq {S A} `{EqDecision A} (a b : A) : M S unit := expect (bool_decide (a = b)).
Definition expect_ne {S A} `{EqDecision A} (a b : A) : M S unit := expect (negb (bool_decide (a = b))).
(** Store::with_capacity, then the test. *)
Definition run_test (cap : N) (t : test) (e : env) : res store unit :=
  match store_with_capacity (c_mode (e_cfg e)) cap with
  | POk s => t e s
  | PPanic => RPanic (Store (ec_new 0) ac_new (tags_new 0) (orders_new 0) [] [] [])
  | PUB w => RUB w
  end.
Definition returns {S A} (r : res S A) : bool := match r with ROk _ _ => true | _ => false end.
Definition panics {S A} (r : res S A) : bool := match r with RPanic _ => true | _ => false end.
Definition passes (cap : N) (t : test) : bool := forallb (λ e, returns (run_test cap t e)) envs.
(** #[should_panic] #[cfg(debug_assertions)] *)
Definition debug_panics (cap : N) (t : test) : bool := forallb (λ e, panics (run_test cap t e)) (envs_of Debug).

(** A read of the store. *)
Definition ask {A} (f : store → pres A) : M store A := s ← getS; lift (f s).
(** Option::unwrap *)
Definition unwrap {S A} (o : option A) : M S A := match o with Some a => mret a | None => panic end.
(** An ordered query is computed with a bound on its loops. *)
Definition ask_fuel {A} (f : store → option (pres A)) : M store A :=
  s ← getS; match f s with Some p => lift p | None => panic end.

(** [n] bytes of v, little endian. *)
Fixpoint le (n : nat) (v : N) : list N :=
  match n with O => [] | S n => v mod 256 :: le n (v / 256) end.
Definition cells (l : list N) : list cell := Some <$> l.

(** Store::new: capacity 10 (store.rs:29-31). *)
Definition NEW : N := 10.
Definition archetype_of (e : env) (T : list N) : M store archetype := lift (with_components (e_cfg e) (e_t e <$> T)).
(** get_components_refs_mut::<T>(x).unwrap(), then an assignment to the references *)
Definition assign (e : env) (x : entity) (vals : list (N * list N)) : M store unit :=
  o ← ask (λ s, get_components_refs (e_cfg e) s x (e_t e <$> vals.*1));
  _ ← unwrap o;
  set_components (e_cfg e) x (prod_map (e_t e) id <$> vals).
Definition add (e : env) (x : entity) (vals : list (N * list N)) : M store unit :=
  add_components (e_cfg e) x (prod_map (e_t e) id <$> vals).
Definition read (e : env) (x : entity) (T : list N) : M store (option (list (list cell))) :=
  ask (λ s, read_components (e_cfg e) s x (e_t e <$> T)).
(** [assert_eq!(store.get_components_refs::<T>(x).unwrap(), vals)] *)
Definition expect_comps (e : env) (x : entity) (vals : list (N * list N)) : M store unit :=
  o ← read e x vals.*1; expect_eq o (Some (cells <$> vals.*2)).
Definition alive (e : env) (x : entity) : M store bool := ask (λ s, is_alive (e_cfg e) s x).
Definition create_many (n : nat) (m : M store entity) : M store (list entity) :=
  Nat.iter n (λ k, xs ← k; x ← m; mret (xs ++ [x])) (mret []).
(** [for x in l { f x }] *)
Fixpoint for_each {S A} (l : list A) (f : A → M S unit) : M S unit :=
  match l with [] => mret tt | x :: r => _ ← f x; for_each r f end.
Fixpoint for_map {S A B} (l : list A) (f : A → M S B) : M S (list B) :=
  match l with [] => mret [] | x :: r => y ← f x; ys ← for_map r f; mret (y :: ys) end.
(** All items of an iterator that ends within [k] calls of next. *)
Fixpoint collect {I X} (k : nat) (next : I → pres (option X * I)) (it : I) : pres (list X) :=
  match k with
  | O => PPanic
  | S k =>
    r ← next it;
    match r.1 with None => mret [] | Some x => xs ← collect k next r.2; mret (x :: xs) end
  end.

(** Controls: there are 48 environments; a failing assertion, a panic and an unexpected value are noticed. *)
Example envs_count : length envs = 48%nat.
Proof. vm_compute. reflexivity. Qed.
Example failing_test_noticed : passes NEW (λ _, expect false) = false.
Proof. vm_compute. reflexivity. Qed.
Example wrong_version_noticed :
  passes NEW (λ e, x ← create_entity (e_cfg e); expect_eq (e_ver x) 2) = false.
Proof. vm_compute. reflexivity. Qed.
Example returning_test_does_not_panic : debug_panics NEW (λ e, x ← create_entity (e_cfg e); mret tt) = false.
Proof. vm_compute. reflexivity. Qed.
