(** Properties/Clients.v — what the programs in examples/ see. *)
From Verif.Spec Require Import Clients.
From Verif.Model Require Import Examples.
From Verif.Proofs Require Import ClientP.
Local Open Scope N_scope.

(** C65: examples/query_bench.rs, in both builds and for components of any types of which a page holds some rows, and for
    which a page gets room for as many rows as it may hold ([page_holds], as in C16). Filling the store returns. Both loops
    see the components of exactly the marked entities, in the order of their creation, with the values given; the entities
    that the second loop gets besides may be wrong (C38), but the program does not look at them. The stack of the tag filter
    must have room for stretches of unmarked entities ([depth]; 2 in the program), and [fuel] bounds the length of the order
    group in the model. *)
Theorem C65_query_bench : ∀ c, cfg_ok c → ∀ cap T, NoDup T → T ≠ [] →
  fits_types (in_mode Debug c) (list_to_set T) → (∀ K, page_holds (in_mode Debug c) (list_to_set T) K → c_grow c 0 K = K) →
  ∀ tag items depth fuel, 0 < cap → (∀ v b, (v, b) ∈ items → of_type c T v) → N.of_nat (length items) < 2 ^ 32 →
  (∃ v, (v, true) ∈ items) → none_skipped snd depth items → (length items < fuel)%nat →
  ∃ s0 s bv it l it' oit l' oit', store_with_capacity (c_mode c) cap = POk s0 ∧ bench_fill c tag items s0 = ROk s tt ∧
    filter_tag c s tag = POk bv ∧ component_query c (Access T []) s = POk it ∧ yields (filtering depth s bv) it l it' ∧
    ordered_query fuel c (Access T []) s tag = Some (POk oit) ∧ yields (oiter_next_with (ec_ver (st_ec s))) oit l' oit' ∧
    seen s <$> l.*2 = bytes <$> (List.filter snd items).*1 ∧ seen s <$> l'.*2 = bytes <$> (List.filter snd items).*1.
Proof. exact query_bench_ok. Qed.
Print Assumptions C65_query_bench.
(** Components of 5000 bytes, three in a page; all but the first entity are marked. The first byte of each component tells
    which it is. The second loop gets the wrong entity twice. *)
Example C65_example :
  let c := Cfg Release ex_ty bs_old (λ _ n, n) in
  let items := (λ n, ([(5, replicate (Pos.to_nat 5000) (N.of_nat n))], bool_decide (n ≠ 0%nat))) <$> seq 0 7 in
  let show (l : list (entity * list cref)) s := (λ x : entity * list cref, (e_id x.1, x.2 ≫= λ r, take 1 (read_ref (ac_pages (st_ac s)) r))) <$> l in
  cfg_ok c ∧ fits_types (in_mode Debug c) {[5]} ∧ (∀ v b, (v, b) ∈ items → of_type c [5] v) ∧ none_skipped snd 2 items ∧
  match (s0 ← store_with_capacity (c_mode c) 4; match bench_fill c 9 items s0 with ROk s _ => POk s | _ => PPanic end) with
  | POk s =>
    (bv ← filter_tag c s 9; it ← component_query c (Access [5] []) s; l ← drain 9 (filtering 2 s bv) it; mret (show l s) : pres _)
      = POk ((λ n, (n, [Some n])) <$> [1; 2; 3; 4; 5; 6]) ∧
    (it ← default PPanic (ordered_query 9 c (Access [5] []) s 9); l ← drain 9 (oiter_next_with (ec_ver (st_ec s))) it; mret (show l s) : pres _)
      = POk [(1, [Some 1]); (2, [Some 2]); (0, [Some 3]); (1, [Some 4]); (5, [Some 5]); (6, [Some 6])]
  | _ => False
  end.
Proof.
  intros c items show. split_and!.
  - split; [apply bs_old_ok|by intros old n|apply (ex_cfg_ok Debug)].
  - apply fits_typesb_ok. vm_compute. reflexivity.
  - intros v b (n & [= -> _] & _)%elem_of_list_fmap. split; [done|]. intros t w [= -> ->]%elem_of_list_singleton. vm_compute; reflexivity.
  - intros l1 [|x [|y [|z l2]]] l3 Heq Hlen; try done. exists y. split; [right; by left|].
    assert (items !! S (length l1) = Some y) as Hy. { rewrite Heq, lookup_app_r by lia. by replace (S (length l1) - length l1)%nat with 1%nat by lia. }
    unfold items in Hy. rewrite list_lookup_fmap in Hy. apply fmap_Some in Hy as (n & [-> _]%lookup_seq & ->). done.
  - vm_compute. split; reflexivity.
Qed.

(** C66: examples/cache_test.rs: populating the store with any data returns, and the query sees all of the data in order, with
    distinct entities. *)
Theorem C66_cache_test : ∀ c, cfg_ok c → ∀ cap T, NoDup T → T ≠ [] →
  fits_types (in_mode Debug c) (list_to_set T) → (∀ K, page_holds (in_mode Debug c) (list_to_set T) K → c_grow c 0 K = K) →
  ∀ data, 0 < cap → (∀ v, v ∈ data → of_type c T v) → N.of_nat (length data) < 2 ^ 32 →
  ∃ s0 s it l it1 it2, store_with_capacity (c_mode c) cap = POk s0 ∧ cache_fill c T data s0 = ROk s tt ∧
    component_query c (Access T []) s = POk it ∧ yields (qiter_next_with (ec_ver (st_ec s))) it l it1 ∧ yields qiter_next it l.*2 it2 ∧
    NoDup l.*1 ∧ seen s <$> l.*2 = bytes <$> data.
Proof. exact cache_test_ok. Qed.
Print Assumptions C66_cache_test.
(** Data of two entities; nothing is left of what create_entity_with_archetype left in the rows. *)
Example C66_example :
  let c := ex_cfg Release in
  let data := [[(2, [1; 2; 3; 4; 5; 6; 7; 8]); (3, [9])]; [(2, [8; 7; 6; 5; 4; 3; 2; 1]); (3, [0])]] in
  fits_types (in_mode Debug c) {[2; 3]} ∧ (∀ v, v ∈ data → of_type c [2; 3] v) ∧
  match (s0 ← store_with_capacity (c_mode c) 4; match cache_fill c [2; 3] data s0 with ROk s _ => POk s | _ => PPanic end : pres store) with
  | POk s => (it ← component_query c (Access [2; 3] []) s; l ← drain 9 qiter_next it; mret (fmap (M:=list) (seen s) l) : pres (list (list (list cell)))) =
      POk [[[Some 1; Some 2; Some 3; Some 4; Some 5; Some 6; Some 7; Some 8]; [Some 9]]; [[Some 8; Some 7; Some 6; Some 5; Some 4; Some 3; Some 2; Some 1]; [Some 0]]]
  | _ => False
  end.
Proof.
  intros c data. split_and!.
  - apply fits_typesb_ok. vm_compute. reflexivity.
  - intros v Hv. unfold data in Hv. rewrite !elem_of_cons, elem_of_nil in Hv.
    destruct Hv as [->|[->|[]]]; (split; [done|]); intros t w Hw; rewrite !elem_of_cons, elem_of_nil in Hw; by destruct Hw as [[= -> ->]|[[= -> ->]|[]]].
  - vm_compute. reflexivity.
Qed.
