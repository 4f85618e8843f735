(** Orders.v — order groups: C28 - C31. *)
From Verif.Spec Require Import Env Handles Orders Shown.
From Verif.Proofs Require Import HandlesP OrdersH OrdersX OrdersL ExecP.
Local Open Scope N_scope.

(** C28: with proper use, order groups are lists: appending, inserting beside a member, deleting; first, last, next and
    previous report exactly the list. *)
Theorem C28_orders_are_lists : ∀ c cap tr s g,
  search_ok (c_bs c) → c_mode c = Debug → run c cap tr s → orders_proper tr →
  NoDup (members tr g) ∧ (∀ e, e ∈ members tr g → alive_in tr e) ∧
  first_ordered c s g = POk (head (members tr g)) ∧
  last_ordered c s g = POk (last (members tr g)) ∧
  (∀ i e, members tr g !! i = Some e →
     next_ordered c s g e = POk (members tr g !! S i) ∧ previous_ordered c s g e = POk (before (members tr g) i)) ∧
  (∀ e, alive_in tr e → e ∉ members tr g → next_ordered c s g e = POk None ∧ previous_ordered c s g e = POk None).
Proof. exact (λ c cap tr s g Hbs Hmd, order_exact c cap Hbs Hmd tr s g). Qed.
Print Assumptions C28_orders_are_lists.
(** Proper calls always succeed. *)
Theorem C28_proper_calls_succeed : ∀ c cap tr s o,
  search_ok (c_bs c) → c_mode c = Debug → run c cap tr s → orders_proper tr → order_use_ok tr o →
  match o with OOrdAdd _ _ | OOrdNext _ _ _ | OOrdPrev _ _ _ | OOrdDel _ _ => True | _ => False end →
  ∃ s', step c o s = ROk s' None.
Proof. exact (λ c cap tr s o Hbs Hmd, proper_order_ok c cap Hbs Hmd tr s o). Qed.
Print Assumptions C28_proper_calls_succeed.

Definition ex_orders : list (list entity → op) :=
  [λ _, OCreate; λ _, OCreate; λ _, OCreate; λ _, OCreate;
   λ hs, OOrdAdd 9 (h 2 hs); λ hs, OOrdAdd 9 (h 0 hs); λ hs, OOrdNext 9 (h 1 hs) (h 2 hs); λ hs, OOrdAdd 8 (h 1 hs);
   λ hs, OOrdPrev 9 (h 3 hs) (h 2 hs); λ _, OCreate; λ hs, ODestroy (h 2 hs); λ hs, OOrdDel 8 (h 1 hs); λ _, OCreate;
   λ hs, OOrdAdd 9 (h 5 hs)].
Example C28_example :
  let c := ex_cfg Debug in let tr := end_trace c 1 ex_orders in let s := end_store c 1 ex_orders in
  run c 1 tr s ∧ orders_proper tr ∧
  members tr 9 = [Entity 3 1; Entity 1 1; Entity 0 1; Entity 2 2] ∧ members tr 8 = [] ∧
  walk c s 9 10 (first_ordered c s 9) = members tr 9 ∧ last_ordered c s 9 = POk (Some (Entity 2 2)) ∧
  previous_ordered c s 9 (Entity 1 1) = POk (Some (Entity 3 1)) ∧ first_ordered c s 8 = POk None.
Proof.
  split; [apply end_run; vm_compute; reflexivity|]. split; [apply orders_proper_check; vm_compute; reflexivity|].
  vm_compute. done.
Qed.

(** C29 does not hold: the only member of a group can be added again. *)
Theorem C29_readd_detected_refuted : ¬ ∀ c cap tr s g e s' r,
  cfg_ok c → c_mode c = Debug → run c cap tr s → orders_proper tr → e ∈ members tr g → step c (OOrdAdd g e) s ≠ ROk s' r.
Proof. exact readd_refuted. Qed.
Print Assumptions C29_readd_detected_refuted.
(** In groups of at least two members every way of adding a member again panics and changes nothing. *)
Theorem C29_readd_detected_partial : ∀ c cap tr s g e,
  search_ok (c_bs c) → c_mode c = Debug → run c cap tr s → orders_proper tr →
  e ∈ members tr g → (2 ≤ length (members tr g))%nat →
  step c (OOrdAdd g e) s = RPanic s ∧ ∀ to, step c (OOrdNext g e to) s = RPanic s ∧ step c (OOrdPrev g e to) s = RPanic s.
Proof. exact (λ c cap tr s g e Hbs Hmd, readd_panics c cap Hbs Hmd tr s g e). Qed.
Print Assumptions C29_readd_detected_partial.
(** That is exact: a member is found out when it is added again if and only if there is another member. *)
Theorem C29_readd_exact_partial : ∀ c cap tr s g e o,
  search_ok (c_bs c) → c_mode c = Debug → run c cap tr s → orders_proper tr → e ∈ members tr g →
  o = OOrdAdd g e ∨ (∃ to, alive_in tr to ∧ (o = OOrdNext g e to ∨ o = OOrdPrev g e to)) →
  (step c o s = RPanic s ↔ (2 ≤ length (members tr g))%nat).
Proof. exact (λ c cap tr s g e o Hbs Hmd, readd_exact c cap Hbs Hmd tr s g e o). Qed.
Print Assumptions C29_readd_exact_partial.
(** The only member, added again, becomes its own successor and predecessor, always. *)
Theorem C29_only_member_partial : ∀ c cap tr s g e,
  search_ok (c_bs c) → c_mode c = Debug → run c cap tr s → orders_proper tr → members tr g = [e] →
  ∃ s', step c (OOrdAdd g e) s = ROk s' None ∧ next_ordered c s' g e = POk (Some e) ∧ previous_ordered c s' g e = POk (Some e) ∧
    first_ordered c s' g = POk (Some e) ∧ last_ordered c s' g = POk (Some e).
Proof. exact (λ c cap tr s g e Hbs Hmd Hr Hp Hm, proj1 (readd_single c cap Hbs Hmd tr s g e Hr Hp Hm)). Qed.
Print Assumptions C29_only_member_partial.
(** The witness: afterwards the entity is its own successor. *)
Example C29_example :
  let c := ex_cfg Debug in let s := end_store c 1 self_loop in
  end_ok c 1 self_loop = true ∧ next_ordered c s 9 (Entity 0 1) = POk (Some (Entity 0 1)) ∧
  walk c s 9 5 (first_ordered c s 9) = replicate 5 (Entity 0 1) ∧
  end_ok c 1 (ex_orders ++ [λ hs, OOrdAdd 9 (h 1 hs)]) = false.
Proof. vm_compute. done. Qed.

(** C30 does not hold: an entity inserted next to a non-member is not reachable. *)
Theorem C30_insert_by_non_member_refuted : ¬ ∀ c cap tr s g e to s' r,
  cfg_ok c → c_mode c = Debug → run c cap tr s → orders_proper tr → alive_in tr e → alive_in tr to → to ∉ members tr g →
  step c (OOrdNext g e to) s = ROk s' r → ∃ n, e ∈ walk c s' g n (first_ordered c s' g).
Proof. exact lost_refuted. Qed.
Print Assumptions C30_insert_by_non_member_refuted.
(** What happens instead, always: the call returns, all groups keep their members and order, and the two entities are
    linked to each other outside of the group. *)
Theorem C30_insert_next_to_non_member_partial : ∀ c cap tr s g e to,
  search_ok (c_bs c) → c_mode c = Debug → run c cap tr s → orders_proper tr →
  alive_in tr e → alive_in tr to → e ∉ members tr g → to ∉ members tr g →
  ∃ s', step c (OOrdNext g e to) s = ROk s' None ∧ (∀ g', shows c s' g' (members tr g')) ∧
    next_ordered c s' g to = POk (Some e) ∧ previous_ordered c s' g e = POk (Some to).
Proof. exact (λ c cap tr s g e to Hbs Hmd, lost_insert_next c cap Hbs Hmd tr s g e to). Qed.
Print Assumptions C30_insert_next_to_non_member_partial.
Theorem C30_insert_before_non_member_partial : ∀ c cap tr s g e to,
  search_ok (c_bs c) → c_mode c = Debug → run c cap tr s → orders_proper tr →
  alive_in tr e → alive_in tr to → e ∉ members tr g → to ∉ members tr g →
  ∃ s', step c (OOrdPrev g e to) s = ROk s' None ∧ (∀ g', shows c s' g' (members tr g')) ∧
    previous_ordered c s' g to = POk (Some e) ∧ next_ordered c s' g e = POk (Some to).
Proof. exact (λ c cap tr s g e to Hbs Hmd, lost_insert_prev c cap Hbs Hmd tr s g e to). Qed.
Print Assumptions C30_insert_before_non_member_partial.
(** A group shown like this is the list one meets when walking from its first member. *)
Theorem C30_shown_is_walked : ∀ c s g l, shows c s g l → ∀ n, walk c s g n (first_ordered c s g) = take n l.
Proof. exact shows_walk. Qed.
Print Assumptions C30_shown_is_walked.
Example C30_example :
  let c := ex_cfg Debug in let s := end_store c 1 lost_insert in
  end_ok c 1 lost_insert = true ∧ walk c s 9 5 (first_ordered c s 9) = [Entity 0 1] ∧
  next_ordered c s 9 (Entity 2 1) = POk (Some (Entity 1 1)) ∧ previous_ordered c s 9 (Entity 1 1) = POk (Some (Entity 2 1)).
Proof. vm_compute. done. Qed.

(** C31: destruction removes the entity from all groups and keeps the order of the rest. *)
Theorem C31_destroyed_leave_groups : ∀ c cap tr s e s' r g,
  search_ok (c_bs c) → c_mode c = Debug → run c cap tr s → orders_proper tr → step c (ODestroy e) s = ROk s' r →
  let l := filter (λ x, x ≠ e) (members tr g) in
  first_ordered c s' g = POk (head l) ∧ last_ordered c s' g = POk (last l) ∧
  (∀ i x, l !! i = Some x → next_ordered c s' g x = POk (l !! S i) ∧ previous_ordered c s' g x = POk (before l i)) ∧
  next_ordered c s' g e = POk None ∧ previous_ordered c s' g e = POk None.
Proof. exact (λ c cap tr s e s' r g Hbs Hmd, destroy_order c cap Hbs Hmd tr s e s' r g). Qed.
Print Assumptions C31_destroyed_leave_groups.
(** A new entity, whatever its id was used for, is in no group. *)
Theorem C31_new_entity_in_no_group : ∀ c cap tr s o e s' g,
  search_ok (c_bs c) → c_mode c = Debug → run c cap tr s → orders_proper tr → step c o s = ROk s' (Some e) →
  e ∉ members tr g ∧
  next_ordered c s' g e = POk None ∧ previous_ordered c s' g e = POk None ∧
  first_ordered c s' g ≠ POk (Some e) ∧ last_ordered c s' g ≠ POk (Some e).
Proof. exact (λ c cap tr s o e s' g Hbs Hmd, new_in_no_group c cap Hbs Hmd tr s o e s' g). Qed.
Print Assumptions C31_new_entity_in_no_group.
Example C31_example :
  let c := ex_cfg Debug in let s := end_store c 1 (take 13 ex_orders) in
  members (end_trace c 1 (take 10 ex_orders)) 9 = [Entity 3 1; Entity 2 1; Entity 1 1; Entity 0 1] ∧
  walk c s 9 10 (first_ordered c s 9) = [Entity 3 1; Entity 1 1; Entity 0 1] ∧
  is_alive c s (Entity 2 2) = POk true ∧ next_ordered c s 9 (Entity 2 2) = POk None.
Proof. vm_compute. done. Qed.
