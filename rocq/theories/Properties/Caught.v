(** Caught.v — handles, tags and order groups when calls panic and the panics are caught: C69, C70. *)
From Verif.Spec Require Import Env Handles Tags Orders Unwind.
From Verif.Proofs Require Import UnwindH UnwindT OrdersX TagsX ExecP.
Local Open Scope N_scope.

(** C69: even then no handle is returned twice ... *)
Theorem C69_handles_never_reissued : ∀ c cap tr s, c_mode c = Debug → prun c cap tr s →
  NoDup (issued (answered tr)) ∧ Forall (λ e, e_id e ≠ NULL_ID) (issued (answered tr)).
Proof. exact (λ c cap tr s Hmd, caught_handles c cap Hmd tr s). Qed.
Print Assumptions C69_handles_never_reissued.
(** ... but is_alive is not always right about them: when the versions of an id are used up, the creation that panics brings the
    last entity with that id, which was destroyed, to life. *)
Theorem C69_is_alive_exact_refuted : ¬ ∀ c cap tr s e, cfg_ok c → c_mode c = Debug → prun c cap tr s → e ∈ issued (answered tr) →
  ∃ b : bool, is_alive c s e = POk b ∧ (b = true ↔ alive_in (answered tr) e).
Proof. exact caught_is_alive_refuted. Qed.
Print Assumptions C69_is_alive_exact_refuted.
(** That is the only way it can be wrong: live handles are always reported alive, and a handle reported alive is alive or has the
    largest version. *)
Theorem C69_is_alive_partial : ∀ c cap tr s e, c_mode c = Debug → prun c cap tr s → e ∈ issued (answered tr) →
  ∃ b : bool, is_alive c s e = POk b ∧ (alive_in (answered tr) e → b = true) ∧
    (b = true → alive_in (answered tr) e ∨ 2 ^ 32 - 1 ≤ e_ver e).
Proof. exact (λ c cap tr s e Hmd, caught_is_alive c cap Hmd tr s e). Qed.
Print Assumptions C69_is_alive_partial.
(** So it is exact for all handles as long as there were fewer than 2^32 - 1 creations. *)
Theorem C69_few_creations_partial : ∀ c cap tr s e, c_mode c = Debug → prun c cap tr s →
  N.of_nat (creations tr) < 2 ^ 32 - 1 → e ∈ issued (answered tr) →
  ∃ b : bool, is_alive c s e = POk b ∧ (b = true ↔ alive_in (answered tr) e).
Proof. exact (λ c cap tr s e Hmd, caught_few c cap Hmd tr s e). Qed.
Print Assumptions C69_few_creations_partial.

(** Three panics; the entity of the creation that panicked, (1, 1), is alive although its handle was never returned. *)
Example C69_example : ∃ tr s, p_end (ex_cfg Debug) 1 ex_panics = Some (tr, s) ∧ prun (ex_cfg Debug) 1 tr s ∧
  length (List.filter (λ x, match x.2 with Panicked => true | _ => false end) tr) = 3%nat ∧
  issued (answered tr) = [Entity 0 1; Entity 2 1; Entity 0 2] ∧
  is_alive (ex_cfg Debug) s (Entity 0 1) = POk false ∧ is_alive (ex_cfg Debug) s (Entity 0 2) = POk true ∧
  is_alive (ex_cfg Debug) s (Entity 2 1) = POk true ∧ is_alive (ex_cfg Debug) s (Entity 1 1) = POk true.
Proof.
  destruct (p_end (ex_cfg Debug) 1 ex_panics) as [[tr s]|] eqn:E; [|by vm_compute in E]. exists tr, s. split; [done|]. split; [by eapply p_end_run|].
  vm_compute in E. injection E as <- <-. vm_compute. done.
Qed.

(** C70: tags are exact for live handles ... *)
Theorem C70_tags_exact : ∀ c cap tr s t e, search_ok (c_bs c) → c_mode c = Debug → prun c cap tr s → ec_cap (st_ec s) < 2 ^ 32 →
  tags_on_live (answered tr) → alive_in (answered tr) e →
  ∃ b : bool, has_tag c s t e = POk b ∧ (b = true ↔ tagged (answered tr) t e).
Proof. exact (λ c cap tr s t e Hbs Hmd, caught_has_tag c cap Hbs Hmd tr s t e). Qed.
Print Assumptions C70_tags_exact.
(** ... and order groups are the lists the calls that returned made of them, whatever calls panicked, also order calls. *)
Theorem C70_orders_are_lists : ∀ c cap tr s g, search_ok (c_bs c) → c_mode c = Debug → prun c cap tr s → ec_cap (st_ec s) < 2 ^ 32 →
  orders_proper (answered tr) →
  let l := members (answered tr) g in
  NoDup l ∧ (∀ e, e ∈ l → alive_in (answered tr) e) ∧
  first_ordered c s g = POk (head l) ∧
  last_ordered c s g = POk (last l) ∧
  (∀ i e, l !! i = Some e → next_ordered c s g e = POk (l !! S i) ∧ previous_ordered c s g e = POk (before l i)) ∧
  (∀ e, alive_in (answered tr) e → e ∉ l → next_ordered c s g e = POk None ∧ previous_ordered c s g e = POk None).
Proof. exact (λ c cap tr s g Hbs Hmd, caught_order c cap Hbs Hmd tr s g). Qed.
Print Assumptions C70_orders_are_lists.

Example C70_example : ∃ tr s, p_end (ex_cfg Debug) 1 ex_panics = Some (tr, s) ∧ prun (ex_cfg Debug) 1 tr s ∧ ec_cap (st_ec s) = 4 ∧
  tags_on_live (answered tr) ∧ orders_proper (answered tr) ∧
  members (answered tr) 5 = [Entity 0 2; Entity 2 1] ∧ first_ordered (ex_cfg Debug) s 5 = POk (Some (Entity 0 2)) ∧
  next_ordered (ex_cfg Debug) s 5 (Entity 0 2) = POk (Some (Entity 2 1)) ∧
  has_tag (ex_cfg Debug) s 9 (Entity 0 2) = POk false ∧ has_tag (ex_cfg Debug) s 8 (Entity 2 1) = POk true.
Proof.
  destruct (p_end (ex_cfg Debug) 1 ex_panics) as [[tr s]|] eqn:E; [|by vm_compute in E]. exists tr, s. split; [done|]. split; [by eapply p_end_run|].
  vm_compute in E. injection E as <- <-. split; [done|].
  split; [apply tags_on_live_check; vm_compute; reflexivity|]. split; [apply orders_proper_check; vm_compute; reflexivity|]. vm_compute. done.
Qed.
