(** Unwind.v — C68: blocks of memory when calls panic and the panics are caught. *)
From Verif.Proofs Require Import UnwindP HeapP UsageP.
Local Open Scope N_scope.

(** A call that panics may lose a block: an archetype for which calculate_offsets panics. *)
Theorem C68_panics_lose_nothing_refuted : ¬ ∀ c cap tr s k h h',
  cfg_ok c → 0 < cap → pmrun c cap tr s k h → m_store_drop s k h = ROk h' tt → all_freed h'.
Proof. exact lost_refuted. Qed.
Print Assumptions C68_panics_lose_nothing_refuted.
(** What holds for every history, with any calls panicking: each call to the allocator was allowed; after the store has been
    dropped every block was freed once, with the layout it was allocated with, except for at most one array of offsets for
    each call of create_entity_with_archetype, add_components or remove_components that panicked. *)
Theorem C68_panics_partial : ∀ c cap tr s, cfg_ok c → prun c cap tr s → 0 < cap → ec_cap (st_ec s) < 2 ^ 32 →
  (∃ k h, pmrun c cap tr s k h) ∧
  ∀ k h, pmrun c cap tr s k h →
    allowed h ∧ ∃ h' m, m_store_drop s k h = ROk h' tt ∧ in_use h' = Some m ∧ (size m ≤ interrupted tr)%nat ∧
      (∀ p l, m !! p = Some l → ∃ n, 0 < n ∧ l = layout_of usize_t n) ∧
      ∀ p l, EAlloc p l ∈ h' → m !! p = Some l ∨ freed_once h' p l.
Proof. exact store_blocks_panics. Qed.
Print Assumptions C68_panics_partial.
(** So panics of the other calls lose nothing. *)
Theorem C68_other_panics_partial : ∀ c cap tr s k h h',
  cfg_ok c → 0 < cap → ec_cap (st_ec s) < 2 ^ 32 → interrupted tr = 0%nat →
  pmrun c cap tr s k h → m_store_drop s k h = ROk h' tt → all_freed h' ∧ ∀ p l, EAlloc p l ∈ h' → freed_once h' p l.
Proof. exact store_blocks_other_panics. Qed.
Print Assumptions C68_other_panics_partial.
(** When nothing panics, the calls to the allocator are those of C52. *)
Theorem C68_agreement : ∀ c cap tr s k h, pmrun c cap (all_returned tr) s k h ↔ mrun c cap tr s k h.
Proof. exact pmrun_returned. Qed.
Print Assumptions C68_agreement.

(** Three caught panics: an archetype whose offsets do not fit, the removal of all components, and the first one again after
    the store has grown. 18 blocks are in use; two arrays of three offsets remain after the drop. *)
Example C68_example :
  p_life (ex_cfg Debug) 1 ex_caught =
    Some ([Returned (Some (Entity 0 1)); Returned None; Panicked; Panicked; Returned (Some (Entity 2 1)); Returned None; Panicked], 18%nat,
          [(38, Lay 24 8); (30, Lay 24 8)]) ∧
  (∃ h tr s k, p_exec0 (ex_cfg Debug) 1 ex_caught = ROk h (tr, s, k) ∧ pmrun (ex_cfg Debug) 1 tr s k h ∧ interrupted tr = 3%nat ∧ ec_cap (st_ec s) = 4).
Proof.
  split; [vm_compute; reflexivity|]. destruct (p_exec0 (ex_cfg Debug) 1 ex_caught) as [h [[tr s] k]| |] eqn:E; [|by vm_compute in E..].
  exists h, tr, s, k. split; [done|]. split; [by eapply p_exec0_run|]. vm_compute in E. injection E as <- <- <- <-. vm_compute. done.
Qed.
