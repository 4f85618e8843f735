(** Memory.v — how much page memory a store uses: C63. [drun (healthy c) c]: disciplined histories of the build [c_mode c],
    debug or release (Spec/Discipline.v). Frugal histories need no condition on the states: C54_frugal_healthy. *)
From Verif.Spec Require Import Env Handles Components Memory.
From Verif.Proofs Require Import MemP.
Local Open Scope N_scope.

(** C63: the number of pages is bounded by the largest number of entities that were alive at the same time, however long
    the history and however many archetypes it went through. *)
Theorem C63_page_total : ∀ c cap tr s, cfg_ok c → drun (healthy c) c cap tr s → page_total s ≤ N.max 5 (2 * peak tr + 2).
Proof. exact (λ c cap tr s Hc Hr, proj2 (drun_pages c cap tr s Hc Hr)). Qed.
Print Assumptions C63_page_total.
(** Every page is on one list only, and only the first archetype keeps pages without entities, ... *)
Theorem C63_accounted : ∀ c cap tr s, cfg_ok c → drun (healthy c) c cap tr s → accounted s.
Proof. exact (λ c cap tr s Hc Hr, proj1 (drun_pages c cap tr s Hc Hr)). Qed.
Print Assumptions C63_accounted.
(** ... and while fewer than 2^31 entities are alive at the same time the places of entities - page and index in the page -
    fit in 32 bits: the casts of reserve_page (archetypes_container.rs:250-252, 279-280), which the model does not have,
    do not truncate. *)
Theorem C63_indices_fit : ∀ c cap tr s, cfg_ok c → drun (healthy c) c cap tr s → peak tr < 2 ^ 31 →
  ∀ p pg k id, ac_pages (st_ac s) !! p = Some pg → pg_ids pg !! k = Some id → N.of_nat p < 2 ^ 32 ∧ N.of_nat k < 2 ^ 32.
Proof. exact drun_indices. Qed.
Print Assumptions C63_indices_fit.
(** But the empty pages of the first archetype are not available to other archetypes (the early return of free_page): pages may outnumber entities. *)
Theorem C63_peak_refuted : ¬ ∀ c cap tr s, cfg_ok c → drun (healthy c) c cap tr s → page_total s ≤ N.max 5 (peak tr).
Proof. exact peak_refuted. Qed.
Print Assumptions C63_peak_refuted.
(** In both builds, with the standard library as it is: 11 pages, 3 of them empty, never more than 8 entities. *)
Example C63_example : ∀ md, let c := quarter_cfg md in let tr := end_trace c 8 ex_more in let s := end_store c 8 ex_more in
  cfg_ok c ∧ drun (healthy c) c 8 tr s ∧ peak tr = 8 ∧ page_total s = 11 ∧ size (live tr) = 8%nat ∧
  length <$> ac_pages_of (st_ac s) = 3%nat :: replicate 8 1%nat ∧ ac_free_pages (st_ac s) = [].
Proof.
  intros md c tr s. split; [apply quarter_cfg_ok|]. destruct (ex_more_run md) as (H1 & H2 & H3). split_and!; [exact H1|exact H2|exact H3|..];
    subst c tr s; destruct md; vm_compute; reflexivity.
Qed.
(** The bound is reached: 14 pages, never more than 6 entities. *)
Example C63_tight : ∀ md, let c := big_cfg md in let tr := end_trace c 8 ex_twice in let s := end_store c 8 ex_twice in
  cfg_ok c ∧ drun (healthy c) c 8 tr s ∧ peak tr = 6 ∧ page_total s = 14.
Proof. intros md c tr s. split; [apply big_cfg_ok|]. apply ex_twice_run. Qed.
