(** Discipline.v — disciplined calls, in both builds: C53, C54.
    [disciplined]: the call meets the stated conditions on its arguments (Spec/Discipline.v). [drun H]: histories of such
    calls in which the containers met [H] at each call. [frugal]: the usage conditions of C16 on the history; [considerate]:
    the weaker condition of C16. *)
From Verif.Spec Require Import Env Handles Components Discipline.
From Verif.Proofs Require Import UsageR UsageP DiscP.
Local Open Scope N_scope.

(** C53: a disciplined call in a page-healthy state returns: it neither panics nor is it undefined, ... *)
Theorem C53_calls_return : ∀ c cap tr s o,
  cfg_ok c → drun (healthy c) c cap tr s → healthy c (st_ac s) (asks tr o) → disciplined c tr o → ∃ s' r, step c o s = ROk s' r.
Proof. exact disciplined_returns. Qed.
Print Assumptions C53_calls_return.
(** ... and without a condition on the state if the history is frugal. *)
Theorem C53_frugal_calls_return : ∀ c cap tr s o,
  cfg_ok c → drun (λ _ _, True) c cap tr s → frugal c tr → disciplined c tr o → ∃ s' r, step c o s = ROk s' r.
Proof. exact frugal_returns. Qed.
Print Assumptions C53_frugal_calls_return.
(** ... or considerate, the call included. *)
Theorem C53_considerate_calls_return : ∀ c cap tr s o,
  cfg_ok c → search_honest (c_bs c) → drun (λ _ _, True) c cap tr s → considerate c tr →
  careful_call (in_mode Debug c) tr o → disciplined c tr o → ∃ s' r, step c o s = ROk s' r.
Proof. exact considerate_returns. Qed.
Print Assumptions C53_considerate_calls_return.
Example C53_example : ∀ md, let c := ex_cfg md in let tr := end_trace c 8 ex_disc in let s := end_store c 8 ex_disc in
  drun (λ _ _, True) c 8 tr s ∧ frugal c tr ∧
  disciplined c tr (OAdd (Entity 0 1) [(2, [1; 2; 3; 4; 5; 6; 7; 8])]) ∧
  read_components c (after c (OAdd (Entity 0 1) [(2, [1; 2; 3; 4; 5; 6; 7; 8])]) s) (Entity 0 1) [2; 1] =
    POk (Some [Some <$> [1; 2; 3; 4; 5; 6; 7; 8]; Some <$> [1; 2; 3; 4]]).
Proof.
  intros md c tr s. destruct (ex_disc_run md). split_and!; [done|done|apply discb_ok|]; destruct md; vm_compute; reflexivity.
Qed.
(** The conditions are needed: in a debug build, destroying a dead entity and removing all components panic. *)
Example C53_undisciplined :
  let c := ex_cfg Debug in let s := end_store c 8 ex_disc in
  panicked (step c (ODestroy (Entity 1 1)) s) = true ∧ panicked (step c (ORemove (Entity 0 1) [1]) s) = true.
Proof. split; vm_compute; reflexivity. Qed.

(** C54: disciplined histories of a release build are histories of a debug build, so that what is proved of [hrun] in debug
    builds is true of them, ... *)
Theorem C54_disciplined_like_debug : ∀ c cap tr s,
  cfg_ok c → drun (healthy c) c cap tr s → hrun (in_mode Debug c) cap tr s ∧ orders_proper tr.
Proof. exact drun_debug. Qed.
Print Assumptions C54_disciplined_like_debug.
(** ... the components of all handles are observed to be what the history says, ... *)
Theorem C54_values_persist : ∀ c cap tr s e,
  cfg_ok c → drun (healthy c) c cap tr s → e ∈ issued tr →
  ∃ x, comps tr e x ∧ observed c s e x ∧ (is_Some x ↔ alive_in tr e).
Proof. exact drun_values. Qed.
Print Assumptions C54_values_persist.
(** ... and frugal histories stay page-healthy. *)
Theorem C54_frugal_healthy : ∀ c cap tr s,
  cfg_ok c → drun (λ _ _, True) c cap tr s → frugal c tr → drun (healthy c) c cap tr s ∧ ∀ w, healthy c (st_ac s) w.
Proof. exact frugal_drun. Qed.
Print Assumptions C54_frugal_healthy.
(** So do considerate histories, of which the frugal ones are some. *)
Theorem C54_considerate_healthy : ∀ c cap tr s,
  cfg_ok c → search_honest (c_bs c) → drun (λ _ _, True) c cap tr s → considerate c tr → drun (healthy c) c cap tr s.
Proof. exact considerate_drun. Qed.
Print Assumptions C54_considerate_healthy.
Theorem C54_frugal_considerate : ∀ c tr, frugal c tr → considerate c tr.
Proof. exact frugal_considerate. Qed.
Print Assumptions C54_frugal_considerate.
Example C54_example :
  let c := ex_cfg Release in let tr := end_trace c 8 ex_disc in let s := end_store c 8 ex_disc in
  drun (λ _ _, True) c 8 tr s ∧ frugal c tr ∧ issued tr = [Entity 0 1; Entity 1 1; Entity 2 1; Entity 1 2] ∧
  is_alive c s (Entity 1 1) = POk false ∧ is_alive c s (Entity 1 2) = POk true ∧
  read_components c s (Entity 0 1) [1] = POk (Some [Some <$> [1; 2; 3; 4]]).
Proof. intros c tr s. destruct (ex_disc_run Release). split_and!; [done|done|vm_compute; reflexivity..]. Qed.
(** The history of [C16_example_careful] in a release build: two sets of types are abandoned, so it is not frugal; an entity
    is put into a new set of types. *)
Example C54_example_considerate :
  let c := in_mode Release big_cfg in let tr := end_trace c 8 ex_careful in let s := end_store c 8 ex_careful in
  drun (λ _ _, True) c 8 tr s ∧ considerate c tr ∧ ¬ frugal c tr ∧ careful_call (in_mode Debug c) tr (OCreateWith (big_arch [1; 2])) ∧
  disciplined c tr (OCreateWith (big_arch [1; 2])) ∧ read_components c s (Entity 0 1) [1] = POk (Some [[Some 1]]).
Proof. exact ex_considerate. Qed.
