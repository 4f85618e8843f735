(** ResourceX.v — the resource store with caught panics and in release builds: C74, C75. *)
From Verif.Spec Require Import ResourceX.
From Verif.Proofs Require Import ResourceX.
Local Open Scope N_scope.

(** C74: as C43 and C44, when calls may panic and the panics are caught. Refuted: the creation that finds the versions
    of an id used up revives the last handle of that id, so a value released before can be read and is dropped again. *)
Theorem C74_caught_once_refuted : ¬ ∀ T (s0 : rs T) tr s, rinit s0 → prrun Debug s0 tr s →
  ∃ l, rs_drop s = POk l ∧ gave (ranswered tr) ≡ₚ got (ranswered tr) ++ l.
Proof. exact resource_caught_once_refuted. Qed.
Print Assumptions C74_caught_once_refuted.
Theorem C74_caught_stale_refuted : ¬ ∀ T (s0 : rs T) tr s e, rinit s0 → prrun Debug s0 tr s →
  held (ranswered tr) e = None → rs_index Debug s e = PPanic.
Proof. exact resource_caught_stale_refuted. Qed.
Print Assumptions C74_caught_stale_refuted.
(** With fewer than 2^32 - 1 attempted creations a call that panics leaves no trace: the store is the one the calls
    that returned would have made, so everything said about such histories (C42 - C44) holds. *)
Theorem C74_caught_partial : ∀ T (s0 : rs T) tr s, rinit s0 → prrun Debug s0 tr s → N.of_nat (rattempts tr) < 2 ^ 32 - 1 →
  rrun Debug s0 (ranswered tr) s.
Proof. exact @resource_caught. Qed.
Print Assumptions C74_caught_partial.
Theorem C74_caught_map_partial : ∀ T (s0 : rs T) tr s, rinit s0 → prrun Debug s0 tr s → N.of_nat (rattempts tr) < 2 ^ 32 - 1 →
  (∀ e, rs_index Debug s e = match held (ranswered tr) e with Some v => POk v | None => PPanic end) ∧
  ∃ l, rs_drop s = POk l ∧ gave (ranswered tr) ≡ₚ got (ranswered tr) ++ l.
Proof. exact resource_caught_map. Qed.
Print Assumptions C74_caught_map_partial.
(** Three calls with stale handles panic; the others are not disturbed. *)
Example C74_example : ∃ tr s, prrun Debug rs_new tr s ∧ rattempts tr = 3%nat ∧
  snd <$> tr = [Some (RHandle (Entity 0 1)); None; Some (RHandle (Entity 1 1)); Some (RValue 10); None; None; Some (RHandle (Entity 0 2)); Some (RValue 12)] ∧
  held (ranswered tr) (Entity 0 1) = None ∧ rs_index Debug s (Entity 0 1) = PPanic ∧
  held (ranswered tr) (Entity 0 2) = Some 13 ∧ rs_index Debug s (Entity 0 2) = POk 13 ∧
  gave (ranswered tr) = [10; 11; 12; 13] ∧ got (ranswered tr) = [10; 12] ∧ rs_drop s = POk [13; 11].
Proof.
  destruct (pexec ex_caught [] rs_new) as [[tr s]|] eqn:E; [|vm_compute in E; discriminate]. exists tr, s.
  split; [by eapply pexec_run; [constructor|exact E]|]. vm_compute in E. injection E as <- <-. vm_compute. done.
Qed.

(** C75: the resource store of a release build. Refuted as C42 and C43 are stated: a second release gives the value out again. *)
Theorem C75_release_once_refuted : ¬ ∀ T (s0 : rs T) tr s, rinit s0 → rrun Release s0 tr s →
  ∃ l, rs_drop s = POk l ∧ gave tr ≡ₚ got tr ++ l.
Proof. exact resource_release_once_refuted. Qed.
Print Assumptions C75_release_once_refuted.
(** Assigning through a released handle changes the value of another one. *)
Theorem C75_release_map_refuted : ¬ ∀ T (s0 : rs T) tr s e v, rinit s0 → rrun Release s0 tr s →
  held tr e = Some v → rs_index Release s e = POk v.
Proof. exact resource_release_map_refuted. Qed.
Print Assumptions C75_release_map_refuted.
(** Histories that release and assign only through handles holding a value, with fewer than 2^32 - 1 creations, are histories
    of a debug build. *)
Theorem C75_release_mode_partial : ∀ T (s0 : rs T) tr s, rinit s0 → rrun Release s0 tr s → rcareful tr →
  N.of_nat (length (rissued tr)) < 2 ^ 32 - 1 → rrun Debug s0 tr s.
Proof. exact @resource_release_mode. Qed.
Print Assumptions C75_release_mode_partial.
Theorem C75_release_map_partial : ∀ T (s0 : rs T) tr s, rinit s0 → rrun Release s0 tr s → rcareful tr →
  N.of_nat (length (rissued tr)) < 2 ^ 32 - 1 →
  NoDup (rissued tr) ∧ (∀ e v, held tr e = Some v → rs_index Release s e = POk v) ∧ ∃ l, rs_drop s = POk l ∧ gave tr ≡ₚ got tr ++ l.
Proof. exact resource_release_map. Qed.
Print Assumptions C75_release_map_partial.
Example C75_example : ∃ tr s, rrun Release rs_new tr s ∧ rcareful tr ∧ rissued tr = [Entity 0 1; Entity 1 1; Entity 0 2] ∧
  held tr (Entity 0 2) = Some 13 ∧ rs_index Release s (Entity 0 2) = POk 13 ∧
  gave tr = [10; 11; 12; 13] ∧ got tr = [10; 12; 11] ∧ rs_drop s = POk [13].
Proof.
  destruct (mexec Release ex_careful [] rs_new) as [s tr| |] eqn:E; [|vm_compute in E; discriminate..]. exists tr, s.
  split; [by eapply mexec_run; [constructor|exact E]|]. vm_compute in E. injection E as <- <-.
  split; [|vm_compute; done]. intros tr1 o r tr2 Heq.
  repeat (destruct tr1 as [|? tr1]; [injection Heq as <- _; vm_compute; done|injection Heq as <- Heq]). by destruct tr1.
Qed.
