(** Handles.v — entity handles: C01 - C05. *)
From Verif.Spec Require Import Env Handles.
From Verif.Proofs Require Import HandlesP ExecP.
Local Open Scope N_scope.

(** C01: in a debug build no handle is issued twice, and no issued id is the null id. *)
Theorem C01_handles_never_reissued : ∀ c cap tr s,
  c_mode c = Debug → run c cap tr s →
  NoDup (issued tr) ∧ Forall (λ e, e_id e ≠ NULL_ID) (issued tr).
Proof. exact (λ c cap tr s Hmd, handles_nodup c cap Hmd tr s). Qed.
Print Assumptions C01_handles_never_reissued.

(** Creations, and only creations, return a handle: [issued] misses none. *)
Theorem C01_issued_complete : ∀ c cap tr s o s' r,
  run c cap tr s → step c o s = ROk s' r →
  (o = OCreate ∨ ∃ a, o = OCreateWith a) ↔ is_Some r.
Proof. exact creation_returns. Qed.
Print Assumptions C01_issued_complete.

(** Ids are recycled with a new version: here id 0 three times, and id 1. *)
Definition ex_recycle : list (list entity → op) :=
  [λ _, OCreate; λ _, OCreateWith (ex_arch [1; 2]); λ hs, ODestroy (h 0 hs); λ _, OCreate;
   λ hs, ODestroy (h 1 hs); λ hs, ODestroy (h 2 hs); λ _, OCreate].
Example C01_example :
  run (ex_cfg Debug) 1 (end_trace (ex_cfg Debug) 1 ex_recycle) (end_store (ex_cfg Debug) 1 ex_recycle) ∧
  issued (end_trace (ex_cfg Debug) 1 ex_recycle) = [Entity 0 1; Entity 1 1; Entity 0 2; Entity 0 3].
Proof. split; [apply end_run; vm_compute; reflexivity|vm_compute; reflexivity]. Qed.

(** C02: is_alive is exact. *)
Theorem C02_is_alive_exact : ∀ c cap tr s e,
  c_mode c = Debug → run c cap tr s → e_id e < entities_capacity s →
  ∃ b : bool, is_alive c s e = POk b ∧ (b = true ↔ alive_in tr e).
Proof. exact (λ c cap tr s e Hmd, is_alive_exact c cap Hmd tr s e). Qed.
Print Assumptions C02_is_alive_exact.

(** Handles of other stores with larger ids are rejected by a panic. *)
Theorem C02_is_alive_beyond : ∀ c cap tr s e,
  c_mode c = Debug → run c cap tr s → entities_capacity s ≤ e_id e → is_alive c s e = PPanic.
Proof. exact (λ c cap tr s e Hmd, is_alive_beyond c cap Hmd tr s e). Qed.
Print Assumptions C02_is_alive_beyond.

(** A recycled id: the newest handle is alive, the older ones are not. *)
Example C02_example :
  let s := end_store (ex_cfg Debug) 1 ex_recycle in
  entities_capacity s = 2 ∧
  is_alive (ex_cfg Debug) s (Entity 0 3) = POk true ∧
  is_alive (ex_cfg Debug) s (Entity 0 2) = POk false ∧ is_alive (ex_cfg Debug) s (Entity 1 1) = POk false.
Proof. vm_compute. done. Qed.

(** C03: live handles have distinct ids, all below the capacity. *)
Theorem C03_live_ids_distinct : ∀ c cap tr s,
  c_mode c = Debug → run c cap tr s →
  (∀ e1 e2, alive_in tr e1 → alive_in tr e2 → e_id e1 = e_id e2 → e1 = e2) ∧
  (∀ e, alive_in tr e → e_id e < entities_capacity s).
Proof. exact (λ c cap tr s Hmd, live_ids c cap Hmd tr s). Qed.
Print Assumptions C03_live_ids_distinct.

Example C03_example :
  let tr := end_trace (ex_cfg Debug) 1 (take 4 ex_recycle) in
  alive_in tr (Entity 1 1) ∧ alive_in tr (Entity 0 2).
Proof. split; apply live_alive; vm_compute; reflexivity. Qed.

(** C04: the capacity never decreases, ... *)
Theorem C04_capacity_grows_only : ∀ c cap tr s o s' r,
  c_mode c = Debug → run c cap tr s → step c o s = ROk s' r →
  entities_capacity s ≤ entities_capacity s'.
Proof. exact (λ c cap tr s o s' r Hmd, capacity_mono c cap Hmd tr s o s' r). Qed.
Print Assumptions C04_capacity_grows_only.

(** ... is at most the larger of the initial capacity and twice the peak population (below 2^31 live entities), ... *)
Theorem C04_capacity_bounded : ∀ c cap tr s,
  c_mode c = Debug → run c cap tr s → cap < 2 ^ 32 → peak tr < 2 ^ 31 →
  entities_capacity s ≤ N.max cap (2 * peak tr).
Proof. exact (λ c cap tr s Hmd, capacity_bound c cap Hmd tr s). Qed.
Print Assumptions C04_capacity_bounded.

(** ... and an id never used before is only taken when all ids used so far are alive. *)
Theorem C04_ids_reused_first : ∀ c cap tr s o s' e,
  c_mode c = Debug → run c cap tr s → step c o s = ROk s' (Some e) →
  (∀ e', e' ∈ issued tr → e_id e' ≠ e_id e) →
  ∀ e', e' ∈ issued tr → ∃ e'', alive_in tr e'' ∧ e_id e'' = e_id e'.
Proof. exact (λ c cap tr s o s' e Hmd, reuse_first c cap Hmd tr s o s' e). Qed.
Print Assumptions C04_ids_reused_first.

(** Growth happens (capacity 1 to 4), and a fresh id is taken while others are alive. *)
Definition ex_growth : list (list entity → op) :=
  [λ _, OCreate; λ _, OCreate; λ hs, ODestroy (h 0 hs); λ _, OCreate; λ _, OCreate].
Example C04_example :
  let tr := end_trace (ex_cfg Debug) 1 ex_growth in
  end_ok (ex_cfg Debug) 1 ex_growth = true ∧
  issued tr = [Entity 0 1; Entity 1 1; Entity 0 2; Entity 2 1] ∧ peak tr = 3 ∧
  entities_capacity (end_store (ex_cfg Debug) 1 ex_growth) = 4.
Proof. vm_compute. done. Qed.

(** C05: in a debug build destroying a handle that is not alive never returns normally. *)
Theorem C05_destroy_dead_rejected : ∀ c cap tr s e s' r,
  c_mode c = Debug → run c cap tr s → ¬ alive_in tr e → step c (ODestroy e) s ≠ ROk s' r.
Proof. exact (λ c cap tr s e s' r Hmd, destroy_dead_rejected c cap Hmd tr s e s' r). Qed.
Print Assumptions C05_destroy_dead_rejected.

Example C05_example :
  let s := end_store (ex_cfg Debug) 1 ex_recycle in
  (∃ s', step (ex_cfg Debug) (ODestroy (Entity 0 2)) s = RPanic s') ∧
  (∃ s', step (ex_cfg Debug) (ODestroy (Entity 0 3)) s = ROk s' None).
Proof. vm_compute. eauto. Qed.
