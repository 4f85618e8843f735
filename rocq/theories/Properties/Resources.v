(** Resources.v — the resource store: C42 - C44.
    [held tr e]: the value under the handle [e] as told by the calls of [tr] and their results. *)
From Verif.Spec Require Import Resources.
From Verif.Proofs Require Import ResourceP.
Local Open Scope N_scope.

(** C42: a handle gives the value it was created with or last assigned; reading it never fails otherwise. *)
Theorem C42_resource_map : ∀ T (s0 : rs T) tr s e, rinit s0 → rrun Debug s0 tr s →
  rs_index Debug s e = match held tr e with Some v => POk v | None => PPanic end.
Proof. exact @resource_map. Qed.
Print Assumptions C42_resource_map.
(** What release and assignment return; handles are new; creations never do anything undefined. *)
Theorem C42_resource_release : ∀ T (s0 : rs T) tr s e, rinit s0 → rrun Debug s0 tr s →
  match held tr e with Some v => ∃ s', rstep Debug (RRelease e) s = ROk s' (RValue v) | None => rstep Debug (RRelease e) s = RPanic s end.
Proof. exact @resource_release. Qed.
Print Assumptions C42_resource_release.
Theorem C42_resource_assign : ∀ T (s0 : rs T) tr s e v, rinit s0 → rrun Debug s0 tr s →
  match held tr e with Some old => ∃ s', rstep Debug (RAssign e v) s = ROk s' (RValue old) | None => rstep Debug (RAssign e v) s = RPanic s end.
Proof. exact @resource_assign. Qed.
Print Assumptions C42_resource_assign.
Theorem C42_resource_create : ∀ T (s0 : rs T) tr s v, rinit s0 → rrun Debug s0 tr s →
  match rstep Debug (RCreate v) s with ROk _ (RHandle e) => e ∉ rissued tr | RPanic _ => True | _ => False end.
Proof. exact @resource_create. Qed.
Print Assumptions C42_resource_create.
Example C42_example :
  rrun Debug rs_new ex_res_tr ex_res_st ∧ rissued ex_res_tr = [Entity 0 1; Entity 1 1; Entity 2 1; Entity 1 2] ∧
  List.map (held ex_res_tr) (rissued ex_res_tr) = [Some 20; None; Some 12; Some 13] ∧
  List.map (rs_index Debug ex_res_st) (rissued ex_res_tr) = [POk 20; PPanic; POk 12; POk 13].
Proof. split; [apply ex_res_run|]. vm_compute. done. Qed.

(** C43: the values given are those given back and those dropped with the store, each once. *)
Theorem C43_resource_returned_once : ∀ T (s0 : rs T) tr s, rinit s0 → rrun Debug s0 tr s →
  ∃ l, rs_drop s = POk l ∧ gave tr ≡ₚ got tr ++ l.
Proof. exact @resource_drop. Qed.
Print Assumptions C43_resource_returned_once.
Example C43_example :
  rrun Debug rs_new ex_res_tr ex_res_st ∧ gave ex_res_tr = [10; 11; 12; 20; 13] ∧ got ex_res_tr = [11; 10] ∧ rs_drop ex_res_st = POk [20; 13; 12].
Proof. split; [apply ex_res_run|]. vm_compute. done. Qed.

(** C44: stale handles make release, index and index_mut panic, changing nothing. *)
Theorem C44_stale_resource_handle : ∀ T (s0 : rs T) tr s e v, rinit s0 → rrun Debug s0 tr s → held tr e = None →
  rstep Debug (RRelease e) s = RPanic s ∧ rs_index Debug s e = PPanic ∧ rstep Debug (RAssign e v) s = RPanic s.
Proof. exact @resource_stale. Qed.
Print Assumptions C44_stale_resource_handle.
(** A released handle whose id is in use again. *)
Example C44_example :
  rrun Debug rs_new ex_res_tr ex_res_st ∧ held ex_res_tr (Entity 1 1) = None ∧ held ex_res_tr (Entity 1 2) = Some 13 ∧
  rs_index Debug ex_res_st (Entity 1 1) = PPanic.
Proof. split; [apply ex_res_run|]. vm_compute. done. Qed.
