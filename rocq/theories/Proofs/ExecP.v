(** ExecP.v — concrete histories computed by [exec] are runs; a concrete environment. Used for examples and witnesses. *)
From Verif.Model Require Export Run BinarySearch.
From Verif.Spec Require Export Env.
From Verif.Proofs Require Export Wp BinarySearchP.
Local Open Scope N_scope.

(** Final trace and state of a concrete history. *)
Definition end_ok (c : cfg) (cap : N) (ops : list (list entity → op)) : bool :=
  match exec0 c cap ops with ROk _ _ => true | _ => false end.
Definition end_trace (c : cfg) (cap : N) (ops : list (list entity → op)) : trace :=
  match exec0 c cap ops with ROk _ (tr, _) => tr | _ => [] end.
Definition end_store (c : cfg) (cap : N) (ops : list (list entity → op)) : store :=
  match exec0 c cap ops with
  | ROk s _ => s
  | _ => Store (ec_new 0) ac_new (tags_new 0) (orders_new 0) [] [] []
  end.

Lemma exec_run c cap ops hs tr s s' tr' hs' : run c cap tr s →
  exec c ops hs tr s = ROk s' (tr', hs') → run c cap tr' s'.
Proof.
  revert hs tr s. induction ops as [|o ops IH]; intros hs tr s Hr; simpl.
  - intros [= <- <- <-]. done.
  - destruct (step c (o hs) s) as [s1 r| |] eqn:E; [|done..]. intros H. eapply IH; [|exact H].
    by econstructor.
Qed.
Lemma end_run c cap ops : end_ok c cap ops = true → run c cap (end_trace c cap ops) (end_store c cap ops).
Proof.
  unfold end_ok, end_trace, end_store. destruct (exec0 c cap ops) as [s [tr hs]| |] eqn:E; [|done..]. intros _.
  unfold exec0 in E. destruct (store_with_capacity (c_mode c) cap) as [s0| |] eqn:E0; [|done..].
  eapply exec_run; [|exact E]. by constructor.
Qed.

(** A concrete environment: a few component types of various sizes and alignments. *)
Definition ex_ty (t : tid) : tyinfo :=
  match t with
  | 1 => TyInfo 4 4 | 2 => TyInfo 8 8 | 3 => TyInfo 1 1 | 4 => TyInfo 2 2
  | 5 => TyInfo 5000 4
  | 6 => TyInfo 16384 1
  | 7 => TyInfo 0 1
  | _ => TyInfo 4 4
  end.
Definition ex_cfg (md : mode) : cfg := Cfg md ex_ty bs_old rawvec_grow.
(** The same with the binary search of newer standard libraries. *)
Definition ex_cfg_new (md : mode) : cfg := Cfg md ex_ty bs_new rawvec_grow.

Lemma ex_cfg_ok md : cfg_ok (ex_cfg md).
Proof.
  split; [apply bs_old_ok|apply rawvec_grow_ok|]. intros t. unfold ex_cfg, ex_ty. simpl.
  repeat case_match; simpl; lia.
Qed.
Lemma ex_cfg_new_ok md : cfg_ok (ex_cfg_new md).
Proof. split; [apply bs_new_ok|apply rawvec_grow_ok|apply (ex_cfg_ok md)]. Qed.

(** The archetype of a tuple of types, and the n-th handle of a history. *)
Definition ex_arch (T : list tid) : archetype :=
  match with_components (ex_cfg Debug) T with POk a => a | _ => [] end.
Definition h (n : nat) (hs : list entity) : entity := default entity_null (hs !! n).
