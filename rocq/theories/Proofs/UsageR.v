(** UsageR.v — histories in which page bookkeeping is not healthy. *)
From Verif.Spec Require Export Usage.
From Verif.Proofs Require Export CompX.
Local Open Scope N_scope.

(** Concrete histories are runs in the sense of [grun]. *)
Fixpoint gexec (hb : ac → option (gset tid) → bool) (c : cfg) (ops : list (list entity → op)) (hs : list entity) (tr : trace) (s : store) : bool :=
  match ops with
  | [] => true
  | o :: r =>
    hb (st_ac s) (asks tr (o hs)) && argsb c tr (o hs) &&
    match step c (o hs) s with
    | ROk s' x => gexec hb c r (match x with Some e => hs ++ [e] | None => hs end) (tr ++ [(o hs, x)]) s'
    | _ => false
    end
  end.
Definition gend_ok (hb : ac → option (gset tid) → bool) (c : cfg) (cap : N) (ops : list (list entity → op)) : bool :=
  match store_with_capacity (c_mode c) cap with POk s => gexec hb c ops [] [] s | _ => false end.
Section gexec.
Context (H : ac → option (gset tid) → Prop) (hb : ac → option (gset tid) → bool) (Hb : ∀ s w, hb s w = true → H s w).
Lemma gexec_run c cap ops hs tr s : grun H c cap tr s → gexec hb c ops hs tr s = true →
  ∃ s' tr' hs', exec c ops hs tr s = ROk s' (tr', hs') ∧ grun H c cap tr' s'.
Proof using Hb.
  revert hs tr s. induction ops as [|o ops IH]; intros hs tr s Hr; simpl.
  - intros _. eauto 10.
  - intros [[H1%Hb [H2 H3]%argsb_ok]%andb_prop H4]%andb_prop. destruct (step c (o hs) s) as [s1 r| |] eqn:E; [|done..].
    apply IH; [|done]. by econstructor.
Qed.
Lemma gend_run c cap ops : gend_ok hb c cap ops = true → grun H c cap (end_trace c cap ops) (end_store c cap ops).
Proof using Hb.
  unfold gend_ok, end_trace, end_store, exec0. destruct (store_with_capacity (c_mode c) cap) as [s| |] eqn:E; [|done..].
  intros H1. destruct (gexec_run c cap ops [] [] s) as (s' & tr' & hs' & -> & ?); [by constructor|done|done].
Qed.
End gexec.
(** Conditions on all archetypes. *)
Definition all_roomy (s : ac) (_ : option (gset tid)) : Prop := roomy s.
Definition all_sorted (s : ac) (_ : option (gset tid)) : Prop := sorted_free s.
Definition roomyb (s : ac) (_ : option (gset tid)) : bool := forallb (roomy_atb s) (seq 0 (length (ac_pages_of s))).
Lemma roomyb_ok s w : roomyb s w = true → all_roomy s w.
Proof.
  unfold roomyb. rewrite forallb_forall. intros H i ps p pg ly Hps. eapply roomy_atb_ok; [|done]. apply H, elem_of_list_In, elem_of_seq.
  apply lookup_lt_Some in Hps. lia.
Qed.
Definition sortedb (s : ac) (_ : option (gset tid)) : bool := incrb (N.of_nat <$> ac_free_archs s).
Lemma sortedb_ok s w : sortedb s w = true → all_sorted s w.
Proof. apply incrb_ok. Qed.

(** The state after a call that returns, and what it returned. *)
Definition after (c : cfg) (o : op) (s : store) : store := match step c o s with ROk s' _ => s' | _ => s end.
Definition returned (c : cfg) (o : op) (s : store) : option (option entity) := match step c o s with ROk _ r => Some r | _ => None end.
Lemma after_step c o s r : returned c o s = Some r → step c o s = ROk (after c o s) r.
Proof. unfold returned, after. destruct (step c o s); naive_solver. Qed.

(** ** Abandoned archetypes out of order *)
Definition ex_reuse : list (list entity → op) :=
  [ λ _, OCreateWith (ex_arch [1]); λ _, OCreateWith (ex_arch [2]); λ _, OCreateWith (ex_arch [3]);
    λ hs, ODestroy (h 2 hs); λ hs, ODestroy (h 1 hs);              (* two archetypes abandoned, the later one first *)
    λ _, OCreate; λ hs, OAdd (h 3 hs) [(3, [42])];                 (* the archetype of type 3 is used again *)
    λ _, OCreateWith (ex_arch [1; 2]) ].                           (* the next new archetype takes its place *)
Lemma reuse_witness c : c = ex_cfg Debug ∨ c = ex_cfg_new Debug → ∃ tr s s' r, grun all_roomy c 8 tr s ∧ roomyb (st_ac s) None = true ∧
  argsb c tr (OCreateWith (ex_arch [1; 3])) = true ∧ step c (OCreateWith (ex_arch [1; 3])) s = ROk s' r ∧ Entity 1 2 ∈ live tr ∧
  read_components c s (Entity 1 2) [3] = POk (Some [[Some 42]]) ∧ read_components c s' (Entity 1 2) [3] = POk (Some [[None]]).
Proof.
  intros Hc. exists (end_trace c 8 ex_reuse), (end_store c 8 ex_reuse), (after c (OCreateWith (ex_arch [1; 3])) (end_store c 8 ex_reuse)), (Some (Entity 3 1)).
  split; [apply (gend_run _ _ roomyb_ok); destruct Hc as [->| ->]; vm_compute; reflexivity|].
  split; [destruct Hc as [->| ->]; vm_compute; reflexivity|].
  split; [destruct Hc as [->| ->]; vm_compute; reflexivity|].
  split; [apply after_step; destruct Hc as [->| ->]; vm_compute; reflexivity|].
  split; [destruct Hc as [->| ->]; vm_compute; done|].
  split; destruct Hc as [->| ->]; vm_compute; reflexivity.
Qed.
Lemma slots_refuted : ¬ others_kept (λ _ s _, roomy s).
Proof.
  intros H. destruct (reuse_witness (ex_cfg Debug)) as (tr & s & s' & r & Hr & Hro & Ha & Hst & Hl & H1 & H2); [by left|].
  apply argsb_ok in Ha as [Ha Hrm].
  rewrite (H _ _ _ _ _ _ _ _ [3] _ (ex_cfg_ok Debug) eq_refl Hr (roomyb_ok _ None Hro) Ha Hrm Hst (proj1 (live_alive _ _) Hl) eq_refl ltac:(done) H1) in H2. done.
Qed.

(** ** Pages with fewer rows than their Vec has room for *)
Definition big_ty (t : tid) : tyinfo := match t with 1 => TyInfo 1 1 | 2 => TyInfo 5000 1 | 3 => TyInfo 4000 4 | _ => TyInfo 4 4 end.
Definition big_cfg : cfg := Cfg Debug big_ty bs_old rawvec_grow.
Lemma big_cfg_ok : cfg_ok big_cfg.
Proof. split; [apply bs_old_ok|apply rawvec_grow_ok|]. intros t. simpl. unfold big_ty. repeat case_match; simpl; lia. Qed.
Definition big_arch (T : list tid) : archetype := match with_components big_cfg T with POk a => a | _ => [] end.
(** The layout gives a page 1 row of types 1 and 2, but the Vec of a new page has room for 4. *)
Definition ex_overlap : list (list entity → op) :=
  [ λ _, OCreateWith (big_arch [1; 2]); λ _, OCreateWith (big_arch [1; 2]); λ _, OCreateWith (big_arch [1; 2]);
    λ _, OCreateWith (big_arch [1; 2]); λ hs, OAdd (h 0 hs) [(2, replicate 5000 7)] ].
(** The page of an abandoned archetype of small components is used for large ones. *)
Definition ex_overflow : list (list entity → op) :=
  [ λ _, OCreateWith (big_arch [2]); λ _, OCreateWith (big_arch [1]); λ hs, ODestroy (h 1 hs);
    λ _, OCreateWith (big_arch [3]); λ _, OCreateWith (big_arch [3]); λ _, OCreateWith (big_arch [3]);
    λ _, OCreateWith (big_arch [3]); λ _, OCreateWith (big_arch [3]) ].

Definition first_byte (r : pres (option (list (list cell)))) : option cell :=
  match r with POk (Some (v :: _)) => v !! 0%nat | _ => None end.
Lemma first_byte_read r b : first_byte r = Some b → ∃ v, r = POk (Some v).
Proof. destruct r as [[v|]| |]; simpl; naive_solver. Qed.
Lemma overlap_witness : ∃ tr s s' r, grun all_sorted big_cfg 8 tr s ∧ sortedb (st_ac s) None = true ∧
  argsb big_cfg tr (OSet (Entity 1 1) [(1, [77])]) = true ∧ step big_cfg (OSet (Entity 1 1) [(1, [77])]) s = ROk s' r ∧ Entity 0 1 ∈ live tr ∧
  first_byte (read_components big_cfg s (Entity 0 1) [2]) = Some (Some 7) ∧
  first_byte (read_components big_cfg s' (Entity 0 1) [2]) = Some (Some 77).
Proof.
  exists (end_trace big_cfg 8 ex_overlap), (end_store big_cfg 8 ex_overlap),
    (after big_cfg (OSet (Entity 1 1) [(1, [77])]) (end_store big_cfg 8 ex_overlap)), None.
  split; [apply (gend_run _ _ sortedb_ok); vm_compute; reflexivity|].
  split; [vm_compute; reflexivity|]. split; [vm_compute; reflexivity|].
  split; [apply after_step; vm_compute; reflexivity|]. split; [vm_compute; done|]. split; vm_compute; reflexivity.
Qed.
Lemma overlap_refuted : ¬ others_kept (λ _ s _, sorted_free s).
Proof.
  intros H. destruct overlap_witness as (tr & s & s' & r & Hr & Hro & Ha & Hst & Hl & H1 & H2).
  apply argsb_ok in Ha as [Ha Hrm]. destruct (first_byte_read _ _ H1) as [v Hv].
  rewrite (H _ _ _ _ _ _ _ _ [2] _ big_cfg_ok eq_refl Hr (sortedb_ok _ None Hro) Ha Hrm Hst (proj1 (live_alive _ _) Hl) eq_refl ltac:(done) Hv) in H2. rewrite Hv in H1. congruence.
Qed.
Definition overflow_vals : list (tid * list N) := [(3, replicate 4000 1)].
Lemma overflow_witness : ∃ tr s, grun all_sorted big_cfg 8 tr s ∧ sortedb (st_ac s) None = true ∧
  argsb big_cfg tr (OAdd (Entity 5 1) overflow_vals) = true ∧ step big_cfg (OAdd (Entity 5 1) overflow_vals) s = RUB OutOfBounds.
Proof.
  exists (end_trace big_cfg 8 ex_overflow), (end_store big_cfg 8 ex_overflow).
  split; [apply (gend_run _ _ sortedb_ok); vm_compute; reflexivity|]. split; [vm_compute; reflexivity|]. split; vm_compute; reflexivity.
Qed.
Lemma overflow_refuted : ¬ stays_inside (λ _ s _, sorted_free s).
Proof.
  intros H. destruct overflow_witness as (tr & s & Hr & Hro & Ha & Hst). apply argsb_ok in Ha as [Ha Hrm].
  exact (H _ _ _ _ _ big_cfg_ok eq_refl Hr (sortedb_ok _ None Hro) Ha Hrm Hst).
Qed.
