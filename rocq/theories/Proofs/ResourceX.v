(** ResourceX.v — the resource store with caught panics, and in release builds. *)
From Verif.Spec Require Import ResourceX.
From Verif.Proofs Require Import ModeP UnwindH HandlesR.
From Verif.Proofs Require Export ResourceP.
Local Open Scope N_scope.

Section res.
Context {T : Type}.
Implicit Types (s : rs T) (v : T).

Lemma rinit_vers s : rinit s → vers_le 0 (rs_ec s).
Proof.
  intros [->|[cap ->]] id v Hv; apply aget_ok in Hv; simpl in Hv; unfold alloc_filled in Hv; apply lookup_replicate in Hv as [Heq _]; injection Heq as Heq; lia.
Qed.
Lemma vers_le_mono n m (s : ec) : n ≤ m → vers_le n s → vers_le m s.
Proof. intros Hle Hn id v Hv. specialize (Hn _ _ Hv). lia. Qed.
(** Versions, call by call. *)
Lemma rstep_vers md o s s' r n : rstep md o s = ROk s' r → vers_le n (rs_ec s) → vers_le (n + if is_rcreate o then 1 else 0) (rs_ec s').
Proof.
  intros H Hn. destruct o as [v|e|e v]; simpl in *.
  - apply bind_ok in H as (s1 & e & H & [-> ->]%ret_ok). unfold rs_create in H. apply bind_ok in H as (s2 & x & [-> ->]%get_ok & H).
    apply bind_ok in H as (s2 & cr & (t & Hcr & ->)%zoom_ok & H). pose proof (ec_create_vers md n _ Hn) as Hv. rewrite Hcr in Hv. simpl in Hv.
    apply bind_ok in H as (s2 & x & [-> ->]%get_ok & H). apply bind_ok in H as (s2 & [] & H2 & H).
    assert (vers_le (n + 1) (rs_ec s2)) as Ht. { destruct (container_was_grow cr); by inv1 H2. }
    by inv1 H.
  - apply bind_ok in H as (s1 & v & H & [-> ->]%ret_ok). unfold rs_release in H. apply bind_ok in H as (s2 & x & [-> ->]%get_ok & H).
    apply bind_ok in H as (s2 & [] & [_ ->]%lift_ok & H). apply bind_ok in H as (s2 & [] & (t & Hd & ->)%zoom_ok & H). apply lift_ok in H as [_ ->].
    apply ec_destroy_vers in Hd. simpl. rewrite N.add_0_r. unfold vers_le. by rewrite Hd.
  - apply bind_ok in H as (s1 & w & H & [-> ->]%ret_ok). rewrite N.add_0_r. unfold rs_assign in H. by inv1 H.
Qed.

(** ** Caught panics *)
Lemma ranswered_snoc tr (o : rop T) x : ranswered (tr ++ [(o, x)]) = ranswered tr ++ match x with Some r => [(o, r)] | None => [] end.
Proof. unfold ranswered. rewrite omap_app. csimpl. by destruct x. Qed.
Lemma rattempts_snoc tr (o : rop T) x : rattempts (tr ++ [(o, x)]) = (rattempts tr + if is_rcreate o then 1 else 0)%nat.
Proof. unfold rattempts. rewrite List.filter_app, app_length. simpl. by destruct (is_rcreate o). Qed.
(** A call that panics changes nothing while no id has used up its versions. *)
Lemma rstep_panicked s I L H o s' n : rs_inv s I L H → vers_le n (rs_ec s) → n + 1 < u32_size → rstep Debug o s = RPanic s' → s' = s.
Proof.
  intros Hi Hn Hlt Hp. destruct o as [v|e|e v]; simpl in Hp; unfold mbind, M_bind in Hp.
  - destruct (rs_create Debug v s) as [| s1 |] eqn:E; [done| |done]. injection Hp as <-.
    pose proof (rs_create_spec True _ _ _ _ v Hi) as Hsp. rewrite E in Hsp. destruct Hsp as (t & Ht & ->).
    pose proof (ec_create_panics True _ _ _ (ri_ec _ _ _ _ Hi)) as Hrv. rewrite Ht in Hrv. destruct Hrv as [->|(e & He & Hbig & _)]; [by destruct s|].
    apply aget_ver, Hn in He. lia.
  - pose proof (rs_release_spec _ _ _ _ e Hi) as Hsp. destruct (H e); [destruct Hsp as (s2 & E & _)|pose proof Hsp as E]; rewrite E in Hp; by inversion Hp.
  - pose proof (rs_assign_spec _ _ _ _ e v Hi) as Hsp. destruct (H e); [destruct Hsp as (s2 & E & _)|pose proof Hsp as E]; rewrite E in Hp; by inversion Hp.
Qed.
Lemma resource_caught s0 tr s : rinit s0 → prrun Debug s0 tr s → N.of_nat (rattempts tr) < 2 ^ 32 - 1 → rrun Debug s0 (ranswered tr) s.
Proof.
  intros H0 Hr Hlt. assert (rrun Debug s0 (ranswered tr) s ∧ vers_le (N.of_nat (rattempts tr)) (rs_ec s)) as [? _]; [|done].
  induction Hr as [|tr s o s' r Hr IH Hst|tr s o s' Hr IH Hst].
  - split; [constructor|]. by apply rinit_vers.
  - rewrite rattempts_snoc in *. destruct IH as [IH Hv]; [lia|]. rewrite ranswered_snoc. split; [by econstructor|].
    eapply vers_le_mono; [|by eapply rstep_vers]. destruct (is_rcreate o); lia.
  - rewrite rattempts_snoc in *. destruct IH as [IH Hv]; [lia|]. rewrite ranswered_snoc, app_nil_r.
    destruct (rrun_good _ _ _ H0 IH) as (L & Hi & _). assert (s' = s) as ->.
    { eapply (rstep_panicked _ _ _ _ o); [exact Hi|exact Hv| |exact Hst]. unfold u32_size in *. lia. }
    split; [done|]. eapply vers_le_mono; [|done]. lia.
Qed.

(** ** Release builds *)
Lemma rs_create_small s I L H n v : rs_inv s I L H → vers_le n (rs_ec s) → n + 1 < u32_size → N.of_nat (length I) + 1 < u32_size →
  rs_create Release v s = rs_create Debug v s.
Proof.
  intros Hi Hn Hlt HI. pose proof (next_issued _ _ _ (ri_ec _ _ _ _ Hi)) as Hnx.
  destruct (ec_create_small _ _ _ n (ri_ec _ _ _ _ Hi)) as [E _]; [intros id w Hw%aget_ver; by eapply Hn|done|lia|].
  unfold rs_create, mbind, M_bind, getS, zoom. by rewrite E.
Qed.
Lemma rcareful_snoc tr (o : rop T) r : rcareful (tr ++ [(o, r)]) →
  rcareful tr ∧ match o with RCreate _ => True | RRelease e | RAssign e _ => held tr e ≠ None end.
Proof.
  intros H. split; [|exact (H tr o r [] eq_refl)]. intros tr1 o' r' tr2 ->. apply (H tr1 o' r' (tr2 ++ [(o, r)])). by rewrite <- app_assoc.
Qed.
Lemma resource_release_mode s0 tr s : rinit s0 → rrun Release s0 tr s → rcareful tr → N.of_nat (length (rissued tr)) < 2 ^ 32 - 1 → rrun Debug s0 tr s.
Proof.
  intros H0 Hr Hc Hlt. assert (rrun Debug s0 tr s ∧ vers_le (N.of_nat (length (rissued tr))) (rs_ec s)) as [? _]; [|done].
  induction Hr as [|tr s o s' r Hr IH Hst]; [split; [constructor|by apply rinit_vers]|].
  apply rcareful_snoc in Hc as [Hc Ho]. destruct (snoc_lists tr o r) as (Hiss & _). rewrite Hiss, app_length in *.
  destruct IH as [IH Hv]; [done|lia|]. destruct (rrun_good _ _ _ H0 IH) as (L & Hi & _).
  assert (rstep Debug o s = ROk s' r) as Hd.
  { destruct o as [v|e|e v].
    - simpl in *. unfold mbind, M_bind in *. rewrite <- (rs_create_small _ _ _ _ _ _ Hi Hv); [done|unfold u32_size; lia..].
    - pose proof (resource_release _ _ _ e H0 IH) as Hsp. destruct (held tr e) as [w|]; [|done]. destruct Hsp as [s2 E].
      pose proof (rstep_agree (RRelease e) s) as Ha. unfold ragree in Ha. rewrite E in Ha. congruence.
    - pose proof (resource_assign _ _ _ e v H0 IH) as Hsp. destruct (held tr e) as [w|]; [|done]. destruct Hsp as [s2 E].
      pose proof (rstep_agree (RAssign e v) s) as Ha. unfold ragree in Ha. rewrite E in Ha. congruence. }
  split; [by econstructor|]. eapply vers_le_mono; [|by eapply rstep_vers].
  destruct o as [v|e|e v]; simpl; [|lia..]. simpl in Hst. apply bind_ok in Hst as (s1 & e & _ & [-> ->]%ret_ok). simpl. lia.
Qed.
End res.

(** ** An id whose versions are used up *)
Definition rworn (x : option unit) (k : N) (al : bool) : rs unit := RS [x] (EC [] 1 [Some k] [if al then 1 else 0] (if al then 1 else 0)).
Lemma rworn_create x k y : u32_add Debug k 1 = POk y → rstep Debug (RCreate tt) (rworn x k false) = ROk (rworn (Some tt) y true) (RHandle (Entity 0 y)).
Proof. intros H. cbv -[u32_add N.add]. rewrite u32_add_01. rewrite H. reflexivity. Qed.
Lemma rworn_create_panics x k : u32_add Debug k 1 = PPanic → rstep Debug (RCreate tt) (rworn x k false) = RPanic (rworn x k true).
Proof. intros H. cbv -[u32_add N.add]. rewrite u32_add_01. rewrite H. reflexivity. Qed.
Lemma rworn_release k : rstep Debug (RRelease (Entity 0 k)) (rworn (Some tt) k true) = ROk (rworn (Some tt) k false) (RValue tt).
Proof. destruct k as [|p]; [reflexivity|]. pose proof (Pos.eqb_refl p) as Hp. unfold Pos.eqb in Hp. cbv. rewrite Hp. cbv. rewrite Hp. reflexivity. Qed.
Lemma rworn_run k : k < u32_size → ∃ tr, prrun Debug (rs_with_capacity 1) tr (rworn (if k =? 0 then None else Some tt) k false) ∧
  length (gave (ranswered tr)) = length (got (ranswered tr)) ∧ (1 ≤ k → held (ranswered tr) (Entity 0 k) = None).
Proof.
  induction k as [|k IH] using N.peano_ind; intros Hk; [exists []; split_and!; [constructor|done|lia]|].
  destruct IH as (tr & Hrun & Hl & _); [lia|].
  assert (u32_add Debug k 1 = POk (N.succ k)) as Hadd. { unfold u32_add. rewrite N.add_1_r. apply N.ltb_lt in Hk. by rewrite Hk. }
  exists ((tr ++ [(RCreate tt, Some (RHandle (Entity 0 (N.succ k))))]) ++ [(RRelease (Entity 0 (N.succ k)), Some (RValue tt))]).
  replace (N.succ k =? 0) with false by (symmetry; apply N.eqb_neq; lia). split_and!.
  - eapply prrun_returned; [eapply prrun_returned; [exact Hrun|exact (rworn_create _ _ _ Hadd)]|exact (rworn_release _)].
  - rewrite !ranswered_snoc. unfold gave, got in *. rewrite !omap_app, !app_length. simpl. lia.
  - intros _. rewrite !ranswered_snoc, !held_snoc. simpl. by rewrite !decide_True.
Qed.
Lemma resource_caught_once_refuted : ¬ ∀ T (s0 : rs T) tr s, rinit s0 → prrun Debug s0 tr s →
  ∃ l, rs_drop s = POk l ∧ gave (ranswered tr) ≡ₚ got (ranswered tr) ++ l.
Proof.
  intros H. destruct (rworn_run (u32_size - 1)) as (tr & Hrun & Hl & _); [done|].
  destruct (H unit (rs_with_capacity 1) (tr ++ [(RCreate tt, None)]) (rworn (Some tt) (u32_size - 1) true)) as (l & Hd & Hp).
  - right. by exists 1.
  - eapply prrun_panicked; [exact Hrun|]. exact (rworn_create_panics _ (u32_size - 1) eq_refl).
  - assert (rs_drop (rworn (Some tt) (u32_size - 1) true) = POk [tt]) as E by (vm_compute; reflexivity). rewrite E in Hd. injection Hd as <-.
    rewrite ranswered_snoc, app_nil_r in Hp. apply Permutation_length in Hp. rewrite app_length in Hp. simpl in Hp. lia.
Qed.
Lemma resource_caught_stale_refuted : ¬ ∀ T (s0 : rs T) tr s e, rinit s0 → prrun Debug s0 tr s → held (ranswered tr) e = None → rs_index Debug s e = PPanic.
Proof.
  intros H. destruct (rworn_run (u32_size - 1)) as (tr & Hrun & _ & Hh); [done|].
  assert (rs_index Debug (rworn (Some tt) (u32_size - 1) true) (Entity 0 (u32_size - 1)) = PPanic) as E.
  { apply (H unit (rs_with_capacity 1) (tr ++ [(RCreate tt, None)])).
    - right. by exists 1.
    - eapply prrun_panicked; [exact Hrun|]. exact (rworn_create_panics _ (u32_size - 1) eq_refl).
    - rewrite ranswered_snoc, app_nil_r. by apply Hh. }
  vm_compute in E. discriminate.
Qed.

(** ** Concrete histories *)
Fixpoint mexec (md : mode) (ops : list (rop N)) (tr : rtrace N) : M (rs N) (rtrace N) :=
  match ops with [] => mret tr | o :: ops => r ← rstep md o; mexec md ops (tr ++ [(o, r)]) end.
Lemma mexec_run md s0 ops tr s s' tr' : rrun md s0 tr s → mexec md ops tr s = ROk s' tr' → rrun md s0 tr' s'.
Proof.
  revert tr s. induction ops as [|o ops IH]; intros tr s Hr; simpl; [by intros [= <- <-]|]. unfold mbind, M_bind.
  destruct (rstep md o s) eqn:E; [|done..]. apply IH. by econstructor.
Qed.
Lemma resource_release_once_refuted : ¬ ∀ T (s0 : rs T) tr s, rinit s0 → rrun Release s0 tr s → ∃ l, rs_drop s = POk l ∧ gave tr ≡ₚ got tr ++ l.
Proof.
  intros H. destruct (mexec Release [RCreate 7; RRelease (Entity 0 1); RRelease (Entity 0 1)] [] rs_new) as [s tr| |] eqn:E; [|vm_compute in E; discriminate..].
  destruct (H N rs_new tr s) as (l & Hd & Hp); [by left|by eapply mexec_run; [constructor|exact E]|].
  vm_compute in E. injection E as <- <-. vm_compute in Hd. injection Hd as <-. apply Permutation_length in Hp. simpl in Hp. discriminate.
Qed.
Lemma resource_release_map_refuted : ¬ ∀ T (s0 : rs T) tr s e v, rinit s0 → rrun Release s0 tr s → held tr e = Some v → rs_index Release s e = POk v.
Proof.
  intros H. destruct (mexec Release [RCreate 7; RRelease (Entity 0 1); RCreate 8; RAssign (Entity 0 1) 9] [] rs_new) as [s tr| |] eqn:E; [|vm_compute in E; discriminate..].
  assert (rrun Release rs_new tr s) as Hr by (by eapply mexec_run; [constructor|exact E]).
  pose proof (λ e v, H N rs_new tr s e v (or_introl eq_refl) Hr) as H'. vm_compute in E. injection E as <- <-.
  specialize (H' (Entity 0 2) 8 eq_refl). vm_compute in H'. discriminate.
Qed.
Fixpoint pexec (ops : list (rop N)) (tr : list (rop N * option (rout N))) (s : rs N) : option (list (rop N * option (rout N)) * rs N) :=
  match ops with
  | [] => Some (tr, s)
  | o :: ops => match rstep Debug o s with ROk s' r => pexec ops (tr ++ [(o, Some r)]) s' | RPanic s' => pexec ops (tr ++ [(o, None)]) s' | RUB _ => None end
  end.
Lemma pexec_run s0 ops tr s tr' s' : prrun Debug s0 tr s → pexec ops tr s = Some (tr', s') → prrun Debug s0 tr' s'.
Proof.
  revert tr s. induction ops as [|o ops IH]; intros tr s Hr; simpl; [by intros [= <- <-]|].
  destruct (rstep Debug o s) eqn:E; [|..|done]; apply IH; by econstructor.
Qed.
Definition ex_caught : list (rop N) :=
  [RCreate 10; RRelease (Entity 5 5); RCreate 11; RRelease (Entity 0 1); RRelease (Entity 0 1); RAssign (Entity 0 1) 30; RCreate 12; RAssign (Entity 0 2) 13].
Definition ex_careful : list (rop N) := [RCreate 10; RCreate 11; RRelease (Entity 0 1); RCreate 12; RAssign (Entity 0 2) 13; RRelease (Entity 1 1)].
Lemma resource_caught_map T (s0 : rs T) tr s : rinit s0 → prrun Debug s0 tr s → N.of_nat (rattempts tr) < 2 ^ 32 - 1 →
  (∀ e, rs_index Debug s e = match held (ranswered tr) e with Some v => POk v | None => PPanic end) ∧
  ∃ l, rs_drop s = POk l ∧ gave (ranswered tr) ≡ₚ got (ranswered tr) ++ l.
Proof.
  intros H0 Hr Hlt. pose proof (resource_caught _ _ _ H0 Hr Hlt) as Hr'. split; [intros e; by apply (resource_map s0)|by apply (resource_drop s0)].
Qed.
Lemma resource_release_map T (s0 : rs T) tr s : rinit s0 → rrun Release s0 tr s → rcareful tr → N.of_nat (length (rissued tr)) < 2 ^ 32 - 1 →
  NoDup (rissued tr) ∧ (∀ e v, held tr e = Some v → rs_index Release s e = POk v) ∧ ∃ l, rs_drop s = POk l ∧ gave tr ≡ₚ got tr ++ l.
Proof.
  intros H0 Hr Hc Hlt. pose proof (resource_release_mode _ _ _ H0 Hr Hc Hlt) as Hr'. split_and!; [| |by apply (resource_drop s0)].
  - destruct (rrun_good _ _ _ H0 Hr') as (L & Hi & _). apply (inv_issued_nodup _ _ _ (ri_ec _ _ _ _ Hi)).
  - intros e v He. pose proof (resource_map _ _ _ e H0 Hr') as Hx. rewrite He in Hx. unfold rs_index in *.
    apply pbind_ok in Hx as ([] & _ & Hx). simpl. done.
Qed.
