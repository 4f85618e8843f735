(** GrowthP.v — how often a history makes the store grow. *)
From Verif.Model Require Import Heap.
From Verif.Spec Require Export Growth Env Components Discipline.
From Verif.Proofs Require Import EntitiesP StoreP HandlesP ExecP CompX DiscP.
Local Open Scope N_scope.

Lemma ec_grow_cap n s s' : ec_grow n s = ROk s' () → ec_cap s' = ec_cap s ∨ ec_cap s' = n.
Proof.
  unfold ec_grow. intros H. apply bind_ok in H as (s0 & x & [-> ->]%get_ok & H). destruct (n <=? ec_cap s); inv1 H; [by left|by right].
Qed.
Lemma ec_create_cap md s s' cr : ec_create md s = ROk s' cr → ec_cap s' = ec_cap s ∨ ec_cap s' = N.max (ec_cap s) 1 * 2.
Proof.
  unfold ec_create. intros H. apply bind_ok in H as (s0 & x & [-> ->]%get_ok & H).
  apply bind_ok in H as (s1 & id & H1 & H). inv1 H. simpl. revert H1. destruct (last (ec_gaps s)) as [g|]; intros H1.
  - inv1 H1. by left.
  - apply bind_ok in H1 as (s2 & nf & [_ ->]%lift_ok & H1). apply bind_ok in H1 as (s3 & [] & ->%mod_ok & H1).
    apply bind_ok in H1 as (s4 & [] & H1 & [-> ->]%ret_ok). destruct (will_grow_with_id s (ec_next s)).
    + by apply ec_grow_cap in H1.
    + apply ret_ok in H1 as [_ H1]. subst. by left.
Qed.
Lemma ec_create_grows md s s' cr : ec_create md s = ROk s' cr → last (ec_gaps s) = None → will_grow_with_id s (ec_next s) = true → ec_cap s' ≠ ec_cap s.
Proof.
  unfold ec_create. intros H Hl Hw. apply bind_ok in H as (s0 & x & [-> ->]%get_ok & H). rewrite Hl, Hw in H.
  apply bind_ok in H as (s1 & id & H1 & H). inv1 H. simpl.
  apply bind_ok in H1 as (s2 & nf & [_ ->]%lift_ok & H1). apply bind_ok in H1 as (s3 & [] & ->%mod_ok & H1).
  apply bind_ok in H1 as (s4 & [] & H1 & [-> ->]%ret_ok). unfold ec_grow in H1. apply bind_ok in H1 as (s5 & x & [-> ->]%get_ok & H1). simpl in H1.
  assert ((N.max (ec_cap s) 1 * 2 <=? ec_cap s) = false) as E by (apply N.leb_gt; lia). rewrite E in H1. inv1 H1. simpl. lia.
Qed.
Lemma step_cap c o s s' r : step c o s = ROk s' r →
  entities_capacity s' = entities_capacity s ∨ entities_capacity s' = N.max (entities_capacity s) 1 * 2 ∧ is_Some r.
Proof.
  unfold entities_capacity. intros H%step_ec. destruct H as [o cr s1 Ho H|e s1 H|o _ _ _].
  - apply ec_create_cap in H as [H|H]; [by left|right; split; [done|by eexists]].
  - left. by eapply ec_destroy_cap.
  - by left.
Qed.

Lemma copied_snoc l x : copied (l ++ [x]) = copied l + x.
Proof. unfold copied. induction l as [|y l IH]; simpl; [lia|]. rewrite IH. lia. Qed.
Lemma growths_run c cap tr s l : growths c cap tr s l → run c cap tr s.
Proof. induction 1; [by constructor| |]; by econstructor. Qed.
Lemma run_growths c cap tr s : run c cap tr s → ∃ l, growths c cap tr s l.
Proof.
  induction 1 as [s H|tr s o s' r Hr [l IH] H]; [exists []; by constructor|].
  destruct (decide (entities_capacity s' = entities_capacity s)); eexists; [by eapply growths_same|by eapply growths_more].
Qed.
Lemma growths_capacity c cap tr s l : growths c cap tr s l →
  entities_capacity s = match l with [] => cap | _ => N.max cap 1 * 2 ^ N.of_nat (length l) end ∧
  copied l + N.max cap 1 ≤ N.max (entities_capacity s) 1.
Proof.
  induction 1 as [s H|tr s l o s' r Hg [IH1 IH2] H Heq|tr s l o s' r Hg [IH1 IH2] H Hne].
  - apply store_init_ec in H as [H _]. unfold entities_capacity. rewrite H. simpl. split; [done|]. lia.
  - by rewrite Heq.
  - apply step_cap in H as [H|[H _]]; [done|]. rewrite H, copied_snoc. split; [|lia].
    destruct l as [|x l].
    + rewrite IH1. simpl. lia.
    + simpl app. cbv iota. rewrite IH1. rewrite app_comm_cons, app_length, Nat.add_comm. cbn [length Nat.add]. rewrite !Nat2N.inj_succ, !N.pow_succ_r'.
      pose proof (N.pow_nonzero 2 (N.of_nat (length l))). nia.
Qed.
Lemma growths_below c cap tr s l : growths c cap tr s l → entities_capacity s ≤ N.max cap (2 * peak tr) → l ≠ [] →
  cap * 2 ^ N.of_nat (length l) ≤ 2 * peak tr ∧ copied l < 2 * peak tr.
Proof.
  intros Hg Hb Hne. destruct (growths_capacity _ _ _ _ _ Hg) as [H1 H2]. destruct l as [|x l]; [done|]. cbv iota in H1.
  assert (2 ≤ 2 ^ N.of_nat (length (x :: l))) as Hp. { cbn [length]. rewrite Nat2N.inj_succ, N.pow_succ_r'. pose proof (N.pow_nonzero 2 (N.of_nat (length l))). lia. }
  assert (cap < entities_capacity s) as Hlt by (rewrite H1; nia). split; [|lia].
  assert (cap * 2 ^ N.of_nat (length (x :: l)) ≤ entities_capacity s) by (rewrite H1; nia). lia.
Qed.
Lemma growths_bounded c cap tr s l : c_mode c = Debug → growths c cap tr s l → cap < 2 ^ 32 → peak tr < 2 ^ 31 → l ≠ [] →
  cap * 2 ^ N.of_nat (length l) ≤ 2 * peak tr ∧ copied l < 2 * peak tr.
Proof. intros Hmd Hg Hcap Hpeak. apply (growths_below c cap tr s l Hg). exact (capacity_bound c cap Hmd tr s (growths_run _ _ _ _ _ Hg) Hcap Hpeak). Qed.
Lemma growths_bounded_both c cap tr s l : cfg_ok c → drun (healthy c) c cap tr s → growths c cap tr s l → cap < 2 ^ 32 → peak tr < 2 ^ 31 → l ≠ [] →
  cap * 2 ^ N.of_nat (length l) ≤ 2 * peak tr ∧ copied l < 2 * peak tr.
Proof.
  intros Hc [Hr _]%(drun_debug _ _ _ _ Hc) Hg Hcap Hpeak. apply (growths_below c cap tr s l Hg).
  exact (capacity_bound (in_mode Debug c) cap eq_refl tr s (hrun_run _ _ _ _ Hr) Hcap Hpeak).
Qed.

(** ** Calls to the allocator *)
Definition calls_le {A} (m : M calls A) (n : nat) : Prop := ∀ h, ∃ h' k, m h = ROk (h' ++ h) k ∧ (length h' ≤ n)%nat.
Lemma calls_ret {A} (a : A) : calls_le (mret a) 0.
Proof. intros h. by exists [], a. Qed.
Lemma calls_le_le {A} (m : M calls A) n n' : calls_le m n → (n ≤ n')%nat → calls_le m n'.
Proof. intros H Hn h. destruct (H h) as (h' & k & H1 & H2). exists h', k. split; [done|lia]. Qed.
Lemma calls_bind {A B} (m : M calls A) (f : A → M calls B) n n' : calls_le m n → (∀ a, calls_le (f a) n') → calls_le (m ≫= f) (n + n').
Proof.
  intros H1 H2 h. destruct (H1 h) as (h1 & a & E1 & L1). destruct (H2 a (h1 ++ h)) as (h2 & b & E2 & L2).
  exists (h2 ++ h1), b. unfold mbind, M_bind. rewrite E1, E2, app_assoc, app_length. split; [done|lia].
Qed.
Lemma calls_alloc t n : calls_le (mem_alloc t n) 1.
Proof. intros h. eexists [_], _. by split; [unfold mem_alloc, std_alloc|]. Qed.
Lemma calls_dealloc t p n : calls_le (mem_dealloc t p n) 1.
Proof. intros h. eexists [_], _. by split; [unfold mem_dealloc, std_dealloc|]. Qed.
Lemma calls_realloc t p o n : calls_le (mem_realloc t p o n) 2.
Proof.
  unfold mem_realloc. destruct (o =? n); [eapply calls_le_le; [apply calls_ret|lia]|].
  apply (calls_bind _ _ 1 1); [apply calls_alloc|intros q]. apply (calls_bind _ _ 1 0); [apply calls_dealloc|intros _]. apply calls_ret.
Qed.
Lemma calls_realloc_zeroing t p o n : calls_le (mem_realloc_zeroing t p o n) 2.
Proof.
  apply (calls_bind _ _ 1 1); [apply calls_alloc|intros q]. apply (calls_bind _ _ 1 0); [apply calls_dealloc|intros _]. apply calls_ret.
Qed.
Lemma calls_bits p o n : calls_le (bits_realloc p o n) 2.
Proof.
  unfold bits_realloc. destruct (_ =? _); [eapply calls_le_le; [apply calls_ret|lia]|].
  apply (calls_bind _ _ 1 1); [apply calls_alloc|intros q]. apply (calls_bind _ _ 1 0); [apply calls_dealloc|intros _]. apply calls_ret.
Qed.
Lemma calls_each f n ps : (∀ p, calls_le (f p) n) → calls_le (each_replaced f ps) (n * length ps).
Proof.
  intros Hf. induction ps as [|p ps IH]; simpl; [eapply calls_le_le; [apply calls_ret|lia]|].
  eapply calls_le_le; [apply (calls_bind _ _ n (n * length ps)); [apply Hf|intros q]|lia].
  eapply calls_le_le; [apply (calls_bind _ _ (n * length ps) 0); [apply IH|intros r; apply calls_ret]|lia].
Qed.
Lemma calls_orders o n bs fs : calls_le (m_orders_grow_loop o n bs fs) (2 * (length bs + length fs)).
Proof.
  revert fs. induction bs as [|b bs IH]; intros fs; simpl; [eapply calls_le_le; [apply calls_ret|lia]|].
  destruct fs as [|f fs]; simpl; [eapply calls_le_le; [apply calls_ret|lia]|].
  eapply calls_le_le; [apply (calls_bind _ _ 2 (2 + 2 * (length bs + length fs))); [apply calls_realloc|intros b']|lia].
  apply calls_bind; [apply calls_realloc|intros f']. eapply calls_le_le; [apply (calls_bind _ _ (2 * (length bs + length fs)) 0); [apply IH|intros r; apply calls_ret]|lia].
Qed.
Lemma calls_ec_create s k : calls_le (m_ec_create s k) 4.
Proof.
  unfold m_ec_create, m_ec_grow. assert (calls_le (mret k : M calls ecp) 4) as Hr by (eapply calls_le_le; [apply calls_ret|lia]).
  destruct (last _); [done|]. destruct (will_grow_with_id _ _); [|done]. destruct (_ <=? _); [done|].
  apply (calls_bind _ _ 2 2); [apply calls_realloc_zeroing|intros v]. apply (calls_bind _ _ 2 0); [apply calls_bits|intros a; apply calls_ret].
Qed.
Lemma calls_register c s k : calls_le (m_register c s k) (2 * tables k).
Proof.
  unfold m_register. eapply calls_le_le; [apply (calls_bind _ _ 4 (2 * tables k - 4)); [apply calls_ec_create|intros e]|unfold tables; lia].
  assert (∀ k', calls_le (mret k' : M calls stp) (2 * tables k - 4)) as Hr by (intros k'; eapply calls_le_le; [apply calls_ret|lia]).
  destruct (ec_create _ _) as [s1 cr|s1|]; try apply Hr. destruct (container_was_grow cr); [|apply Hr]. cbv zeta.
  eapply calls_le_le; [apply (calls_bind _ _ 2 (2 + (2 + (2 * length (ps_tags k) + 2 * (length (po_bwd (ps_orders k)) + length (po_fwd (ps_orders k))))))); [apply calls_realloc|intros p]|unfold tables; lia].
  apply calls_bind; [apply calls_realloc|intros i]. apply calls_bind; [apply calls_bits|intros hh].
  apply calls_bind; [apply calls_each; intros q; apply calls_bits|intros t].
  eapply calls_le_le; [apply (calls_bind _ _ (2 * (length (po_bwd (ps_orders k)) + length (po_fwd (ps_orders k)))) 0); [|intros o; apply calls_ret]|lia].
  unfold m_orders_grow. eapply calls_le_le; [eapply (calls_bind _ _ _ 0); [apply calls_orders|intros r; apply calls_ret]|lia].
Qed.
Lemma ec_create_record md s s' cr : ec_create md s = ROk s' cr → cr_before cr = ec_cap s ∧ cr_after cr = ec_cap s'.
Proof.
  unfold ec_create. intros H. apply bind_ok in H as (s0 & x & [-> ->]%get_ok & H). apply bind_ok in H as (s1 & id & _ & H). by inv1 H.
Qed.
(** A creation that does not change the capacity makes no call. *)
Lemma register_quiet c s k h s' r : step c OCreate s = ROk s' r → entities_capacity s' = entities_capacity s →
  ∃ k', m_register c s k h = ROk h k'.
Proof.
  intros Hst Hcap. apply step_ec in Hst. inversion Hst as [o cr s1 _ Hcr| |o ? ?]; subst; [|done].
  unfold m_register. rewrite Hcr. unfold entities_capacity in Hcap.
  assert (container_was_grow cr = false) as Hg.
  { destruct (ec_create_record _ _ _ _ Hcr) as [H1 H2]. unfold container_was_grow. rewrite H1, H2, Hcap, N.eqb_refl. done. }
  rewrite Hg. unfold mbind, M_bind, m_ec_create. destruct (last (ec_gaps (st_ec s))) eqn:El; [by eexists|].
  destruct (will_grow_with_id (st_ec s) (ec_next (st_ec s))) eqn:Ew; [|by eexists]. by destruct (ec_create_grows _ _ _ _ Hcr El Ew).
Qed.

(** ** As stated *)
Lemma doubling c cap tr s : run c cap tr s → ∃ l, growths c cap tr s l ∧
  entities_capacity s = match l with [] => cap | _ => N.max cap 1 * 2 ^ N.of_nat (length l) end ∧
  copied l + N.max cap 1 ≤ N.max (entities_capacity s) 1.
Proof. intros [l H]%run_growths. exists l. split; [done|]. by apply (growths_capacity _ _ _ _ _ H). Qed.
Lemma only_creations c o s s' r : step c o s = ROk s' r → entities_capacity s' ≠ entities_capacity s → is_Some r.
Proof. intros [H|[_ H]]%step_cap; done. Qed.
Lemma create_calls c s s' r k h : step c OCreate s = ROk s' r →
  ∃ h' k', m_step c OCreate s k h = ROk (h' ++ h) k' ∧ (length h' ≤ 2 * tables k)%nat ∧ (entities_capacity s' = entities_capacity s → h' = []).
Proof.
  intros H. simpl. destruct (calls_register c s k h) as (h' & k' & H1 & H2). exists h', k'. split; [done|]. split; [done|].
  intros Hcap. destruct (register_quiet c s k h _ _ H Hcap) as [k2 H3]. rewrite H3 in H1. injection H1 as H1 _.
  apply (f_equal length) in H1. rewrite app_length in H1. destruct h'; [done|]. simpl in H1. lia.
Qed.

(** ** Evaluating histories *)
Fixpoint gex (c : cfg) (s : store) (l : list N) (tr : trace) : option (store * list N) :=
  match tr with
  | [] => Some (s, l)
  | (o, r) :: tr =>
    match step c o s with
    | ROk s' r' =>
      if decide (r = r') then gex c s' (if decide (entities_capacity s' = entities_capacity s) then l else l ++ [entities_capacity s]) tr else None
    | _ => None
    end
  end.
Lemma gex_growths c cap tr s l tr2 s' l' : growths c cap tr s l → gex c s l tr2 = Some (s', l') → growths c cap (tr ++ tr2) s' l'.
Proof.
  revert tr s l. induction tr2 as [|[o r] tr2 IH]; intros tr s l Hg H; simpl in H; [injection H as <- <-; by rewrite app_nil_r|].
  destruct (step c o s) as [s1 r1|s1|] eqn:E; try done. destruct (decide (r = r1)) as [->|]; [|done].
  rewrite cons_middle, app_assoc. eapply IH; [|exact H]. destruct (decide _) as [Heq|Hne]; [by eapply growths_same|by eapply growths_more].
Qed.
Definition gexec (c : cfg) (cap : N) (tr : trace) : option (store * list N) :=
  match store_with_capacity (c_mode c) cap with POk s => gex c s [] tr | _ => None end.
Lemma gexec_growths c cap tr s l : gexec c cap tr = Some (s, l) → growths c cap tr s l.
Proof.
  unfold gexec. destruct (store_with_capacity (c_mode c) cap) as [s0| |] eqn:E; try done. intros H.
  apply (gex_growths c cap [] s0 []); [by constructor|done].
Qed.
Lemma gexec_list c cap tr l : snd <$> gexec c cap tr = Some l → ∃ s, growths c cap tr s l.
Proof. destruct (gexec c cap tr) as [[s l']|] eqn:E; [|done]. intros [= <-]. exists s. by apply gexec_growths. Qed.
