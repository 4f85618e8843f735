(** BitVecP.v — packed bit vectors as arrays of booleans. *)
From Verif.Model Require Export BitVec.
From Verif.Spec Require Export Bits.
From Verif.Proofs Require Export Wp.
Local Open Scope N_scope.

(** The bit at position [i]; false beyond the end. *)
Definition bit (v : bitvec) (i : N) : bool :=
  match v !! N.to_nat (i / 32) with Some w => N.testbit w (i mod 32) | None => false end.

Lemma mask_testbit i j : N.testbit (bv_mask i) j = bool_decide (j = i mod 32).
Proof.
  unfold bv_mask. rewrite N.shiftl_1_l. destruct (decide (j = i mod 32)) as [->|Hne].
  - rewrite N.pow2_bits_true. by rewrite bool_decide_true.
  - rewrite N.pow2_bits_false by congruence. by rewrite bool_decide_false.
Qed.

Lemma land_mask w i : (N.land w (bv_mask i) =? bv_mask i) = N.testbit w (i mod 32).
Proof.
  destruct (N.testbit w (i mod 32)) eqn:E.
  - apply N.eqb_eq. apply N.bits_inj. intros j. rewrite N.land_spec, mask_testbit.
    case_bool_decide; subst; [by rewrite E|]. by rewrite andb_false_r.
  - apply N.eqb_neq. intros H. apply (f_equal (λ x, N.testbit x (i mod 32))) in H.
    rewrite N.land_spec, mask_testbit, E in H. rewrite bool_decide_true in H by done. done.
Qed.

Lemma bv_get_lt v i : (N.to_nat (i / 32) < length v)%nat → bv_get v i = POk (bit v i).
Proof.
  intros H. unfold bv_get, bit. rewrite nlookup_lookup.
  apply lookup_lt_is_Some in H as [w ->]. by rewrite land_mask.
Qed.
Lemma bv_get_ok v i b : bv_get v i = POk b ↔ (N.to_nat (i / 32) < length v)%nat ∧ b = bit v i.
Proof.
  destruct (decide (N.to_nat (i / 32) < length v)%nat) as [H|H].
  - rewrite bv_get_lt by done. naive_solver.
  - unfold bv_get. rewrite nlookup_lookup. rewrite (proj2 (lookup_ge_None _ _)) by lia.
    split; [done|]. naive_solver.
Qed.

Lemma bv_upd_ok f v i v' :
  bv_upd f v i = POk v' ↔
  ∃ w, v !! N.to_nat (i / 32) = Some w ∧ v' = <[N.to_nat (i / 32) := f w]> v.
Proof. unfold bv_upd. rewrite nlookup_lookup. destruct (v !! _); naive_solver. Qed.

Lemma bit_upd f v i v' g :
  (∀ w j, j < 32 → N.testbit (f w) j = if bool_decide (j = i mod 32) then g (N.testbit w j) else N.testbit w j) →
  bv_upd f v i = POk v' →
  length v' = length v ∧ ∀ j, bit v' j = if bool_decide (j = i) then g (bit v j) else bit v j.
Proof.
  intros Hf (w & Hw & ->)%bv_upd_ok. split; [by rewrite insert_length|].
  intros j. unfold bit. pose proof (lookup_lt_Some _ _ _ Hw) as Hlt.
  destruct (decide (j / 32 = i / 32)) as [Heq|Hne].
  - rewrite Heq, list_lookup_insert by done. rewrite Hw. rewrite Hf by (by apply N.mod_lt).
    destruct (decide (j = i)) as [->|Hji].
    + by rewrite !bool_decide_true.
    + rewrite !bool_decide_false; [done|done|].
      intros Hm. apply Hji. rewrite (N.div_mod j 32), (N.div_mod i 32) by done. congruence.
  - rewrite list_lookup_insert_ne by (intros H%N2Nat.inj; congruence).
    rewrite bool_decide_false by congruence. done.
Qed.

Lemma u32_not_testbit m j : j < 32 → N.testbit (u32_not m) j = negb (N.testbit m j).
Proof.
  intros Hj. unfold u32_not. rewrite N.lxor_spec.
  change 4294967295 with (N.ones 32). rewrite N.ones_spec_low by done. by destruct (N.testbit m j).
Qed.

Lemma bv_on_ok v i v' : bv_on v i = POk v' →
  length v' = length v ∧ ∀ j, bit v' j = bool_decide (j = i) || bit v j.
Proof.
  unfold bv_on, bv_off, bv_toggle. intros H. apply (bit_upd _ _ _ _ (λ _, true)) in H as [Hl Hb].
  - split; [done|]. intros j. rewrite Hb. by case_bool_decide.
  - intros w j Hj. rewrite N.lor_spec, mask_testbit. case_bool_decide; [by rewrite orb_true_r|by rewrite orb_false_r].
Qed.
Lemma bv_off_ok v i v' : bv_off v i = POk v' →
  length v' = length v ∧ ∀ j, bit v' j = negb (bool_decide (j = i)) && bit v j.
Proof.
  unfold bv_on, bv_off, bv_toggle. intros H. apply (bit_upd _ _ _ _ (λ _, false)) in H as [Hl Hb].
  - split; [done|]. intros j. rewrite Hb. by case_bool_decide.
  - intros w j Hj. rewrite N.land_spec, u32_not_testbit, mask_testbit by done.
    case_bool_decide; [by rewrite andb_false_r|by rewrite andb_true_r].
Qed.
Lemma bv_toggle_ok v i v' : bv_toggle v i = POk v' →
  length v' = length v ∧ ∀ j, bit v' j = xorb (bool_decide (j = i)) (bit v j).
Proof.
  unfold bv_on, bv_off, bv_toggle. intros H. apply (bit_upd _ _ _ _ negb) in H as [Hl Hb].
  - split; [done|]. intros j. rewrite Hb. case_bool_decide; by destruct (bit v j).
  - intros w j Hj. rewrite N.lxor_spec, mask_testbit.
    case_bool_decide; [by rewrite xorb_true_r|by rewrite xorb_false_r].
Qed.

Lemma bv_upd_lt f v i : (N.to_nat (i / 32) < length v)%nat → ∃ v', bv_upd f v i = POk v'.
Proof. intros [w Hw]%lookup_lt_is_Some. eexists. apply bv_upd_ok. eauto. Qed.
Lemma bv_upd_no_panic f v i : bv_upd f v i ≠ PPanic.
Proof. unfold bv_upd. by destruct (nlookup _ _). Qed.
Lemma bv_upd_inv f v i v' : bv_upd f v i = POk v' → (N.to_nat (i / 32) < length v)%nat.
Proof. intros (w & Hw & _)%bv_upd_ok. by eapply lookup_lt_Some. Qed.

(** ** Size for a number of elements *)
Lemma bv_len_lt cap i : i < cap → i / 32 < bv_len cap.
Proof.
  intros H. unfold bv_len. assert (i / 32 ≤ cap / 32) by (apply N.div_le_mono; lia). lia.
Qed.
Lemma bv_len_mono a b : a ≤ b → bv_len a ≤ bv_len b.
Proof. intros. unfold bv_len. assert (a / 32 ≤ b / 32) by (apply N.div_le_mono; lia). lia. Qed.

Definition bv_sized (cap : N) (v : bitvec) : Prop := length v = N.to_nat (bv_len cap).
Lemma bv_sized_lt cap v i : bv_sized cap v → i < cap → (N.to_nat (i / 32) < length v)%nat.
Proof. intros -> H%bv_len_lt. lia. Qed.

Lemma bit_replicate n i : bit (replicate n 0) i = false.
Proof.
  unfold bit. destruct (replicate n 0 !! N.to_nat (i / 32)) eqn:E; [|done].
  apply lookup_replicate in E as [-> _]. apply N.bits_0.
Qed.
Lemma bv_alloc_sized cap : bv_sized cap (bv_alloc cap).
Proof. unfold bv_sized, bv_alloc. by rewrite replicate_length. Qed.
Lemma bit_alloc cap i : bit (bv_alloc cap) i = false.
Proof. apply bit_replicate. Qed.

Lemma bit_overflow v i : (length v ≤ N.to_nat (i / 32))%nat → bit v i = false.
Proof. intros H. unfold bit. by rewrite (proj2 (lookup_ge_None _ _)). Qed.

Lemma bv_realloc_ok v old new v' : bv_sized old v → bv_realloc v old new = POk v' →
  bv_sized new v' ∧ ∀ i, bit v' i = bit v i.
Proof.
  intros Hs. unfold bv_realloc. destruct (bv_len old =? bv_len new) eqn:E.
  - intros [= <-]. apply N.eqb_eq in E. unfold bv_sized in *. split; [congruence|done].
  - intros (H1 & H2 & ->)%copy_prefix_ok. rewrite replicate_length in H2. unfold bv_sized in *. split.
    + rewrite app_length, take_length, drop_length, replicate_length. lia.
    + intros i. unfold bit. destruct (decide (N.to_nat (i / 32) < length v)%nat) as [Hi|Hi].
      * rewrite lookup_app_l by (rewrite take_length; lia). by rewrite lookup_take by lia.
      * rewrite (proj2 (lookup_ge_None v _)) by lia.
        rewrite lookup_app_r by (rewrite take_length; lia).
        rewrite lookup_drop. destruct (replicate _ 0 !! _) eqn:E2; [|done].
        apply lookup_replicate in E2 as [-> _]. apply N.bits_0.
Qed.
Lemma bv_realloc_le v old new : bv_sized old v → old ≤ new → ∃ v', bv_realloc v old new = POk v'.
Proof.
  intros Hs Hle%bv_len_mono. unfold bv_realloc. destruct (_ =? _); [by eauto|].
  eexists. apply copy_prefix_le; [|rewrite replicate_length]; unfold bv_sized in *; lia.
Qed.

(** ** Any sequence of calls *)
Lemma bit_steps_spec os : ∀ v n (f : N → bool), bv_sized n v → (∀ i, bit v i = f i) → bops_ok n os →
  ∃ w m, bit_steps os (v, n) = POk (w, m) ∧ n ≤ m ∧ ∀ i, i < m → bv_get w i = POk (foldl (λ f o, bspec o f) f os i).
Proof.
  induction os as [|o os IH]; intros v n f Hs Hf Hok; simpl in *.
  - exists v, n. split_and!; [done|done|]. intros i Hi. rewrite bv_get_lt by (eapply bv_sized_lt; done). by rewrite Hf.
  - destruct o as [i|i|i|m]; destruct Hok as [Hi Hok]; simpl.
    + destruct (bv_upd_lt (λ w, N.lor w (bv_mask i)) v i) as [w Hw]; [by eapply bv_sized_lt|].
      change (bv_on v i = POk w) in Hw. rewrite Hw. apply bv_on_ok in Hw as [Hl Hb]. simpl.
      apply (IH w n (bspec (BOn i) f)); [by unfold bv_sized; rewrite Hl| |done]. intros j. rewrite Hb. unfold bspec.
      case_bool_decide; [subst; by rewrite N.eqb_refl|]. apply N.eqb_neq in H as ->. apply Hf.
    + destruct (bv_upd_lt (λ w, N.land w (u32_not (bv_mask i))) v i) as [w Hw]; [by eapply bv_sized_lt|].
      change (bv_off v i = POk w) in Hw. rewrite Hw. apply bv_off_ok in Hw as [Hl Hb]. simpl.
      apply (IH w n (bspec (BOff i) f)); [by unfold bv_sized; rewrite Hl| |done]. intros j. rewrite Hb. unfold bspec.
      case_bool_decide; [subst; by rewrite N.eqb_refl|]. apply N.eqb_neq in H as ->. apply Hf.
    + destruct (bv_upd_lt (λ w, N.lxor w (bv_mask i)) v i) as [w Hw]; [by eapply bv_sized_lt|].
      change (bv_toggle v i = POk w) in Hw. rewrite Hw. apply bv_toggle_ok in Hw as [Hl Hb]. simpl.
      apply (IH w n (bspec (BToggle i) f)); [by unfold bv_sized; rewrite Hl| |done]. intros j. rewrite Hb. unfold bspec.
      case_bool_decide; [subst; by rewrite N.eqb_refl, Hf|]. apply N.eqb_neq in H as ->. by rewrite xorb_false_l.
    + destruct (bv_realloc_le v n m) as [w Hw]; [done..|]. rewrite Hw. simpl.
      apply bv_realloc_ok in Hw as [Hs' Hb]; [|done].
      destruct (IH w m f Hs') as (w' & m' & ? & ? & ?); [intros; by rewrite Hb|done|].
      exists w', m'. split_and!; [done|lia|done].
Qed.

Lemma bitvec_array n os : bops_ok n os →
  ∃ w m, bit_steps os (bv_alloc n, n) = POk (w, m) ∧ n ≤ m ∧
    ∀ i, i < m → bv_get w i = POk (foldl (λ f o, bspec o f) (λ _, false) os i).
Proof. intros H. apply bit_steps_spec; [apply bv_alloc_sized|intros; apply bit_alloc|done]. Qed.
