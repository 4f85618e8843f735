(** ArchX.v — the statements about archetypes and layouts for archetypes made through the API, and witnesses. *)
From Verif.Proofs Require Export LayoutP ExecP.
Local Open Scope N_scope.

Lemma same_built a b : built a → built b →
  (is_same_as a b = true ↔ ∀ t, t ∈ arch_ids a ↔ t ∈ arch_ids b) ∧
  (is_same_as a b = true → arch_hash_input a = arch_hash_input b).
Proof.
  intros [Ha _]%built_incr [Hb _]%built_incr. split; [by apply same_sets|]. by intros ?%is_same_as_spec.
Qed.
Lemma inclusion_built c a : search_ok (c_bs c) → built a →
  (∀ t i, find_component_index c a t = Some i ↔ arch_ids a !! i = Some t) ∧
  (∀ t, find_component_index c a t = None ↔ t ∉ arch_ids a) ∧
  (∀ t, has_component c a t = true ↔ t ∈ arch_ids a) ∧
  (∀ ids, NoDup ids → is_include_ids c a ids = true ↔ ∀ t, t ∈ ids → t ∈ arch_ids a) ∧
  (∀ b, built b → is_include c a b = true ↔ ∀ t, t ∈ arch_ids b → t ∈ arch_ids a).
Proof.
  intros Hbs [Ha _]%built_incr. split_and!; intros.
  - by apply find_index_spec.
  - by apply find_index_none.
  - by apply has_component_spec.
  - by apply is_include_ids_spec.
  - apply is_include_ids_spec; [done|done|]. by apply incr_nodup, built_incr.
Qed.
Lemma include_only_built c a ids : search_ok (c_bs c) → built a → NoDup ids →
  is_include_only_ids c a ids = true ↔ ∀ t, t ∈ ids ↔ t ∈ arch_ids a.
Proof. intros Hbs [Ha _]%built_incr Hnd. by apply is_include_only_spec. Qed.
Lemma exclude_built c a : search_ok (c_bs c) → built a →
  (∀ ids, StronglySorted N.le ids →
     ∃ b : bool, is_exclude_ids c a ids = POk b ∧ (b = true ↔ ∀ t, t ∈ ids → t ∉ arch_ids a)) ∧
  (∀ a', built a' →
     ∃ b : bool, is_exclude c a a' = POk b ∧ (b = true ↔ ∀ t, t ∈ arch_ids a' → t ∉ arch_ids a)) ∧
  (∀ ids, ∃ b : bool, is_exclude_ids c a ids = POk b ∧ (b = false → ∃ t, t ∈ ids ∧ t ∈ arch_ids a)).
Proof.
  intros Hbs [Ha _]%built_incr. split_and!.
  - intros ids. by apply is_exclude_ids_spec.
  - intros a' [Ha' _]%built_incr. apply is_exclude_ids_spec; [done|done|]. by apply incr_le.
  - intros ids. apply exclude_loop_total; [done|done|lia].
Qed.
Lemma union_built a b : built a → built b →
  length (arch_union a b).1 = length (arch_union a b).2 ∧
  NoDup (zip (arch_union a b).1 (arch_union a b).2) ∧
  ∀ i j, (i, j) ∈ zip (arch_union a b).1 (arch_union a b).2 ↔
    ∃ t, arch_ids a !! i = Some t ∧ arch_ids b !! j = Some t.
Proof. intros [Ha _]%built_incr [Hb _]%built_incr. by apply arch_union_spec. Qed.

Lemma exclude_refuted : ¬ ∀ c a ids, search_ok (c_bs c) → built a →
  is_exclude_ids c a ids = POk true → ∀ t, t ∈ ids → t ∉ arch_ids a.
Proof.
  intros H. refine (H (ex_cfg Debug) (ctype_of (ex_cfg Debug) <$> [1; 5]) [7; 1] _ _ _ 1 _ _).
  - apply ex_cfg_ok.
  - left. exists (ex_cfg Debug), [1; 5]. split; [|vm_compute; reflexivity]. repeat constructor; set_solver.
  - vm_compute. reflexivity.
  - right. left.
  - left.
Qed.

Lemma fitting_refuted : ¬ ∀ md a,
  a ≠ [] → Forall rust_type a → Forall (λ x, 0 < ct_size x) a → row_end a 0 ≤ PAGE → ∃ ly, layout_new md a = POk ly.
Proof.
  intros H. destruct (refused_facts Debug) as (H1 & H2 & H3). destruct (H Debug refused) as [ly Hly]; [done|done| |done|congruence].
  repeat constructor; simpl; lia.
Qed.
Lemma zero_sized_refuted : ¬ ∀ md a,
  a ≠ [] → Forall rust_type a → row_end a 0 ≤ PAGE → (length a ≤ 1)%nat → ∃ ly, layout_new md a = POk ly.
Proof.
  intros H. destruct (zero_facts Debug) as (H1 & H2 & H3).
  destruct (H Debug zero_sized) as [ly Hly]; [done|done|done|simpl; lia|congruence].
Qed.
Lemma uneven_refuted : ¬ ∀ c cap a, cfg_ok c → c_mode c = Debug → 0 < cap →
  a ≠ [] → Forall rust_type a → Forall (λ x, 0 < ct_size x ∧ ct_align x = 8) a → row_end a 0 ≤ PAGE →
  ∃ s r, exec0 c cap [λ _, OCreateWith a] = ROk s r.
Proof.
  intros H. destruct (uneven_facts Debug) as (H1 & H2 & _).
  destruct (H (ex_cfg Debug) 1 uneven) as (s & r & Hr); [apply ex_cfg_ok|done|done|done|done| |done|].
  - repeat constructor; simpl; lia.
  - vm_compute in Hr. congruence.
Qed.
