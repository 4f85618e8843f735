(** DeriveP.v — the derive macros. *)
From Verif.Spec Require Import Archetypes Derive.
From Verif.Proofs Require Import LayoutP.
Local Open Scope N_scope.

Lemma derive_component_iff i : (∃ x, derive_component i = POk x) ↔ ∃ fs, in_data i = DStruct fs ∧ fs ≠ [].
Proof.
  unfold derive_component. split.
  - intros [x Hx]. destruct (in_data i) as [[|f fs]| |]; simpl in Hx; try done. by exists (f :: fs).
  - intros (fs & -> & Hne). destruct fs; [done|]. simpl. by eexists.
Qed.
Lemma derive_tag_iff i : (∃ x, derive_tag i = POk x) ↔ in_data i = DStruct [].
Proof.
  unfold derive_tag. split.
  - intros [x Hx]. destruct (in_data i) as [[|f fs]| |]; simpl in Hx; try done.
  - intros ->. simpl. by eexists.
Qed.
Lemma derive_not_both i x : derive_component i = POk x → derive_tag i = PPanic.
Proof.
  intros H. destruct (proj1 (derive_component_iff i) (ex_intro _ x H)) as (fs & Hd & Hne).
  unfold derive_tag. rewrite Hd. by destruct fs.
Qed.
Lemma derive_text i x : in_params i = [] → derive_component i = POk x → x = impl_for "Component" (in_ident i) (in_params i).
Proof. intros Hp. unfold derive_component. rewrite Hp. case_match; [done|]. intros [= <-]. done. Qed.
Lemma derive_tag_text i x : in_params i = [] → derive_tag i = POk x → x = impl_for "Tag" (in_ident i) (in_params i).
Proof. intros Hp. unfold derive_tag. rewrite Hp. case_match; [done|]. intros [= <-]. done. Qed.
Lemma derive_generic_wrong : ∃ i x, derive_component i = POk x ∧ x ≠ impl_for "Component" (in_ident i) (in_params i).
Proof. exists (Input "Pair" ["A"; "B"] (DStruct [RScalar 4 4])). eexists. split; [reflexivity|]. vm_compute. done. Qed.

Lemma zero_layout md a x al : CType x 0 al ∈ a → layout_new md a = PPanic.
Proof. intros Hin. by apply (layout_zero _ _ _ Hin). Qed.
Lemma derived_empty size align : layout_rules size align → ∃ i x fs, derive_component i = POk x ∧ in_data i = DStruct fs ∧
  size (RStruct fs) = 0 ∧ ∀ md t a, CType t (size (RStruct fs)) (align (RStruct fs)) ∈ a → layout_new md a = PPanic.
Proof.
  intros HL. set (fs := [RStruct []]). assert (size (RStruct fs) = 0) as Hz.
  { apply HL. intros f ->%elem_of_list_singleton. apply HL. intros f Hf. by apply elem_of_nil in Hf. }
  exists (Input "Marker" [] (DStruct fs)). eexists. exists fs. split; [reflexivity|]. split; [done|]. split; [done|].
  intros md t a. rewrite Hz. apply zero_layout.
Qed.
Lemma sum_in (l : list N) x : x ∈ l → x ≤ foldr N.add 0 l.
Proof.
  induction 1 as [y l|y z l _ IH]; simpl; lia.
Qed.
Lemma derived_stored size align i x fs f : layout_rules size align → derive_component i = POk x → in_data i = DStruct fs →
  f ∈ fs → 0 < size f →
  0 < size (RStruct fs) ∧
  (size (RStruct fs) ≤ PAGE - align (RStruct fs) mod PTR_SIZE → ∀ md t, ∃ ly, layout_new md [CType t (size (RStruct fs)) (align (RStruct fs))] = POk ly ∧ 1 ≤ ly_cap ly).
Proof.
  intros HL _ _ Hf Hpos. assert (0 < size (RStruct fs)) as Hsz.
  { pose proof (lr_fields _ _ HL fs) as Hsum. pose proof (sum_in (size <$> fs) (size f)) as Hin.
    pose proof (Hin (elem_of_list_fmap_1 size fs f Hf)). lia. }
  split; [done|]. intros Hle md t. apply layout_accepts; [done|apply budgeted_small; simpl; lia| | | |].
  - constructor; [|done]. apply HL.
  - by constructor.
  - intros y ->%elem_of_list_singleton. unfold slice, amax. simpl ct_size. simpl length. simpl foldr.
    rewrite N.max_0_r, N.div_1_r. done.
  - right. exists (align (RStruct fs)). by intros y ->%elem_of_list_singleton.
Qed.

(** Sizes and alignments that follow the rules: fields one after the other, and padding at the end. Scalars that do not exist
    are empty. *)
Fixpoint size_align (t : rty) : N * N :=
  match t with
  | RScalar s a => if (0 <? a) && (s mod a =? 0) then (s, a) else (0, 1)
  | RStruct fs =>
    let x := foldr (λ f x, (x.1 + (size_align f).1, N.max x.2 (size_align f).2)) (0, 1) fs in
    ((x.1 + (x.2 - 1)) / x.2 * x.2, x.2)
  end.
Definition ex_size (t : rty) : N := (size_align t).1.
Definition ex_align (t : rty) : N := (size_align t).2.
Lemma ex_struct fs : let x := foldr (λ f x, (x.1 + (size_align f).1, N.max x.2 (size_align f).2)) (0, 1) fs in
  x.1 = foldr N.add 0 (ex_size <$> fs) ∧ 1 ≤ x.2.
Proof.
  induction fs as [|f fs IH]; [simpl; lia|]. cbv zeta in *. destruct IH as [IH1 IH2]. rewrite fmap_cons.
  change (foldr N.add 0 (ex_size f :: (ex_size <$> fs))) with ((size_align f).1 + foldr N.add 0 (ex_size <$> fs)). rewrite <- IH1.
  simpl. split; [apply N.add_comm|]. etrans; [exact IH2|apply N.le_max_l].
Qed.
Lemma round_up_le e m : 1 ≤ m → e ≤ (e + (m - 1)) / m * m.
Proof.
  intros H. pose proof (N.div_mod (e + (m - 1)) m ltac:(lia)) as Hd. pose proof (N.mod_lt (e + (m - 1)) m ltac:(lia)) as Hl.
  rewrite (N.mul_comm _ m). set (q := m * ((e + (m - 1)) / m)) in *. lia.
Qed.
Lemma ex_rules : layout_rules ex_size ex_align.
Proof.
  split.
  - intros s a Ha Hd. unfold ex_size, ex_align. simpl. apply N.mod_divide in Hd; [|lia]. rewrite Hd.
    destruct (N.ltb_spec 0 a); [done|lia].
  - intros [s a|fs]; unfold ex_size, ex_align; simpl.
    + destruct (N.ltb_spec 0 a); simpl; [|split; [lia|apply N.divide_0_r]].
      destruct (N.eqb_spec (s mod a) 0); simpl; [|split; [lia|apply N.divide_0_r]].
      split; [done|]. apply N.mod_divide; lia.
    + destruct (ex_struct fs) as [_ H]. split; [by apply N.lt_le_trans with 1|]. apply N.divide_factor_r.
  - intros fs. change (ex_size (RStruct fs)) with ((size_align (RStruct fs)).1). cbn [size_align]. destruct (ex_struct fs) as [<- H].
    by apply round_up_le.
  - intros fs Hz. unfold ex_size. simpl. destruct (ex_struct fs) as [Hs H].
    set (x := foldr _ _ _) in *. assert (x.1 = 0) as ->.
    { rewrite Hs. clear -Hz. induction fs as [|f fs IH]; [done|]. rewrite fmap_cons. cbn [foldr].
      assert (ex_size f = 0) as -> by (apply Hz; by left). apply IH. intros g Hg. apply Hz. by right. }
    rewrite N.div_small; [done|lia].
Qed.
