(** Tags.v — packed bit vectors and tags: C25 - C27. *)
From Verif.Spec Require Import Env Handles Tags Bits.
From Verif.Proofs Require Import BitVecP HandlesP TagsP TagsX ExecP.
Local Open Scope N_scope.

(** C25: packed bit vectors are arrays of booleans, through any calls within the length. *)
Theorem C25_bitvec_is_bool_array : ∀ n os, bops_ok n os →
  ∃ w m, bit_steps os (bv_alloc n, n) = POk (w, m) ∧ n ≤ m ∧
    ∀ i, i < m → bv_get w i = POk (foldl (λ f o, bspec o f) (λ _, false) os i).
Proof. exact bitvec_array. Qed.
Print Assumptions C25_bitvec_is_bool_array.

(** Across a word boundary, with growth. *)
Example C25_example :
  bops_ok 40 [BOn 31; BOn 32; BToggle 31; BGrow 200; BOn 199; BToggle 0; BOff 199] ∧
  (∃ w, bit_steps [BOn 31; BOn 32; BToggle 31; BGrow 200; BOn 199; BToggle 0; BOff 199] (bv_alloc 40, 40) = POk (w, 200)
    ∧ bv_get w 0 = POk true ∧ bv_get w 31 = POk false ∧ bv_get w 32 = POk true ∧ bv_get w 199 = POk false).
Proof. split; [vm_compute; done|]. eexists. vm_compute. done. Qed.

(** C26: has_tag is exact for live handles, when tags are only added to and removed from live handles. *)
Theorem C26_tags_exact : ∀ c cap tr s t e,
  search_ok (c_bs c) → c_mode c = Debug → run c cap tr s → tags_on_live tr → alive_in tr e →
  ∃ b : bool, has_tag c s t e = POk b ∧ (b = true ↔ tagged tr t e).
Proof. exact (λ c cap tr s t e Hbs Hmd, has_tag_exact c Hbs Hmd cap tr s t e). Qed.
Print Assumptions C26_tags_exact.

Definition ex_tags : list (list entity → op) :=
  [λ _, OCreate; λ _, OCreate; λ hs, OTagAdd 9 (h 0 hs); λ hs, OTagAdd 7 (h 1 hs); λ hs, OTagAdd 8 (h 0 hs);
   λ hs, OTagDel 9 (h 0 hs); λ _, OCreate; λ hs, OTagAdd 9 (h 2 hs); λ hs, ODestroy (h 1 hs); λ _, OCreate].
Example C26_example :
  let c := ex_cfg Debug in let tr := end_trace c 1 ex_tags in let s := end_store c 1 ex_tags in
  run c 1 tr s ∧ tags_on_live tr ∧
  has_tag c s 8 (Entity 0 1) = POk true ∧ has_tag c s 9 (Entity 0 1) = POk false ∧
  has_tag c s 9 (Entity 2 1) = POk true ∧ has_tag c s 7 (Entity 1 2) = POk false.
Proof.
  split; [apply end_run; vm_compute; reflexivity|]. split; [|vm_compute; done].
  apply tags_on_live_check. vm_compute. reflexivity.
Qed.

(** C27 does not hold: a tag added through a stale handle shows up on the entity that now has the id. *)
Theorem C27_no_tags_refuted : ¬ ∀ c cap tr s t e,
  cfg_ok c → c_mode c = Debug → run c cap tr s → ¬ alive_in tr e → e_id e < entities_capacity s →
  has_tag c s t e = POk false.
Proof. exact stale_tag_refuted. Qed.
Print Assumptions C27_no_tags_refuted.
(** ... nor for newly created entities. *)
Theorem C27_new_entity_no_tags_refuted : ¬ ∀ c cap tr s t e o s',
  cfg_ok c → c_mode c = Debug → run c cap tr s → step c o s = ROk s' (Some e) → has_tag c s' t e = POk false.
Proof. exact new_entity_tag_refuted. Qed.
Print Assumptions C27_new_entity_no_tags_refuted.

(** What holds when tags are only added to and removed from live handles: new entities have none ... *)
Theorem C27_new_entity_no_tags_partial : ∀ c cap tr s t e o s',
  search_ok (c_bs c) → c_mode c = Debug → run c cap tr s → tags_on_live tr →
  step c o s = ROk s' (Some e) → has_tag c s' t e = POk false.
Proof. exact (λ c cap tr s t e o s' Hbs Hmd, new_entity_no_tags c Hbs Hmd cap tr s e o s' t). Qed.
Print Assumptions C27_new_entity_no_tags_partial.
(** ... and so do dead handles whose id is not in use. *)
Theorem C27_dead_no_tags_partial : ∀ c cap tr s t e,
  search_ok (c_bs c) → c_mode c = Debug → run c cap tr s → tags_on_live tr → e_id e < entities_capacity s →
  (∀ e', alive_in tr e' → e_id e' ≠ e_id e) → has_tag c s t e = POk false.
Proof. exact (λ c cap tr s t e Hbs Hmd, unused_id_no_tags c Hbs Hmd cap tr s e t). Qed.
Print Assumptions C27_dead_no_tags_partial.
(** Right after destruction there are no tags on the id, whatever was called before. *)
Theorem C27_destroyed_no_tags : ∀ c cap tr s t e s' r e',
  search_ok (c_bs c) → c_mode c = Debug → run c cap tr s → step c (ODestroy e) s = ROk s' r → e_id e' = e_id e →
  has_tag c s' t e' = POk false.
Proof. exact (λ c cap tr s t e s' r e' Hbs Hmd, destroyed_no_tags c Hbs Hmd cap tr s e s' r t e'). Qed.
Print Assumptions C27_destroyed_no_tags.

Example C27_example :
  let c := ex_cfg Debug in let s := end_store c 1 (take 8 ex_tags) in
  has_tag c s 7 (Entity 1 1) = POk true ∧
  match step c (ODestroy (Entity 1 1)) s with
  | ROk s' _ => has_tag c s' 7 (Entity 1 1) = POk false ∧
      match step c OCreate s' with ROk s2 (Some e) => e = Entity 1 2 ∧ has_tag c s2 7 e = POk false | _ => False end
  | _ => False
  end.
Proof. vm_compute. done. Qed.
