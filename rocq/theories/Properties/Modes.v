(** Modes.v — debug and release builds: C06, C45, C51. *)
From Verif.Model Require Import Resource.
From Verif.Spec Require Import Env Handles Modes Queries.
From Verif.Proofs Require Import ModeP HandlesR ExecP.
Local Open Scope N_scope.

(** C06 does not hold: destroying a dead handle makes it alive, ... *)
Theorem C06_destroy_twice_refuted : ¬ ∀ c cap tr s e s1 r1,
  cfg_ok c → run (in_mode Debug c) cap tr s → e ∈ issued tr → ¬ alive_in tr e → e_id e < entities_capacity s →
  step (in_mode Release c) (ODestroy e) s = ROk s1 r1 → is_alive (in_mode Release c) s1 e = POk false.
Proof. exact twice_refuted. Qed.
Print Assumptions C06_destroy_twice_refuted.
(** ... always: whenever a second destroy_entity in a row returns, the entity is alive again. *)
Theorem C06_second_destroy_revives : ∀ c cap tr s e s1 r1 s2 r2,
  run (in_mode Debug c) cap tr s → alive_in tr e →
  step (in_mode Release c) (ODestroy e) s = ROk s1 r1 → step (in_mode Release c) (ODestroy e) s1 = ROk s2 r2 →
  is_alive (in_mode Release c) s1 e = POk false ∧ is_alive (in_mode Release c) s2 e = POk true.
Proof. exact second_destroy_revives. Qed.
Print Assumptions C06_second_destroy_revives.
(** What holds in both builds, as long as only live handles are destroyed and fewer than 2^32 - 1 handles are made:
    is_alive is exact. *)
Theorem C06_guarded_destroy_partial : ∀ c cap tr s e,
  run c cap tr s → destroys_live tr → N.of_nat (length (issued tr)) < 2 ^ 32 - 1 → e_id e < entities_capacity s →
  ∃ b : bool, is_alive c s e = POk b ∧ (b = true ↔ alive_in tr e).
Proof. exact (λ c cap tr s e Hr Hd Hl He, proj2 (careful_handles c cap tr s Hr Hd Hl) e He). Qed.
Print Assumptions C06_guarded_destroy_partial.
(** The second destroy also removes the row of another entity: entity 1 is alive, but queries do not find it. *)
Example C06_example :
  let c := ex_cfg Release in let s := end_store c 4 twice in
  end_ok c 4 twice = true ∧ end_ok (ex_cfg Debug) 4 twice = false ∧
  is_alive c s (Entity 0 1) = POk true ∧ is_alive c s (Entity 1 1) = POk true ∧
  read_components c s (Entity 1 1) [1] = POk (Some [Some <$> [1; 2; 3; 4]]) ∧
  (∃ it, component_query c (Access [1] []) s = POk it ∧ qiter_len it = 0%nat).
Proof. vm_compute. split_and!; eauto. Qed.

(** C45: a history that a debug build executes has the same results and the same final state in a release build. *)
Theorem C45_release_like_debug : ∀ c cap tr s, run (in_mode Debug c) cap tr s → run (in_mode Release c) cap tr s.
Proof. exact run_release. Qed.
Print Assumptions C45_release_like_debug.
(** One call, from any state. *)
Theorem C45_call_like_debug : ∀ c o s s' r, step (in_mode Debug c) o s = ROk s' r → step (in_mode Release c) o s = ROk s' r.
Proof. exact step_release. Qed.
Print Assumptions C45_call_like_debug.
(** Calls that only look at the store. *)
Theorem C45_observers_like_debug : ∀ c s,
  let d := in_mode Debug c in let r := in_mode Release c in
  (∀ e b, is_alive d s e = POk b → is_alive r s e = POk b) ∧
  (∀ e T x, get_components_refs d s e T = POk x → get_components_refs r s e T = POk x) ∧
  (∀ e T x, read_components d s e T = POk x → read_components r s e T = POk x) ∧
  (∀ e x, get_entity_archetype d s e = POk x → get_entity_archetype r s e = POk x) ∧
  (∀ q l x, entity_query d q s l = POk x → entity_query r q s l = POk x) ∧
  (∀ q, component_query d q s = component_query r q s) ∧
  (∀ fuel q g, ordered_query fuel d q s g = ordered_query fuel r q s g) ∧
  (∀ t e, has_tag d s t e = has_tag r s t e) ∧
  (∀ g e, next_ordered d s g e = next_ordered r s g e ∧ previous_ordered d s g e = previous_ordered r s g e) ∧
  (∀ g, first_ordered d s g = first_ordered r s g ∧ last_ordered d s g = last_ordered r s g).
Proof. exact observers_release. Qed.
Print Assumptions C45_observers_like_debug.
(** The resource store. *)
Theorem C45_resources_like_debug : ∀ T (s0 : rs T) tr s, rrun Debug s0 tr s → rrun Release s0 tr s.
Proof. exact @rrun_release. Qed.
Print Assumptions C45_resources_like_debug.
Definition ex_mixed : list (list entity → op) :=
  [λ _, OCreate; λ _, OCreateWith (ex_arch [1; 2]); λ hs, OAdd (h 0 hs) [(1, [1; 2; 3; 4]); (3, [5])];
   λ hs, OTagAdd 9 (h 0 hs); λ hs, OOrdAdd 9 (h 1 hs); λ hs, OOrdPrev 9 (h 0 hs) (h 1 hs); λ _, OCreate;
   λ hs, ORemove (h 0 hs) [1]; λ hs, ODestroy (h 1 hs); λ _, OCreateWith (ex_arch [4])].
Example C45_example :
  let d := ex_cfg Debug in let r := ex_cfg Release in
  end_ok d 1 ex_mixed = true ∧ issued (end_trace d 1 ex_mixed) = [Entity 0 1; Entity 1 1; Entity 2 1; Entity 1 2] ∧
  run r 1 (end_trace d 1 ex_mixed) (end_store d 1 ex_mixed) ∧ end_ok r 4 twice = true ∧ end_ok d 4 twice = false.
Proof.
  split_and!; [vm_compute; reflexivity|vm_compute; reflexivity| |vm_compute; reflexivity|vm_compute; reflexivity].
  apply (run_release (ex_cfg Debug)), end_run. vm_compute. reflexivity.
Qed.

(** C51 does not hold: in a release build the version of an id wraps around after 2^32 creations. *)
Theorem C51_reissue_refuted : ∀ c, c_mode c = Release → ∃ tr s, run c 1 tr s ∧ ¬ NoDup (issued tr).
Proof. exact release_reissues. Qed.
Print Assumptions C51_reissue_refuted.
(** What holds: no handle comes back while fewer than 2^32 - 1 were made, if only live handles are destroyed. *)
Theorem C51_no_reissue_partial : ∀ c cap tr s,
  run c cap tr s → destroys_live tr → N.of_nat (length (issued tr)) < 2 ^ 32 - 1 → NoDup (issued tr).
Proof. exact (λ c cap tr s Hr Hd Hl, proj1 (careful_handles c cap tr s Hr Hd Hl)). Qed.
Print Assumptions C51_no_reissue_partial.
Example C51_example :
  let c := ex_cfg Release in
  run c 1 (spin 3) (spin_st 3) ∧ issued (spin 3) = [Entity 0 1; Entity 0 2; Entity 0 3] ∧
  step c OCreate (spin_st (2 ^ 32 - 1)) = ROk (Store (EC [] 1 [Some 0] [1] 1) ac_new (tags_new 1) (orders_new 1) [Some 0%nat] [Some 0%nat] [0]) (Some (Entity 0 0)) ∧
  match step (ex_cfg Debug) OCreate (spin_st (2 ^ 32 - 1)) with RPanic _ => True | _ => False end.
Proof. split; [apply (spin_run (ex_cfg Release) 3 eq_refl)|]. vm_compute. done. Qed.
