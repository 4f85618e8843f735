(** Library.v — what depends on the standard library the program is built with: C67.
    The project pins no toolchain. Two libraries may differ in what [binary_search] does with slices that are not sorted and
    in how much room a growing [Vec] makes; both meet their documentation ([cfg_ok]). *)
From Verif.Spec Require Import Env Components Discipline Library.
From Verif.Proofs Require Import UsageR UsageP DiscP LibR.
Local Open Scope N_scope.

(** C67: in page-healthy histories a debug build hands out the same handles and keeps the same rows in the same places
    whatever its library, and reports the same of them. *)
Theorem C67_same_results : ∀ c1 c2 cap tr1 s1 tr2 s2,
  cfg_ok c1 → cfg_ok c2 → same_program c1 c2 → c_mode c1 = Debug → hrun c1 cap tr1 s1 → hrun c2 cap tr2 s2 →
  tr1.*1 = tr2.*1 → tr1 = tr2 ∧ alike s1 s2 ∧ same_answers c1 s1 c2 s2.
Proof. exact same_library. Qed.
Print Assumptions C67_same_results.
(** So does a release build, if the calls are disciplined. *)
Theorem C67_same_results_both : ∀ c1 c2 cap tr1 s1 tr2 s2,
  cfg_ok c1 → cfg_ok c2 → same_program c1 c2 → drun (healthy c1) c1 cap tr1 s1 → drun (healthy c2) c2 cap tr2 s2 →
  tr1.*1 = tr2.*1 → tr1 = tr2 ∧ alike s1 s2 ∧ same_answers c1 s1 c2 s2.
Proof. exact same_library_builds. Qed.
Print Assumptions C67_same_results_both.
(** A frugal history with one library is a history with the other, without conditions on the states. *)
Theorem C67_frugal_any_library : ∀ c1 c2 cap tr s1,
  cfg_ok c1 → cfg_ok c2 → same_program c1 c2 → drun (λ _ _, True) c1 cap tr s1 → frugal c1 tr → frugal c2 tr →
  ∃ s2, drun (λ _ _, True) c2 cap tr s2 ∧ alike s1 s2 ∧ same_answers c1 s1 c2 s2.
Proof. exact any_library. Qed.
Print Assumptions C67_frugal_any_library.
Theorem C67_considerate_any_library : ∀ c1 c2 cap tr s1,
  cfg_ok c1 → cfg_ok c2 → same_program c1 c2 → search_honest (c_bs c1) → search_honest (c_bs c2) →
  drun (λ _ _, True) c1 cap tr s1 → considerate c1 tr → considerate c2 tr →
  ∃ s2, drun (λ _ _, True) c2 cap tr s2 ∧ alike s1 s2 ∧ same_answers c1 s1 c2 s2.
Proof. exact any_library_considerate. Qed.
Print Assumptions C67_considerate_any_library.
(** Without health the results do depend on it: on the search (the two searches are those of Rust 1.81 and 1.82), ... *)
Theorem C67_search_matters_refuted : ¬ library_free (λ c1 c2, c_grow c1 = c_grow c2) (λ _ s _, roomy s).
Proof. exact search_refuted. Qed.
Print Assumptions C67_search_matters_refuted.
(** ... and on how much room a Vec makes. *)
Theorem C67_growth_matters_refuted : ¬ library_free (λ c1 c2, c_bs c1 = c_bs c2) (λ _ s _, sorted_free s).
Proof. exact growth_refuted. Qed.
Print Assumptions C67_growth_matters_refuted.

(** Two libraries with different searches and growth, and a history that both keep healthy: the rooms of pages differ, what
    is read does not. *)
Example C67_example : ∀ md, let c1 := ex_cfg md in let c2 := lib_cfg md in let tr := end_trace c1 8 ex_disc in
  let s1 := end_store c1 8 ex_disc in let s2 := end_store c2 8 ex_disc in
  cfg_ok c1 ∧ cfg_ok c2 ∧ same_program c1 c2 ∧ drun (λ _ _, True) c1 8 tr s1 ∧ frugal c1 tr ∧ frugal c2 tr ∧ drun (λ _ _, True) c2 8 tr s2 ∧
  c_bs c1 [3; 2; 1] 2 = BFound 1 ∧ c_bs c2 [3; 2; 1] 2 = BMissing 3 ∧
  (pg_vcap <$> ac_pages (st_ac s1)) = [0; 0; 2047; 4095; 4095] ∧ (pg_vcap <$> ac_pages (st_ac s2)) = [0; 0; 2050; 4098; 4098] ∧
  read_components c1 s1 (Entity 0 1) [1] = POk (Some [Some <$> [1; 2; 3; 4]]) ∧
  read_components c2 s2 (Entity 0 1) [1] = POk (Some [Some <$> [1; 2; 3; 4]]).
Proof. exact library_example. Qed.
(** The history of [C67_search_matters_refuted]: the component given to an entity is there with one search and gone with the other. *)
Example C67_example_search :
  let c1 := ex_cfg Debug in let c2 := ex_cfg_new Debug in let s1 := end_store c1 8 ex_three in let s2 := end_store c2 8 ex_three in
  end_ok c1 8 ex_three = true ∧ end_ok c2 8 ex_three = true ∧ end_trace c1 8 ex_three = end_trace c2 8 ex_three ∧
  read_components c1 s1 (Entity 1 2) [3] = POk (Some [[Some 42]]) ∧ read_components c2 s2 (Entity 1 2) [3] = POk (Some [[None]]).
Proof. split_and!; vm_compute; reflexivity. Qed.
