(** Pages.v — the bookkeeping of pages and archetypes: C14 - C16.
    [grun H]: histories in which the containers met [H] at each call; [hrun] is [grun (healthy c)].
    [others_kept H]: in such histories a call leaves the components of the other live entities alone.
    [stays_inside H]: in such histories no call accesses memory outside the pages. *)
From Verif.Spec Require Import Env Handles Components Usage.
From Verif.Proofs Require Import CompX UsageR UsageP.
Local Open Scope N_scope.

(** C14: refuted. Two archetypes other than the first are abandoned in decreasing order and one is used again;
    free_archetypes is then not sorted, the binary search fails, and the slot is given to another archetype. *)
Theorem C14_archetype_slots_refuted : ¬ others_kept (λ _ s _, roomy s).
Proof. exact slots_refuted. Qed.
Print Assumptions C14_archetype_slots_refuted.
(** The history: an entity has type 3 with value 42; creating another entity with types 1 and 3 makes the value read
    uninitialised. The archetype the entity is in now has other types than the ones it was given. *)
Example C14_witness :
  let c := ex_cfg Debug in let s := end_store c 8 ex_reuse in let s' := after c (OCreateWith (ex_arch [1; 3])) s in
  read_components c s (Entity 1 2) [3] = POk (Some [[Some 42]]) ∧ read_components c s' (Entity 1 2) [3] = POk (Some [[None]]).
Proof. split; vm_compute; reflexivity. Qed.
(** What holds: the claim with the assumption on the list of abandoned archetypes, which is true of every history in which
    at most one archetype at a time is abandoned (C16). *)
Theorem C14_archetype_slots_partial : others_kept healthy.
Proof. exact healthy_others. Qed.
Print Assumptions C14_archetype_slots_partial.

(** C15: refuted. A page with room for 1 row of an archetype takes 4 rows of it, and an entity's write changes the
    component of another; a page abandoned by an archetype of small components takes too many rows of large ones, and an
    entity's component is written past the end of the page. *)
Theorem C15_page_overlap_refuted : ¬ others_kept (λ _ s _, sorted_free s).
Proof. exact overlap_refuted. Qed.
Print Assumptions C15_page_overlap_refuted.
Theorem C15_page_overflow_refuted : ¬ stays_inside (λ _ s _, sorted_free s).
Proof. exact overflow_refuted. Qed.
Print Assumptions C15_page_overflow_refuted.
Example C15_witness_overlap :
  let c := big_cfg in let s := end_store c 8 ex_overlap in let s' := after c (OSet (Entity 1 1) [(1, [77])]) s in
  first_byte (read_components c s (Entity 0 1) [2]) = Some (Some 7) ∧
  first_byte (read_components c s' (Entity 0 1) [2]) = Some (Some 77).
Proof. split; vm_compute; reflexivity. Qed.
Example C15_witness_overflow :
  step big_cfg (OAdd (Entity 5 1) [(3, replicate 4000 1)]) (end_store big_cfg 8 ex_overflow) = RUB OutOfBounds.
Proof. vm_compute. reflexivity. Qed.

(** C16: usage conditions. No condition on the state remains: [grun (λ _ _, True)] is any history with acceptable arguments. *)
Theorem C16_usage_healthy : ∀ c cap tr s,
  cfg_ok c → c_mode c = Debug → grun (λ _ _, True) c cap tr s → one_abandoned tr →
  (∃ K, c_grow c 0 K = K ∧ same_capacity c K tr) ∨ below_capacity c tr →
  hrun c cap tr s ∧ ∀ w, healthy c (st_ac s) w.
Proof. exact (λ c cap tr s Hc Hmd, usage_healthy c Hc Hmd cap tr s). Qed.
Print Assumptions C16_usage_healthy.
(** A weaker condition on the history, call by call: a call that puts an entity into an abandoned set of types is made when
    no other set is abandoned, and a call that puts an entity into types of which a page is full is made when all free pages
    have as much room as rows of these types. [search_honest]: what the binary search claims to have found is there. *)
Theorem C16_careful_healthy : ∀ c cap tr s,
  cfg_ok c → c_mode c = Debug → search_honest (c_bs c) → grun (λ _ _, True) c cap tr s → careful c tr → hrun c cap tr s.
Proof. exact (λ c cap tr s Hc Hmd Hb Hr, careful_healthy c Hc Hmd cap tr s Hr Hb). Qed.
Print Assumptions C16_careful_healthy.
Theorem C16_usage_careful : ∀ c tr, one_abandoned tr →
  (∃ K, c_grow c 0 K = K ∧ same_capacity c K tr) ∨ below_capacity c tr → careful c tr.
Proof. exact usage_careful. Qed.
Print Assumptions C16_usage_careful.
Theorem C16_search_honest : search_honest bs_old ∧ search_honest bs_new.
Proof. exact (conj bs_old_honest bs_new_honest). Qed.
Print Assumptions C16_search_honest.
(** The growth of Vec in the standard library meets the condition for pages of at least 4 rows. *)
Theorem C16_vec_growth : ∀ K, rawvec_grow 0 K = K ↔ 4 ≤ K.
Proof. exact rawvec_grow_exact. Qed.
Print Assumptions C16_vec_growth.
(** C15 as it stands is true of histories that meet the conditions. *)
Theorem C15_page_overlap_partial : ∀ c cap tr o r s s' e T v,
  cfg_ok c → c_mode c = Debug → grun (λ _ _, True) c cap tr s → one_abandoned tr →
  (∃ K, c_grow c 0 K = K ∧ same_capacity c K tr) ∨ below_capacity c tr →
  args_ok c o → room c tr o → step c o s = ROk s' r → alive_in tr e → concerns o e = false → T ≠ [] →
  read_components c s e T = POk (Some v) → read_components c s' e T = POk (Some v).
Proof. exact usage_others. Qed.
Print Assumptions C15_page_overlap_partial.
(** And with the weaker condition; this is what holds of C14 as well. *)
Theorem C15_page_careful_partial : ∀ c cap tr o r s s' e T v,
  cfg_ok c → c_mode c = Debug → search_honest (c_bs c) → grun (λ _ _, True) c cap tr s → careful c tr → careful_call c tr o →
  args_ok c o → room c tr o → step c o s = ROk s' r → alive_in tr e → concerns o e = false → T ≠ [] →
  read_components c s e T = POk (Some v) → read_components c s' e T = POk (Some v).
Proof. exact careful_others. Qed.
Print Assumptions C15_page_careful_partial.
(** A careful history with two sets of types abandoned at its end, pages of different capacities, and more than a page of
    entities of type 3. *)
Example C16_example_careful :
  let c := big_cfg in let tr := end_trace c 8 ex_careful in let s := end_store c 8 ex_careful in
  grun (λ _ _, True) c 8 tr s ∧ careful c tr ∧ page_holds c {[3]} 4 ∧ crowded tr {[3]} 4 ∧ abandoned tr {[2]} ∧ abandoned tr {[2; 3]} ∧
  read_components c s (Entity 0 1) [1] = POk (Some [[Some 1]]).
Proof. exact ex_careful_ok. Qed.
(** A history with an archetype abandoned and used again, in which all pages have the same capacity, and one with pages of
    different capacities. *)
Example C16_example_same :
  let c := ex_cfg Debug in let tr := end_trace c 8 ex_usage in let s := end_store c 8 ex_usage in
  grun (λ _ _, True) c 8 tr s ∧ one_abandoned tr ∧ rawvec_grow 0 ex_usage_cap = ex_usage_cap ∧ same_capacity c ex_usage_cap tr ∧
  abandoned tr {[8]} ∧ read_components c s (Entity 0 1) [1] = POk (Some [Some <$> [1; 2; 3; 4]]).
Proof. exact ex_usage_same. Qed.
Example C16_example_below :
  let c := ex_cfg Debug in let tr := end_trace c 8 ex_usage2 in let s := end_store c 8 ex_usage2 in
  grun (λ _ _, True) c 8 tr s ∧ one_abandoned tr ∧ below_capacity c tr ∧ abandoned tr {[2]} ∧
  read_components c s (Entity 0 1) [1; 3] = POk (Some [Some <$> [1; 2; 3; 4]; [Some 5]]).
Proof. exact ex_usage_below. Qed.
