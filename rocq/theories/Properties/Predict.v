(** Predict.v — handles are told from creations and destructions: C76; the parts of a store do not influence one another: C77. *)
From Verif.Spec Require Import Env Predict PredictC.
From Verif.Proofs Require Import PredictP PredictC IndepP ExecP.
From Verif.Spec Require Import Independence.
Local Open Scope N_scope.

(** C76: the handles returned are those of an allocator that is told only of creations and of the ids destroyed (Spec/Predict.v): both builds,
    every capacity and configuration, any use of handles. *)
Theorem C76_predicted : ∀ c cap tr s, run c cap tr s → issued tr = predicted (lives tr).
Proof. exact handles_predicted. Qed.
Print Assumptions C76_predicted.
(** So archetypes, components, tags, orders, the build and the capacity do not change the handles. *)
Theorem C76_same_handles : ∀ c cap tr s c' cap' tr' s', run c cap tr s → run c' cap' tr' s' → lives tr = lives tr' → issued tr = issued tr'.
Proof. exact same_lives. Qed.
Print Assumptions C76_same_handles.
(** The same for ResourceStore, which returns the handles that Store would. *)
Theorem C76_resources : ∀ T md (s0 : rs T) tr s, rinit s0 → rrun md s0 tr s → rissued tr = predicted (rlives tr).
Proof. exact @rhandles_predicted. Qed.
Print Assumptions C76_resources.
(** Also when calls panic and the panics are caught (careful use, Spec/Caught.v): a creation that panics because its archetype is refused takes
    a handle, which no one gets. *)
Theorem C76_caught : ∀ c cap tr s, cfg_ok c → crun c cap tr s → issued (answered tr) = handed_back (predicted (clives tr)) (kept tr).
Proof. exact caught_predicted. Qed.
Print Assumptions C76_caught.
(** Ids 0, 1, 2; then 1 and 0 are given back and used again, the last one first; 2 is the last one given out, so its destruction is remembered
    by lowering the first fresh id. *)
Example C76_example :
  let c := ex_cfg Debug in
  let ops := [λ _, OCreate; λ _, OCreateWith (ex_arch [1; 2]); λ _, OCreate; λ hs, ODestroy (h 1 hs); λ hs, ODestroy (h 0 hs); λ hs, ODestroy (h 2 hs);
              λ _, OCreate; λ _, OCreate; λ _, OCreate; λ _, OCreate] in
  let tr := end_trace c 1 ops in
  end_ok c 1 ops = true ∧ lives tr = [Born; Born; Born; Died 1; Died 0; Died 2; Born; Born; Born; Born] ∧
  predicted (lives tr) = [Entity 0 1; Entity 1 1; Entity 2 1; Entity 0 2; Entity 1 2; Entity 2 2; Entity 3 1] ∧ issued tr = predicted (lives tr).
Proof. vm_compute. done. Qed.
(** The handle (0, 2) is taken by a creation that panics. *)
Example C76_caught_example : ∀ md,
  let c := ex_cfg md in
  let ops := [λ _, OCreate; λ _, OCreate; λ hs, ODestroy (h 0 hs); λ _, OCreateWith (ex_arch [7]); λ _, OCreate] in
  ∃ tr s, cexec0 c 1 ops = Some (tr, s) ∧ crun c 1 tr s ∧ kept tr = [true; true; false; true] ∧
  predicted (clives tr) = [Entity 0 1; Entity 1 1; Entity 0 2; Entity 2 1] ∧ issued (answered tr) = [Entity 0 1; Entity 1 1; Entity 2 1].
Proof.
  intros md c ops. destruct (cexec0 c 1 ops) as [[tr s]|] eqn:E; [|by destruct md; vm_compute in E]. exists tr, s.
  split; [done|]. split; [by eapply cexec0_run|].
  assert ((λ r, (kept r.1, predicted (clives r.1), issued (answered r.1))) <$> cexec0 c 1 ops =
    Some ([true; true; false; true], [Entity 0 1; Entity 1 1; Entity 0 2; Entity 2 1], [Entity 0 1; Entity 1 1; Entity 2 1])) as H
    by (destruct md; vm_compute; reflexivity).
  rewrite E in H. by injection H as H1 H2 H3.
Qed.

(** C77: the answers about tags of a type depend only on creations, destructions and the calls that name the type, whatever is done with
    other types, components and order groups; both builds, any use of handles. *)
Theorem C77_tags : ∀ c cap tr s tr' s' t, cfg_ok c → run c cap tr s → run c cap tr' s' → calls (about_tag t) tr = calls (about_tag t) tr' →
  filter_tag c s t = filter_tag c s' t ∧ ∀ e, has_tag c s t e = has_tag c s' t e ∧ is_alive c s e = is_alive c s' e.
Proof. exact cfg_tags_independent. Qed.
Print Assumptions C77_tags.
(** Order groups likewise. *)
Theorem C77_orders : ∀ c cap tr s tr' s' g, cfg_ok c → run c cap tr s → run c cap tr' s' → calls (about_group g) tr = calls (about_group g) tr' →
  first_ordered c s g = first_ordered c s' g ∧ last_ordered c s g = last_ordered c s' g ∧
  ∀ e, next_ordered c s g e = next_ordered c s' g e ∧ previous_ordered c s g e = previous_ordered c s' g e.
Proof. exact cfg_order_independent. Qed.
Print Assumptions C77_orders.
(** Components, archetypes and the queries for them depend on neither tags nor orders. *)
Theorem C77_components : ∀ c cap tr s tr' s', run c cap tr s → run c cap tr' s' → calls about_components tr = calls about_components tr' →
  (∀ e T, read_components c s e T = read_components c s' e T) ∧ (∀ e, get_entity_archetype c s e = get_entity_archetype c s' e) ∧
  (∀ q, component_query c q s = component_query c q s') ∧ (∀ q es, entity_query c q s es = entity_query c q s' es) ∧
  (∀ r, read_ref (ac_pages (st_ac s)) r = read_ref (ac_pages (st_ac s')) r) ∧ (∀ e, is_alive c s e = is_alive c s' e).
Proof. exact component_independent. Qed.
Print Assumptions C77_components.
(** Ordered queries depend on the components and on the one group. *)
Theorem C77_ordered_queries : ∀ c cap tr s tr' s' g, cfg_ok c → run c cap tr s → run c cap tr' s' →
  calls about_components tr = calls about_components tr' → calls (about_group g) tr = calls (about_group g) tr' →
  ∀ fuel q, ordered_query fuel c q s g = ordered_query fuel c q s' g.
Proof. exact cfg_ordered_independent. Qed.
Print Assumptions C77_ordered_queries.
(** Two histories that say the same about the group 5 and differ in tags, in the group 3 and in components. *)
Example C77_example :
  let c := ex_cfg Debug in
  let ops1 := [λ _, OCreate; λ _, OCreate; λ hs, OOrdAdd 5 (h 0 hs); λ hs, OOrdAdd 5 (h 1 hs)] in
  let ops2 := [λ _, OCreateWith (ex_arch [1; 2]); λ hs, OTagAdd 7 (h 0 hs); λ hs, OOrdAdd 3 (h 0 hs); λ _, OCreate; λ hs, OOrdAdd 5 (h 0 hs);
               λ hs, OOrdPrev 3 (h 1 hs) (h 0 hs); λ hs, OOrdAdd 5 (h 1 hs); λ hs, OTagDel 7 (h 0 hs)] in
  end_ok c 1 ops1 = true ∧ end_ok c 1 ops2 = true ∧
  calls (about_group 5) (end_trace c 1 ops1) = calls (about_group 5) (end_trace c 1 ops2) ∧
  calls (about_group 3) (end_trace c 1 ops1) ≠ calls (about_group 3) (end_trace c 1 ops2) ∧
  next_ordered c (end_store c 1 ops1) 5 (Entity 0 1) = POk (Some (Entity 1 1)) ∧
  next_ordered c (end_store c 1 ops2) 5 (Entity 0 1) = POk (Some (Entity 1 1)) ∧
  next_ordered c (end_store c 1 ops2) 3 (Entity 0 1) = POk None.
Proof. vm_compute. split_and!; done. Qed.
