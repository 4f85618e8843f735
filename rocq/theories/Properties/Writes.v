(** Writes.v — writing through queries, and using query objects again: C58, C59. [hrun]: see Properties/Components.v.
    [writes]: client code that assigns to the references for writing of each item (Spec/Writes.v). [set_each]: the same
    done by get_components_refs and get_components_refs_mut for each entity. *)
From Verif.Model Require Import QueryObj.
From Verif.Spec Require Import Env Handles Orders Components Queries Writes.
From Verif.Proofs Require Import WriteP QueryObjP.
Local Open Scope N_scope.

(** C58: writing through a component query changes the components of the matching entities, once each, and nothing else,
    and is the same as setting their components one after the other, so that what is proved of histories goes on to hold. *)
Theorem C58_component_query_writes : ∀ c cap tr s q f,
  cfg_ok c → c_mode c = Debug → hrun c cap tr s → NoDup (q_types q) → q_types q ≠ [] → (∀ e, writer_ok c q (f e)) →
  ∃ it es pages tr', component_query c q s = POk it ∧
    writes q (qiter_next_with (ec_ver (st_ec s))) snd (λ x, f x.1) (ac_pages (st_ac s)) it pages ∧
    NoDup es ∧ (∀ e, e ∈ es ↔ qualifies c s q e) ∧ set_each c q f tr s tr' (with_pages s pages) es ∧
    (∀ e m, observed c s e (Some m) → observed c (with_pages s pages) e (Some (if has_all m (q_types q) then updated q (f e) m else m))) ∧
    (q_write q ≠ [] → hrun c cap tr' (with_pages s pages)).
Proof. exact component_writes. Qed.
Print Assumptions C58_component_query_writes.
(** Through an entity query: the matching entities of the list; listing one again makes no difference. *)
Theorem C58_entity_query_writes : ∀ c cap tr s q ents f,
  cfg_ok c → c_mode c = Debug → hrun c cap tr s → NoDup (q_types q) → q_types q ≠ [] →
  (∀ e, e ∈ ents → had_components tr e) → (∀ e, writer_ok c q (f e)) →
  ∃ it g pages tr', entity_query c q s ents = POk it ∧ writes q eiter_next_with snd (λ x, f x.1) (ac_pages (st_ac s)) it pages ∧
    (∀ e, g e = true ↔ qualifies c s q e) ∧ set_each c q f tr s tr' (with_pages s pages) (List.filter g ents) ∧
    (∀ e m, observed c s e (Some m) → observed c (with_pages s pages) e
      (Some (if has_all m (q_types q) && bool_decide (e ∈ ents) then updated q (f e) m else m))) ∧
    (q_write q ≠ [] → hrun c cap tr' (with_pages s pages)).
Proof. exact entity_writes. Qed.
Print Assumptions C58_entity_query_writes.
(** Through an ordered query: the matching members, in the order of the group. *)
Theorem C58_ordered_query_writes : ∀ c cap tr s q g f fuel,
  cfg_ok c → c_mode c = Debug → hrun c cap tr s → orders_proper tr → NoDup (q_types q) → q_types q ≠ [] →
  (∀ e, e ∈ members tr g → had_components tr e) → (length (members tr g) < fuel)%nat → writer_ok c q f →
  ∃ it p pages tr', ordered_query fuel c q s g = Some (POk it) ∧ writes q oiter_next id (λ _, f) (ac_pages (st_ac s)) it pages ∧
    (∀ e, p e = true ↔ qualifies c s q e) ∧ set_each c q (λ _, f) tr s tr' (with_pages s pages) (List.filter p (members tr g)) ∧
    (∀ e m, observed c s e (Some m) → observed c (with_pages s pages) e
      (Some (if has_all m (q_types q) && bool_decide (e ∈ members tr g) then updated q f m else m))) ∧
    (q_write q ≠ [] → hrun c cap tr' (with_pages s pages)).
Proof. exact ordered_writes. Qed.
Print Assumptions C58_ordered_query_writes.
(** Write type 1 of the listed entities; entity 1 is listed twice, entity 3 does not have the type, entity 0 has type 3, too. *)
Example C58_example :
  let c := ex_cfg Debug in let s := end_store c 1 ex_comps in let q := Access [] [1] in
  hrun c 1 (end_trace c 1 ex_comps) s ∧
  (it ← entity_query c q s [Entity 1 1; Entity 3 1; Entity 0 1; Entity 1 1];
   pages ← write_run 9 q eiter_next_with snd (λ x _, [[7; e_id x.1; 7; 7]]) (ac_pages (st_ac s)) it;
   x ← read_components c (with_pages s pages) (Entity 1 1) [1]; y ← read_components c (with_pages s pages) (Entity 0 1) [1; 3]; mret (x, y) : pres _)
  = POk (Some [Some <$> [7; 1; 7; 7]], Some [Some <$> [7; 0; 7; 7]; Some <$> [99]]).
Proof. intros c s q. split; [apply hend_run; vm_compute; reflexivity|]. vm_compute. reflexivity. Qed.
(** Members 0, 1, 3 of a group: the new value of type 3 is computed from type 1. Only entity 0 has both. *)
Example C58_ordered_example :
  let c := ex_cfg Debug in let q := Access [1] [3] in
  let ops := ex_comps ++ [λ hs, OOrdAdd 5 (h 1 hs); λ hs, OOrdAdd 5 (h 3 hs); λ hs, OOrdPrev 5 (h 0 hs) (h 1 hs)] in let s := end_store c 1 ops in
  hrun c 1 (end_trace c 1 ops) s ∧ orders_proper (end_trace c 1 ops) ∧
  (it ← default PPanic (ordered_query 9 c q s 5);
   pages ← write_run 9 q oiter_next id (λ _ l, [take 1 (default 0 <$> concat l)]) (ac_pages (st_ac s)) it;
   x ← read_components c (with_pages s pages) (Entity 0 1) [3]; y ← read_components c (with_pages s pages) (Entity 3 1) [3]; mret (x, y) : pres _)
  = (y ← read_components c s (Entity 3 1) [3]; mret (Some [Some <$> [50]], y) : pres _).
Proof.
  intros c q ops s. split; [apply hend_run; vm_compute; reflexivity|]. split; [apply orders_proper_check; vm_compute; reflexivity|]. vm_compute. done.
Qed.

(** C59: what a query object was used for before does not matter: the iterator is the one of a new object, ... *)
Theorem C59_component_query_reuse : ∀ c q s vec,
  component_query_iter c q s vec = component_query_iter c q s cq_obj_new ∧
  component_query_iter c q s vec = (it ← component_query c q s; mret (it, qi_views it)).
Proof. exact (λ c q s vec, conj (eq_trans (component_query_reuse c q s vec) (eq_sym (component_query_reuse c q s _))) (component_query_reuse c q s vec)). Qed.
Print Assumptions C59_component_query_reuse.
Theorem C59_entity_query_reuse : ∀ c q s ents o,
  entity_component_query_iter c q s ents o = entity_component_query_iter c q s ents rq_obj_new ∧
  entity_component_query_iter c q s ents o = (it ← entity_query c q s ents; mret (it, RqObj (ei_ranges it) (ei_views it))).
Proof. exact (λ c q s l o, conj (eq_trans (entity_query_reuse c q s l o) (eq_sym (entity_query_reuse c q s l _))) (entity_query_reuse c q s l o)). Qed.
Print Assumptions C59_entity_query_reuse.
Theorem C59_ordered_query_reuse : ∀ fuel c q s g o,
  ordered_query_iter fuel c q s g o = ordered_query_iter fuel c q s g rq_obj_new ∧
  ∀ it, ordered_query fuel c q s g = Some (POk it) →
    ordered_query_iter fuel c q s g o = Some (POk (it, RqObj (oi_ranges it) (oi_views it))).
Proof. exact ordered_reuse. Qed.
Print Assumptions C59_ordered_query_reuse.
(** The same object for two states of the store. *)
Example C59_example :
  let c := ex_cfg Debug in let s1 := end_store c 1 ex_comps in let s2 := end_store c 1 (take 4 ex_comps) in
  (x ← component_query_iter c (Access [1] []) s1 cq_obj_new; y ← component_query_iter c (Access [1] []) s2 x.2;
   mret (length x.2, length y.2, qiter_len y.1) : pres _) = POk (2, 1, 2)%nat.
Proof. vm_compute. reflexivity. Qed.
