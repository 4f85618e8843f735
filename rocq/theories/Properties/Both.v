(** Both.v — queries, references and writing in both builds: C60 - C62. [drun (healthy c) c]: disciplined histories of the build
    [c_mode c], debug or release (Spec/Discipline.v). Frugal histories need no condition on the states: C54_frugal_healthy. *)
From Verif.Spec Require Import Env Handles Orders Components Queries Writes Aliasing Discipline.
From Verif.Proofs Require Import DiscQ.
Local Open Scope N_scope.

(** C60: in both builds a component query visits exactly the entities having all queried types, once each, ... *)
Theorem C60_component_query : ∀ c cap tr s q,
  cfg_ok c → drun (healthy c) c cap tr s → NoDup (q_types q) → q_types q ≠ [] →
  ∃ it l it1 it2, component_query c q s = POk it ∧
    yields (qiter_next_with (ec_ver (st_ec s))) it l it1 ∧ yields qiter_next it l.*2 it2 ∧ qiter_len it = length l ∧
    NoDup l.*1 ∧ disjoint_items l ∧ (∀ e, e ∈ l.*1 ↔ qualifies c s q e) ∧
    (∀ e rs, (e, rs) ∈ l → get_components_refs c s e (q_types q) = POk (Some rs) ∧
      ∃ m, observed c s e (Some m) ∧ read_ref (ac_pages (st_ac s)) <$> rs = values m (q_types q)).
Proof. exact (λ c cap tr s q Hc, both_component_query c Hc cap tr s q). Qed.
Print Assumptions C60_component_query.
(** ... a tag filter those of them that are tagged, ... *)
Theorem C60_filter_tag : ∀ c cap tr s q t,
  cfg_ok c → drun (healthy c) c cap tr s → NoDup (q_types q) → q_types q ≠ [] → (∃ e r, (OTagAdd t e, r) ∈ tr) →
  ∃ bv it l it1, filter_tag c s t = POk bv ∧ component_query c q s = POk it ∧
    yields (qiter_next_with (ec_ver (st_ec s))) it l it1 ∧
    ∀ depth, none_skipped (item_tagged c s t) depth l → yields (filtering depth s bv) it (List.filter (item_tagged c s t) l) it1.
Proof. exact (λ c cap tr s q t Hc, both_filter_tag c Hc cap tr s q t). Qed.
Print Assumptions C60_filter_tag.
(** ... an entity query the matching entities of the list (under the condition of C36), ... *)
Theorem C60_entity_query : ∀ c cap tr s q ents,
  cfg_ok c → drun (healthy c) c cap tr s → NoDup (q_types q) → q_types q ≠ [] → (∀ e, e ∈ ents → e ∈ issued tr) →
  (∀ i e e', ents !! i = Some e → ents !! S i = Some e' → qualifies c s q e → had_components tr e') →
  ∃ it l it' f, entity_query c q s ents = POk it ∧ yields eiter_next_with it l it' ∧ yields eiter_next it l.*2 it' ∧
    l.*1 = List.filter f ents ∧ (∀ e, f e = true ↔ qualifies c s q e) ∧
    (∀ e rs, (e, rs) ∈ l → get_components_refs c s e (q_types q) = POk (Some rs)).
Proof. exact (λ c cap tr s q ents Hc, both_entity_query c Hc cap tr s q ents). Qed.
Print Assumptions C60_entity_query.
(** ... and an ordered query the matching members, in the order of the group. *)
Theorem C60_ordered_query : ∀ c cap tr s q g fuel,
  cfg_ok c → drun (healthy c) c cap tr s → NoDup (q_types q) → q_types q ≠ [] →
  (∀ e, e ∈ members tr g → had_components tr e) → (length (members tr g) < fuel)%nat →
  ∃ it l it' f, ordered_query fuel c q s g = Some (POk it) ∧ yields oiter_next it l.*2 it' ∧ oiter_len it = length l ∧
    l.*1 = List.filter f (members tr g) ∧ (∀ e, f e = true ↔ qualifies c s q e) ∧
    (∀ e rs, (e, rs) ∈ l → get_components_refs c s e (q_types q) = POk (Some rs)).
Proof. exact (λ c cap tr s q g fuel Hc, both_ordered_query c Hc cap tr s q g fuel). Qed.
Print Assumptions C60_ordered_query.
(** A release build. Entity (1, 1) is dead, (0, 1) has type 1, (2, 1) has types 1 and 8, (1, 2) has type 8. *)
Example C60_example :
  let c := ex_cfg Release in let ops := take 11 ex_disc in let tr := end_trace c 8 ops in let s := end_store c 8 ops in
  drun (λ _ _, True) c 8 tr s ∧ frugal c tr ∧ members tr 9 = [Entity 0 1] ∧
  (it ← component_query c (Access [1] []) s; l ← drain 9 (qiter_next_with (ec_ver (st_ec s))) it; mret l.*1 : pres (list entity)) = POk [Entity 0 1; Entity 2 1] ∧
  (it ← entity_query c (Access [8] []) s [Entity 1 1; Entity 1 2; Entity 0 1; Entity 2 1]; l ← drain 9 eiter_next_with it; mret l.*1 : pres (list entity))
    = POk [Entity 1 2; Entity 2 1] ∧
  (it ← default PPanic (ordered_query 9 c (Access [1] []) s 9); l ← drain 9 oiter_next it; mret (length l) : pres nat) = POk 1%nat.
Proof.
  intros c ops tr s. split; [apply dend_run; vm_compute; reflexivity|]. split; [split|].
  - apply one_abandonedb_ok. vm_compute. reflexivity.
  - right. apply below_capacityb_ok. vm_compute. reflexivity.
  - split_and!; vm_compute; reflexivity.
Qed.

(** C61: in both builds the references of one source are exclusive, in bounds, initialised (if no entity has a
    queried component that was given no value) and, for sufficiently aligned pages, aligned, ... *)
Theorem C61_references : ∀ c cap tr s src q l,
  cfg_ok c → drun (healthy c) c cap tr s → NoDup (q_types q) → q_types q ≠ [] → known tr src → hands_out c s src q l →
  (once src → exclusive q l) ∧ in_bounds c s q l ∧ (assigned tr (q_types q) → initialised s l) ∧
  ∀ base, rust_types c → (∀ p t, t ∈ q_types q → (ti_align (c_ty c t) | base p)) → aligned c base q l.
Proof. exact (λ c cap tr s src q l Hc, both_references c Hc cap tr s src q l). Qed.
Print Assumptions C61_references.
(** ... and those of two sources share no bytes that one of them may write. *)
Theorem C61_two_sources : ∀ c cap tr s src1 q1 l1 src2 q2 l2,
  cfg_ok c → drun (healthy c) c cap tr s →
  NoDup (q_types q1) → q_types q1 ≠ [] → NoDup (q_types q2) → q_types q2 ≠ [] → known tr src1 → known tr src2 →
  compatible q1 q2 → hands_out c s src1 q1 l1 → hands_out c s src2 q2 l2 → exclusive_of q1 l1 q2 l2.
Proof. exact (λ c cap tr s src1 q1 l1 src2 q2 l2 Hc, both_sources c Hc cap tr s src1 q1 l1 src2 q2 l2). Qed.
Print Assumptions C61_two_sources.
Example C61_example :
  let c := ex_cfg Release in let ops := take 11 ex_disc in let tr := end_trace c 8 ops in let s := end_store c 8 ops in
  drun (λ _ _, True) c 8 tr s ∧ hands_out c s (FromEntity (Entity 2 1)) (Access [1] [8]) [[Ref 2 0 4; Ref 2 8188 4]].
Proof. intros c ops tr s. split; [apply dend_run; vm_compute; reflexivity|]. eexists. split; [vm_compute; reflexivity|reflexivity]. Qed.

(** C62: in both builds, writing through a component query is setting the components of the matching entities, ... *)
Theorem C62_component_query_writes : ∀ c cap tr s q f,
  cfg_ok c → drun (healthy c) c cap tr s → NoDup (q_types q) → q_types q ≠ [] → (∀ e, writer_ok c q (f e)) →
  ∃ it es pages tr', component_query c q s = POk it ∧
    writes q (qiter_next_with (ec_ver (st_ec s))) snd (λ x, f x.1) (ac_pages (st_ac s)) it pages ∧
    NoDup es ∧ (∀ e, e ∈ es ↔ qualifies c s q e) ∧ set_each c q f tr s tr' (with_pages s pages) es ∧
    (∀ e m, observed c s e (Some m) → observed c (with_pages s pages) e (Some (if has_all m (q_types q) then updated q (f e) m else m))) ∧
    (q_write q ≠ [] → drun (healthy c) c cap tr' (with_pages s pages)).
Proof. exact (λ c cap tr s q f Hc, both_component_writes c Hc cap tr s q f). Qed.
Print Assumptions C62_component_query_writes.
(** ... also through an entity query ... *)
Theorem C62_entity_query_writes : ∀ c cap tr s q ents f,
  cfg_ok c → drun (healthy c) c cap tr s → NoDup (q_types q) → q_types q ≠ [] →
  (∀ e, e ∈ ents → had_components tr e) → (∀ e, writer_ok c q (f e)) →
  ∃ it g pages tr', entity_query c q s ents = POk it ∧ writes q eiter_next_with snd (λ x, f x.1) (ac_pages (st_ac s)) it pages ∧
    (∀ e, g e = true ↔ qualifies c s q e) ∧ set_each c q f tr s tr' (with_pages s pages) (List.filter g ents) ∧
    (∀ e m, observed c s e (Some m) → observed c (with_pages s pages) e
      (Some (if has_all m (q_types q) && bool_decide (e ∈ ents) then updated q (f e) m else m))) ∧
    (q_write q ≠ [] → drun (healthy c) c cap tr' (with_pages s pages)).
Proof. exact (λ c cap tr s q ents f Hc, both_entity_writes c Hc cap tr s q ents f). Qed.
Print Assumptions C62_entity_query_writes.
(** ... and an ordered query. *)
Theorem C62_ordered_query_writes : ∀ c cap tr s q g f fuel,
  cfg_ok c → drun (healthy c) c cap tr s → NoDup (q_types q) → q_types q ≠ [] →
  (∀ e, e ∈ members tr g → had_components tr e) → (length (members tr g) < fuel)%nat → writer_ok c q f →
  ∃ it p pages tr', ordered_query fuel c q s g = Some (POk it) ∧ writes q oiter_next id (λ _, f) (ac_pages (st_ac s)) it pages ∧
    (∀ e, p e = true ↔ qualifies c s q e) ∧ set_each c q (λ _, f) tr s tr' (with_pages s pages) (List.filter p (members tr g)) ∧
    (∀ e m, observed c s e (Some m) → observed c (with_pages s pages) e
      (Some (if has_all m (q_types q) && bool_decide (e ∈ members tr g) then updated q f m else m))) ∧
    (q_write q ≠ [] → drun (healthy c) c cap tr' (with_pages s pages)).
Proof. exact (λ c cap tr s q g f fuel Hc, both_ordered_writes c Hc cap tr s q g f fuel). Qed.
Print Assumptions C62_ordered_query_writes.
(** A release build: type 1 of both entities that have it is replaced. *)
Example C62_example :
  let c := ex_cfg Release in let ops := take 11 ex_disc in let tr := end_trace c 8 ops in let s := end_store c 8 ops in
  let q := Access [] [1] in
  drun (λ _ _, True) c 8 tr s ∧
  (it ← component_query c q s;
   pages ← write_run 9 q (qiter_next_with (ec_ver (st_ec s))) snd (λ x _, [[7; e_id x.1; 7; 7]]) (ac_pages (st_ac s)) it;
   x ← read_components c (with_pages s pages) (Entity 0 1) [1]; y ← read_components c (with_pages s pages) (Entity 2 1) [1]; mret (x, y) : pres _)
  = POk (Some [Some <$> [7; 0; 7; 7]], Some [Some <$> [7; 2; 7; 7]]).
Proof. intros c ops tr s q. split; [apply dend_run|]; vm_compute; reflexivity. Qed.
