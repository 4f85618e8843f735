(** Queries.v — queries: C32 - C41.
    [hrun]: see Properties/Components.v. [observed c s e (Some m)]: the components of the live entity [e] are [m]. *)
From Verif.Spec Require Import Env Handles Orders Components Queries Runs.
From Verif.Proofs Require Import OrdQ OrdW LenP.
Local Open Scope N_scope.

(** C32: a component query visits exactly the entities having all queried types, once each. *)
Theorem C32_component_query_exact : ∀ c cap tr s q,
  cfg_ok c → c_mode c = Debug → hrun c cap tr s → NoDup (q_types q) → q_types q ≠ [] →
  ∃ it l it1 it2, component_query c q s = POk it ∧
    yields (qiter_next_with (ec_ver (st_ec s))) it l it1 ∧ yields qiter_next it l.*2 it2 ∧ qiter_len it = length l ∧
    NoDup l.*1 ∧ disjoint_items l ∧
    (∀ e, e ∈ l.*1 ↔ ∃ m, observed c s e (Some m) ∧ ∀ t, t ∈ q_types q → is_Some (m !! t)) ∧
    (∀ e rs, (e, rs) ∈ l → get_components_refs c s e (q_types q) = POk (Some rs) ∧
      ∃ m, observed c s e (Some m) ∧ read_ref (ac_pages (st_ac s)) <$> rs = values m (q_types q)).
Proof. exact (λ c cap tr s q Hc Hmd, query_exact c Hc Hmd cap tr s q). Qed.
Print Assumptions C32_component_query_exact.
(** Two archetypes, hence two pages, contain type 1; three entities do not have it. *)
Example C32_example :
  let c := ex_cfg Debug in let s := end_store c 1 ex_comps in
  hrun c 1 (end_trace c 1 ex_comps) s ∧
  show_query c (Access [1] []) s =
  POk [(Entity 1 1, [Some <$> [60; 61; 62; 63]]); (Entity 0 1, [Some <$> [50; 51; 52; 53]])].
Proof. intros c s. split; [apply hend_run|]; vm_compute; reflexivity. Qed.

(** C33: len() of a new iterator is the number of items: component queries, ordered queries. *)
Theorem C33_component_len : ∀ c cap tr s q,
  cfg_ok c → c_mode c = Debug → hrun c cap tr s → NoDup (q_types q) → q_types q ≠ [] →
  ∃ it l it1, component_query c q s = POk it ∧ yields qiter_next it l it1 ∧ qiter_len it = length l.
Proof. exact component_len. Qed.
Print Assumptions C33_component_len.
(** No condition on the state is needed; which items these are: C37. *)
Theorem C33_ordered_len : ∀ c q s g fuel it l it',
  ordered_query fuel c q s g = Some (POk it) → yields oiter_next it l it' → oiter_len it = length l.
Proof. exact ordered_len. Qed.
Print Assumptions C33_ordered_len.
Example C33_example :
  let c := ex_cfg Debug in let s := end_store c 1 ex_comps in
  hrun c 1 (end_trace c 1 ex_comps) s ∧
  (it ← component_query c (Access [3] []) s; l ← drain 9 qiter_next it; mret (qiter_len it, length l) : pres (nat * nat)) = POk (2%nat, 2%nat).
Proof. intros c s. split; [apply hend_run|]; vm_compute; reflexivity. Qed.

(** C34: len() is not the number of the remaining items. *)
Theorem C34_len_stays_exact_refuted : ∃ c cap tr s q it x it1 l it2,
  cfg_ok c ∧ c_mode c = Debug ∧ hrun c cap tr s ∧ NoDup (q_types q) ∧ q_types q ≠ [] ∧
  component_query c q s = POk it ∧ qiter_next it = POk (Some x, it1) ∧ yields qiter_next it1 l it2 ∧ qiter_len it1 ≠ length l.
Proof. exact len_not_exact. Qed.
Print Assumptions C34_len_stays_exact_refuted.
(** What holds instead: it is too large by the number of items already returned. *)
Theorem C34_len_after_next_partial : ∀ c cap tr s q,
  cfg_ok c → c_mode c = Debug → hrun c cap tr s → NoDup (q_types q) → q_types q ≠ [] →
  ∃ it l it1, component_query c q s = POk it ∧ yields qiter_next it l it1 ∧
    ∀ n, (n ≤ length l)%nat → ∃ it2, advance qiter_next n it = POk it2 ∧ yields qiter_next it2 (drop n l) it1 ∧
      qiter_len it2 = (n + length (drop n l))%nat.
Proof. exact (λ c cap tr s q Hc Hmd, len_after_next c Hc Hmd cap tr s q). Qed.
Print Assumptions C34_len_after_next_partial.
(** Ordered queries likewise, on all states; and the iterator over one page. *)
Theorem C34_ordered_len_partial : ∀ c q s g fuel it l it',
  ordered_query fuel c q s g = Some (POk it) → yields oiter_next it l it' →
  ∀ n, (n ≤ length l)%nat → ∃ it2, advance oiter_next n it = POk it2 ∧ yields oiter_next it2 (drop n l) it' ∧
    oiter_len it2 = (n + length (drop n l))%nat.
Proof. exact ordered_len_after. Qed.
Print Assumptions C34_ordered_len_partial.
Theorem C34_page_len_partial : ∀ v l it',
  yields piter_next (piter_new v) l it' →
  ∀ n, (n ≤ length l)%nat → ∃ it2, advance piter_next n (piter_new v) = POk it2 ∧ yields piter_next it2 (drop n l) it' ∧
    piter_len it2 = (n + length (drop n l))%nat.
Proof. exact page_len_after. Qed.
Print Assumptions C34_page_len_partial.
Example C34_example :
  let c := ex_cfg Debug in let s := end_store c 1 ex_comps in
  (it ← component_query c (Access [1] []) s; it1 ← advance qiter_next 1 it; l ← drain 9 qiter_next it1; mret (qiter_len it1, length l) : pres (nat * nat))
  = POk (2%nat, 1%nat).
Proof. vm_compute. done. Qed.
(** After one of two items. *)
Example C34_page_example :
  let v := PView [Ptr 0 0 4; Ptr 0 8000 1] [5; 3] 2 in
  (it ← advance piter_next 1 (piter_new v); l ← drain 9 piter_next it; mret (piter_len it, l) : pres (nat * list (list cref)))
  = POk (2%nat, [[Ref 0 4 4; Ref 0 8001 1]]).
Proof. vm_compute. done. Qed.

(** C35: filter_tag panics for a tag type no entity ever had. *)
Theorem C35_filter_tag_refuted : ∃ c cap tr s t,
  cfg_ok c ∧ c_mode c = Debug ∧ hrun c cap tr s ∧ (∀ e r, (OTagAdd t e, r) ∉ tr) ∧
  has_tag c s t (Entity 0 1) = POk false ∧ filter_tag c s t = PPanic.
Proof. exact filter_tag_panics. Qed.
Print Assumptions C35_filter_tag_refuted.
(** It panics exactly then. *)
Theorem C35_panics_iff_never_added : ∀ c cap tr s t,
  cfg_ok c → run c cap tr s → filter_tag c s t = PPanic ↔ ∀ e r, (OTagAdd t e, r) ∉ tr.
Proof. exact filter_tag_panic_iff. Qed.
Print Assumptions C35_panics_iff_never_added.
(** Otherwise it yields the items of the tagged entities, in query order, if and only if no [depth] consecutive items are
    untagged, where [depth] is the available depth of the call stack. *)
Theorem C35_filter_tag_partial : ∀ c cap tr s q t,
  cfg_ok c → c_mode c = Debug → hrun c cap tr s → NoDup (q_types q) → q_types q ≠ [] → (∃ e r, (OTagAdd t e, r) ∈ tr) →
  ∃ bv it l it1, filter_tag c s t = POk bv ∧ component_query c q s = POk it ∧
    yields (qiter_next_with (ec_ver (st_ec s))) it l it1 ∧
    ∀ depth, (none_skipped (item_tagged c s t) depth l → yields (filtering depth s bv) it (List.filter (item_tagged c s t) l) it1) ∧
      ∀ r it2, yields (filtering depth s bv) it r it2 → none_skipped (item_tagged c s t) depth l.
Proof. exact (λ c cap tr s q t Hc Hmd, filter_tag_exact c Hc Hmd cap tr s q t). Qed.
Print Assumptions C35_filter_tag_partial.
(** Entities 1 and 0 match in this order; only 0 is tagged. *)
Example C35_example :
  let c := ex_cfg Debug in let ops := ex_comps ++ [λ hs, OTagAdd 7 (h 0 hs); λ hs, OTagAdd 7 (h 3 hs)] in let s := end_store c 1 ops in
  hrun c 1 (end_trace c 1 ops) s ∧
  (bv ← filter_tag c s 7; it ← component_query c (Access [1] []) s; l ← drain 9 (filtering 2 s bv) it; mret l.*1 : pres (list entity)) = POk [Entity 0 1] ∧
  (bv ← filter_tag c s 7; it ← component_query c (Access [1] []) s; mret (filter_next 1 (ec_ver (st_ec s)) bv it) : pres _) = POk None.
Proof. intros c ops s. split; [apply hend_run; vm_compute; reflexivity|]. vm_compute. done. Qed.

(** C36: entity queries do not always follow the given list. The second of two rows of a page was destroyed, its id is
    used again for an entity without components: asked for the first row and this entity, the query yields an item for both. *)
Theorem C36_entity_query_refuted : ∃ c cap tr s q ents it l it' e rs,
  cfg_ok c ∧ c_mode c = Debug ∧ hrun c cap tr s ∧ NoDup (q_types q) ∧ q_types q ≠ [] ∧ entity_query c q s ents = POk it ∧
  yields eiter_next_with it l it' ∧ (e, rs) ∈ l ∧ alive_in tr e ∧ get_components_refs c s e (q_types q) = POk None.
Proof. exact entity_query_stale. Qed.
Print Assumptions C36_entity_query_refuted.
(** With a live entity whose id never had components, it reads memory that was never written. *)
Theorem C36_entity_query_uninit_refuted : ∃ c cap tr s q ents,
  cfg_ok c ∧ c_mode c = Debug ∧ hrun c cap tr s ∧ NoDup (q_types q) ∧ q_types q ≠ [] ∧ (∀ e, e ∈ ents → alive_in tr e) ∧
  entity_query c q s ents = PUB Uninitialised.
Proof. exact entity_query_uninit. Qed.
Print Assumptions C36_entity_query_uninit_refuted.
(** It does so if no entity that never had components directly follows one that is found; so it does if every listed handle,
    dead or alive, has had components. *)
Theorem C36_entity_query_partial : ∀ c cap tr s q ents,
  cfg_ok c → c_mode c = Debug → hrun c cap tr s → NoDup (q_types q) → q_types q ≠ [] → (∀ e, e ∈ ents → e ∈ issued tr) →
  (∀ i e e', ents !! i = Some e → ents !! S i = Some e' →
     (∃ m, observed c s e (Some m) ∧ ∀ t, t ∈ q_types q → is_Some (m !! t)) → had_components tr e') →
  ∃ it l it' f, entity_query c q s ents = POk it ∧ yields eiter_next_with it l it' ∧ yields eiter_next it l.*2 it' ∧
    l.*1 = List.filter f ents ∧
    (∀ e, f e = true ↔ ∃ m, observed c s e (Some m) ∧ ∀ t, t ∈ q_types q → is_Some (m !! t)) ∧
    (∀ e rs, (e, rs) ∈ l → get_components_refs c s e (q_types q) = POk (Some rs)).
Proof. exact entity_query_followed. Qed.
Print Assumptions C36_entity_query_partial.
(** A list with an entity that never had components (twice), a destroyed handle, one without the type, and one twice. *)
Example C36_example :
  let c := ex_cfg Debug in let ops := ex_comps ++ [λ _, OCreate] in let s := end_store c 1 ops in let tr := end_trace c 1 ops in
  hrun c 1 tr s ∧
  (it ← entity_query c (Access [1] []) s [Entity 4 1; Entity 1 1; Entity 2 1; Entity 0 1; Entity 3 1; Entity 4 1; Entity 1 1]; l ← drain 9 eiter_next_with it; mret l.*1 : pres (list entity))
  = POk [Entity 1 1; Entity 0 1; Entity 1 1].
Proof. intros c ops s tr. split; [apply hend_run; vm_compute; reflexivity|]. vm_compute. done. Qed.

(** C37: ordered queries do not always follow the group, for the same reasons as entity queries. [orders_proper]: see
    Properties/Orders.v. *)
Theorem C37_ordered_query_refuted : ∃ c cap tr s q g it l it' e0 e1,
  cfg_ok c ∧ c_mode c = Debug ∧ hrun c cap tr s ∧ orders_proper tr ∧ NoDup (q_types q) ∧ q_types q ≠ [] ∧
  members tr g = [e0; e1] ∧ get_components_refs c s e1 (q_types q) = POk None ∧
  (∃ fuel, ordered_query fuel c q s g = Some (POk it)) ∧ yields oiter_next it l it' ∧ length l = 2%nat.
Proof. exact ordered_query_stale. Qed.
Print Assumptions C37_ordered_query_refuted.
Theorem C37_ordered_query_uninit_refuted : ∃ c cap tr s q g,
  cfg_ok c ∧ c_mode c = Debug ∧ hrun c cap tr s ∧ orders_proper tr ∧ NoDup (q_types q) ∧ q_types q ≠ [] ∧
  ∃ fuel, ordered_query fuel c q s g = Some (PUB Uninitialised).
Proof. exact ordered_query_uninit. Qed.
Print Assumptions C37_ordered_query_uninit_refuted.
(** They do so if every member has had components, which cannot be lost again. *)
Theorem C37_ordered_query_partial : ∀ c cap tr s q g fuel,
  cfg_ok c → c_mode c = Debug → hrun c cap tr s → orders_proper tr → NoDup (q_types q) → q_types q ≠ [] →
  (∀ e, e ∈ members tr g → had_components tr e) → (length (members tr g) < fuel)%nat →
  ∃ it l it' f, ordered_query fuel c q s g = Some (POk it) ∧ yields oiter_next it l.*2 it' ∧ oiter_len it = length l ∧
    l.*1 = List.filter f (members tr g) ∧
    (∀ e, f e = true ↔ ∃ m, observed c s e (Some m) ∧ ∀ t, t ∈ q_types q → is_Some (m !! t)) ∧
    (∀ e rs, (e, rs) ∈ l → get_components_refs c s e (q_types q) = POk (Some rs)) ∧
    (one_page l → ∃ it'', yields (oiter_next_with (ec_ver (st_ec s))) it l it'').
Proof. exact ordered_query_exact. Qed.
Print Assumptions C37_ordered_query_partial.
(** Entity 3 does not have type 1. *)
Example C37_example :
  let c := ex_cfg Debug in
  let ops := ex_comps ++ [λ hs, OOrdAdd 5 (h 1 hs); λ hs, OOrdAdd 5 (h 3 hs); λ hs, OOrdPrev 5 (h 0 hs) (h 1 hs)] in let s := end_store c 1 ops in
  hrun c 1 (end_trace c 1 ops) s ∧ orders_proper (end_trace c 1 ops) ∧ members (end_trace c 1 ops) 5 = [Entity 0 1; Entity 1 1; Entity 3 1] ∧
  (it ← default PPanic (ordered_query 9 c (Access [1] []) s 5); l ← drain 9 oiter_next it;
     mret (List.map (List.map (read_ref (ac_pages (st_ac s)))) l) : pres (list (list (list cell))))
  = POk [[Some <$> [50; 51; 52; 53]]; [Some <$> [60; 61; 62; 63]]].
Proof.
  intros c ops s. split; [apply hend_run; vm_compute; reflexivity|]. split; [apply orders_proper_check; vm_compute; reflexivity|]. vm_compute. done.
Qed.

(** C38: with_entities() of an ordered query pairs components with the wrong entity. *)
Theorem C38_ordered_with_entities_refuted : ∃ c cap tr s q g it l it' e e1 rs rs',
  cfg_ok c ∧ c_mode c = Debug ∧ hrun c cap tr s ∧ orders_proper tr ∧ NoDup (q_types q) ∧ q_types q ≠ [] ∧
  (∀ e, e ∈ members tr g → had_components tr e) ∧
  (∃ fuel, ordered_query fuel c q s g = Some (POk it)) ∧ yields (oiter_next_with (ec_ver (st_ec s))) it l it' ∧ (e, rs) ∈ l ∧
  get_components_refs c s e1 (q_types q) = POk (Some rs) ∧ e1 ≠ e ∧ get_components_refs c s e (q_types q) = POk (Some rs') ∧ rs' ≠ rs.
Proof. exact ordered_with_wrong. Qed.
Print Assumptions C38_ordered_with_entities_refuted.
(** It is right if all components yielded are in one page. *)
Theorem C38_ordered_with_entities_partial : ∀ c cap tr s q g fuel,
  cfg_ok c → c_mode c = Debug → hrun c cap tr s → orders_proper tr → NoDup (q_types q) → q_types q ≠ [] →
  (∀ e, e ∈ members tr g → had_components tr e) → (length (members tr g) < fuel)%nat →
  ∃ it l it1, ordered_query fuel c q s g = Some (POk it) ∧ yields oiter_next it l.*2 it1 ∧
    (∀ e rs, (e, rs) ∈ l → get_components_refs c s e (q_types q) = POk (Some rs)) ∧
    (one_page l → ∃ it2, yields (oiter_next_with (ec_ver (st_ec s))) it l it2).
Proof. exact ordered_with_one_page. Qed.
Print Assumptions C38_ordered_with_entities_partial.
(** Exactly. The query visits the runs of the group - stretches of members in neighbouring rows of a page - having all
    queried types. All of a run but the last are paired with the entity at their index in the page of the run before
    ([paired]); without such an entity the iterator reads outside the ids of a page and yields nothing defined. The pairs are
    right exactly if each run of several entities follows a run in the same page. (The condition that members had
    components is as in C37.) *)
Theorem C38_with_entities_exact_partial : ∀ c cap tr s q g fuel,
  cfg_ok c → c_mode c = Debug → hrun c cap tr s → orders_proper tr → NoDup (q_types q) → q_types q ≠ [] →
  (∀ e, e ∈ members tr g → had_components tr e) → (length (members tr g) < fuel)%nat →
  ∃ it l it1 f, (∀ e, f e = true ↔ ∃ m, observed c s e (Some m) ∧ ∀ t, t ∈ q_types q → is_Some (m !! t)) ∧
    let rs := List.filter (forallb f) (runs s (members tr g)) in
    ordered_query fuel c q s g = Some (POk it) ∧ yields oiter_next it l.*2 it1 ∧ l.*1 = concat rs ∧
    (∀ e refs, (e, refs) ∈ l → get_components_refs c s e (q_types q) = POk (Some refs)) ∧
    (∀ es, paired s None rs = Some <$> es → ∃ it2, yields (oiter_next_with (ec_ver (st_ec s))) it (zip es l.*2) it2) ∧
    (∀ l' it2, yields (oiter_next_with (ec_ver (st_ec s))) it l' it2 → paired s None rs = Some <$> l'.*1 ∧ l'.*2 = l.*2) ∧
    ((∃ it2, yields (oiter_next_with (ec_ver (st_ec s))) it l it2) ↔ runs_stay s rs).
Proof. exact ordered_with_exact. Qed.
Print Assumptions C38_with_entities_exact_partial.
(** Two runs in two pages: the first two of the second run come with the entities of the first run. With a shorter first
    page, the id read does not exist. *)
Example C38_exact_example :
  let c := ex_cfg Debug in
  let pages (n : nat) := repeat (λ _, OCreateWith (ex_arch [1])) n ++ repeat (λ _, OCreateWith (ex_arch [1; 2])) 3 : list (list entity → op) in
  let ops n := pages n ++ ((λ k hs, OOrdAdd 9 (h k hs)) <$> seq 0 (n + 3)) in
  let s n := end_store c 6 (ops n) in let ms n := members (end_trace c 6 (ops n)) 9 in
  hrun c 6 (end_trace c 6 (ops 2%nat)) (s 2%nat) ∧ hrun c 6 (end_trace c 6 (ops 1%nat)) (s 1%nat) ∧ orders_proper (end_trace c 6 (ops 2%nat)) ∧ orders_proper (end_trace c 6 (ops 1%nat)) ∧
  ms 2%nat = [Entity 0 1; Entity 1 1; Entity 2 1; Entity 3 1; Entity 4 1] ∧
  runs (s 2%nat) (ms 2%nat) = [[Entity 0 1; Entity 1 1]; [Entity 2 1; Entity 3 1; Entity 4 1]] ∧
  paired (s 2%nat) None (runs (s 2%nat) (ms 2%nat)) = Some <$> [Entity 0 1; Entity 1 1; Entity 0 1; Entity 1 1; Entity 4 1] ∧
  (it ← default PPanic (ordered_query 9 c (Access [1] []) (s 2%nat) 9); l ← drain 9 (oiter_next_with (ec_ver (st_ec (s 2%nat)))) it; mret (List.map fst l) : pres (list entity))
  = POk [Entity 0 1; Entity 1 1; Entity 0 1; Entity 1 1; Entity 4 1] ∧
  runs (s 1%nat) (ms 1%nat) = [[Entity 0 1]; [Entity 1 1; Entity 2 1; Entity 3 1]] ∧
  paired (s 1%nat) None (runs (s 1%nat) (ms 1%nat)) = [Some (Entity 0 1); Some (Entity 0 1); None; Some (Entity 3 1)] ∧
  (it ← default PPanic (ordered_query 9 c (Access [1] []) (s 1%nat) 9); l ← drain 9 (oiter_next_with (ec_ver (st_ec (s 1%nat)))) it; mret (List.map fst l) : pres (list entity))
  = PUB OutOfBounds.
Proof.
  intros c pages ops s ms. split; [apply hend_run; vm_compute; reflexivity|]. split; [apply hend_run; vm_compute; reflexivity|].
  split; [apply orders_proper_check; vm_compute; reflexivity|]. split; [apply orders_proper_check; vm_compute; reflexivity|]. vm_compute. done.
Qed.
(** Three rows of a page in another order: three runs. *)
Example C38_example :
  let c := ex_cfg Debug in
  let ops := [λ _, OCreateWith (ex_arch [1]); λ _, OCreateWith (ex_arch [1]); λ _, OCreateWith (ex_arch [1]); λ _, OCreateWith (ex_arch [1]);
    λ hs, OOrdAdd 9 (h 3 hs); λ hs, OOrdAdd 9 (h 1 hs); λ hs, OOrdAdd 9 (h 2 hs); λ hs, OOrdAdd 9 (h 0 hs)] in let s := end_store c 4 ops in
  hrun c 4 (end_trace c 4 ops) s ∧ orders_proper (end_trace c 4 ops) ∧
  (it ← default PPanic (ordered_query 9 c (Access [1] []) s 9); l ← drain 9 (oiter_next_with (ec_ver (st_ec s))) it; mret (List.map fst l, oi_ranges it) : pres (list entity * list (nat * nat)))
  = POk ([Entity 3 1; Entity 1 1; Entity 2 1; Entity 0 1], [(3, 4); (1, 3); (0, 1)])%nat.
Proof.
  intros c ops s. split; [apply hend_run; vm_compute; reflexivity|]. split; [apply orders_proper_check; vm_compute; reflexivity|]. vm_compute. done.
Qed.

(** C39: an entity added twice to a group of one makes ordered queries of the group never return. ([ordered_query fuel]
    is None if the query makes more than [fuel] steps.) *)
Theorem C39_ordered_query_terminates_refuted : ∃ c cap tr s q g e,
  cfg_ok c ∧ c_mode c = Debug ∧ hrun c cap tr s ∧ NoDup (q_types q) ∧ q_types q ≠ [] ∧
  (∀ x, x ∈ tr → ∀ g' e', x.1 = OOrdAdd g' e' → e' = e) ∧ alive_in tr e ∧ had_components tr e ∧
  ∀ fuel, ordered_query fuel c q s g = None.
Proof. exact ordered_query_diverges. Qed.
Print Assumptions C39_ordered_query_terminates_refuted.
(** Used properly, they return within as many steps as there are members. *)
Theorem C39_ordered_query_terminates_partial : ∀ c cap tr s q g fuel,
  cfg_ok c → c_mode c = Debug → run c cap tr s → orders_proper tr → (length (members tr g) < fuel)%nat →
  ordered_query fuel c q s g ≠ None.
Proof. exact ordered_query_terminates. Qed.
Print Assumptions C39_ordered_query_terminates_partial.
(** Four members; with too little fuel the query does not finish. *)
Example C39_example :
  let c := ex_cfg Debug in
  let ops := ex_comps ++ [λ hs, OOrdAdd 5 (h 1 hs); λ hs, OOrdAdd 5 (h 3 hs); λ hs, OOrdPrev 5 (h 0 hs) (h 1 hs); λ hs, OOrdAdd 5 (h 4 hs)] in let s := end_store c 1 ops in
  run c 1 (end_trace c 1 ops) s ∧ orders_proper (end_trace c 1 ops) ∧ length (members (end_trace c 1 ops) 5) = 4%nat ∧
  ordered_query 4 c (Access [1] []) s 5 = None ∧ match ordered_query 5 c (Access [1] []) s 5 with Some (POk it) => oiter_len it = 2%nat | _ => False end.
Proof.
  intros c ops s. split; [apply end_run; vm_compute; reflexivity|]. split; [apply orders_proper_check; vm_compute; reflexivity|]. vm_compute. done.
Qed.

(** C40: a write query writes the written types of exactly the matching entities and nothing else. (That references of
    different items and types never overlap: [disjoint_items] in C32.) *)
Theorem C40_write_query_exact : ∀ c cap tr s q f,
  cfg_ok c → c_mode c = Debug → hrun c cap tr s → NoDup (q_types q) →
  (∀ e l, length (f e l) = length (q_write q) ∧ vals_ok c (zip (q_write q) (f e l))) →
  ∃ s', query_write c q f s = ROk s' () ∧
    (∀ e x, observed c s e x → observed c s' e
      ((λ m, if has_all m (q_types q) then put (zip (q_write q) (f e (values m (q_read q)))) m else m) <$> x)) ∧
    st_ec s' = st_ec s ∧ st_tags s' = st_tags s ∧ st_orders s' = st_orders s.
Proof. exact (λ c cap tr s q f Hc Hmd, write_query_exact c Hc Hmd cap tr s q f). Qed.
Print Assumptions C40_write_query_exact.
(** Only entity 0 has types 1 and 3; the value written depends on the entity. *)
Example C40_example :
  let c := ex_cfg Debug in let s := end_store c 1 ex_comps in
  hrun c 1 (end_trace c 1 ex_comps) s ∧
  match query_write c (Access [1] [3]) (λ e l, [[200 + e_id e + N.of_nat (length (concat l))]]) s with
  | ROk s' _ => read_components c s' (Entity 0 1) [3; 1] = POk (Some [[Some 204]; Some <$> [50; 51; 52; 53]]) ∧
                read_components c s (Entity 0 1) [3; 1] = POk (Some [[Some 99]; Some <$> [50; 51; 52; 53]]) ∧
                read_components c s' (Entity 3 1) [3] = read_components c s (Entity 3 1) [3]
  | _ => False
  end.
Proof. intros c s. split; [apply hend_run; vm_compute; reflexivity|]. vm_compute. done. Qed.

(** C41: an iterator that returned None returns None ever after: component queries, with entities, filtered by a tag;
    entity queries; ordered queries. No condition on the state is needed. *)
Theorem C41_component_query_stays_finished : ∀ c q s it n it1 it2,
  component_query c q s = POk it → advance qiter_next n it = POk it1 → qiter_next it1 = POk (None, it2) → finished qiter_next it2.
Proof. exact component_query_stays_finished. Qed.
Print Assumptions C41_component_query_stays_finished.
Theorem C41_component_query_with_stays_finished : ∀ c q s vers it n it1 it2,
  component_query c q s = POk it → advance (qiter_next_with vers) n it = POk it1 →
  qiter_next_with vers it1 = POk (None, it2) → finished (qiter_next_with vers) it2.
Proof. exact component_query_with_stays_finished. Qed.
Print Assumptions C41_component_query_with_stays_finished.
Theorem C41_filter_stays_finished : ∀ c q s s' bv depth it n it1 it2,
  component_query c q s = POk it → advance (filtering depth s' bv) n it = POk it1 →
  filtering depth s' bv it1 = POk (None, it2) → finished (filtering depth s' bv) it2.
Proof. exact filter_stays_finished. Qed.
Print Assumptions C41_filter_stays_finished.
Theorem C41_entity_query_stays_finished : ∀ it it',
  eiter_next it = POk (None, it') → finished eiter_next it' ∧ finished eiter_next_with it'.
Proof. exact eiter_stays_finished. Qed.
Print Assumptions C41_entity_query_stays_finished.
Theorem C41_ordered_query_stays_finished : ∀ vers it it',
  oiter_next it = POk (None, it') → finished oiter_next it' ∧ finished (oiter_next_with vers) it'.
Proof. exact oiter_stays_finished. Qed.
Print Assumptions C41_ordered_query_stays_finished.
(** Each iterator returns its two items and then None, three times. *)
Example C41_example :
  let c := ex_cfg Debug in
  let ops := ex_comps ++ [λ hs, OOrdAdd 5 (h 0 hs); λ hs, OOrdAdd 5 (h 1 hs)] in let s := end_store c 1 ops in
  (it ← component_query c (Access [1] []) s; it1 ← advance qiter_next 2 it; x ← qiter_next it1; y ← qiter_next x.2; z ← qiter_next y.2;
    mret (x.1, y.1, z.1)) = POk (None, None, None) ∧
  (it ← entity_query c (Access [1] []) s [Entity 1 1; Entity 3 1; Entity 0 1]; it1 ← advance eiter_next 2 it;
    x ← eiter_next it1; y ← eiter_next x.2; mret (x.1, y.1)) = POk (None, None) ∧
  (it ← default PPanic (ordered_query 9 c (Access [1] []) s 5); it1 ← advance oiter_next 2 it;
    x ← oiter_next it1; y ← oiter_next x.2; mret (x.1, y.1)) = POk (None, None).
Proof. vm_compute. done. Qed.
