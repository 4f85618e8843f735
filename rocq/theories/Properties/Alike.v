(** Alike.v — queries see no more than reading the components tells: C82. *)
From Verif.Spec Require Import Env Handles Components Discipline Alike Swap TakeBack Override.
From Verif.Proofs Require Import UsageR UsageP DiscP ExecP AlikeP.
Local Open Scope N_scope.

(** C82: if two stores have the same live entities and get_components_refs with the queried types gives the same for each of them, component queries
    visit the same entities with the same values, in some order. The histories and builds may be different (debug or release, other standard
    libraries and capacities): rows, pages and archetypes do not matter. *)
Theorem C82_component_query : ∀ c c' cap cap' tr tr' s s' q,
  cfg_ok c → cfg_ok c' → drun (healthy c) c cap tr s → drun (healthy c') c' cap' tr' s' → NoDup (q_types q) → q_types q ≠ [] → reads_alike c tr s c' tr' s' (q_types q) →
  visited_alike c s c' s' q.
Proof. exact (λ c c' cap cap' tr tr' s s' q Hc Hc' Hr Hr', alike_component c c' Hc Hc' cap cap' tr tr' s s' Hr Hr' q). Qed.
Print Assumptions C82_component_query.
(** If has_tag tells the same of them, so do tag filters (depth: C35). *)
Theorem C82_filter_tag : ∀ c c' cap cap' tr tr' s s' q t,
  cfg_ok c → cfg_ok c' → drun (healthy c) c cap tr s → drun (healthy c') c' cap' tr' s' → NoDup (q_types q) → q_types q ≠ [] → reads_alike c tr s c' tr' s' (q_types q) →
  (∀ e, alive_in tr e → has_tag c s t e = has_tag c' s' t e) → (∃ e r, (OTagAdd t e, r) ∈ tr) → (∃ e r, (OTagAdd t e, r) ∈ tr') →
  ∃ bv it l it1 bv' it' l' it1', filter_tag c s t = POk bv ∧ component_query c q s = POk it ∧
    filter_tag c' s' t = POk bv' ∧ component_query c' q s' = POk it' ∧
    (∀ depth, none_skipped (item_tagged c s t) depth l → yields (filtering depth s bv) it (List.filter (item_tagged c s t) l) it1) ∧
    (∀ depth, none_skipped (item_tagged c' s' t) depth l' → yields (filtering depth s' bv') it' (List.filter (item_tagged c' s' t) l') it1') ∧
    viewed s (List.filter (item_tagged c s t) l) ≡ₚ viewed s' (List.filter (item_tagged c' s' t) l').
Proof. exact (λ c c' cap cap' tr tr' s s' q t Hc Hc' Hr Hr', alike_filter c c' Hc Hc' cap cap' tr tr' s s' Hr Hr' q t). Qed.
Print Assumptions C82_filter_tag.
(** Entity queries yield the same in the same order (under the condition of C36), ... *)
Theorem C82_entity_query : ∀ c c' cap cap' tr tr' s s' q ents,
  cfg_ok c → cfg_ok c' → drun (healthy c) c cap tr s → drun (healthy c') c' cap' tr' s' → NoDup (q_types q) → q_types q ≠ [] → reads_alike c tr s c' tr' s' (q_types q) →
  (∀ e, e ∈ ents → e ∈ issued tr ∧ e ∈ issued tr') →
  (∀ i e e', ents !! i = Some e → ents !! S i = Some e' → qualifies c s q e → had_components tr e' ∧ had_components tr' e') →
  looked_up_alike c s c' s' q ents.
Proof. exact (λ c c' cap cap' tr tr' s s' q ents Hc Hc' Hr Hr', alike_entity c c' Hc Hc' cap cap' tr tr' s s' Hr Hr' q ents). Qed.
Print Assumptions C82_entity_query.
(** ... and ordered queries, if the group has the same members in the same order (C37). *)
Theorem C82_ordered_query : ∀ c c' cap cap' tr tr' s s' q g fuel,
  cfg_ok c → cfg_ok c' → drun (healthy c) c cap tr s → drun (healthy c') c' cap' tr' s' → NoDup (q_types q) → q_types q ≠ [] → reads_alike c tr s c' tr' s' (q_types q) →
  members tr g = members tr' g → (∀ e, e ∈ members tr g → had_components tr e ∧ had_components tr' e) → (length (members tr g) < fuel)%nat →
  ordered_alike c s c' s' q g fuel.
Proof. exact (λ c c' cap cap' tr tr' s s' q g fuel Hc Hc' Hr Hr', alike_ordered c c' Hc Hc' cap cap' tr tr' s s' Hr Hr' q g fuel). Qed.
Print Assumptions C82_ordered_query.
(** The same when calls panic and the panics are caught. *)
Theorem C82_caught_component_query : ∀ c c' cap cap' tr tr' s s' q, let T1 := answered tr in let T2 := answered tr' in
  cfg_ok c → cfg_ok c' → crun c cap tr s → crun c' cap' tr' s' → NoDup (q_types q) → q_types q ≠ [] → reads_alike c T1 s c' T2 s' (q_types q) →
  visited_alike c s c' s' q.
Proof. exact (λ c c' cap cap' tr tr' s s' q Hc Hc' Hr Hr', caught_component c c' Hc Hc' cap cap' tr tr' s s' Hr Hr' q). Qed.
Print Assumptions C82_caught_component_query.
(** Entity queries. *)
Theorem C82_caught_entity_query : ∀ c c' cap cap' tr tr' s s' q ents, let T1 := answered tr in let T2 := answered tr' in
  cfg_ok c → cfg_ok c' → crun c cap tr s → crun c' cap' tr' s' → NoDup (q_types q) → q_types q ≠ [] → reads_alike c T1 s c' T2 s' (q_types q) →
  (∀ e, e ∈ ents → e ∈ issued T1 ∧ e ∈ issued T2) →
  (∀ i e e', ents !! i = Some e → ents !! S i = Some e' → qualifies c s q e → had_components T1 e' ∧ had_components T2 e') →
  looked_up_alike c s c' s' q ents.
Proof. exact (λ c c' cap cap' tr tr' s s' q ents Hc Hc' Hr Hr', caught_entity c c' Hc Hc' cap cap' tr tr' s s' Hr Hr' q ents). Qed.
Print Assumptions C82_caught_entity_query.
(** Ordered queries. *)
Theorem C82_caught_ordered_query : ∀ c c' cap cap' tr tr' s s' q g fuel, let T1 := answered tr in let T2 := answered tr' in
  cfg_ok c → cfg_ok c' → crun c cap tr s → crun c' cap' tr' s' → NoDup (q_types q) → q_types q ≠ [] → reads_alike c T1 s c' T2 s' (q_types q) →
  members T1 g = members T2 g → (∀ e, e ∈ members T1 g → had_components T1 e ∧ had_components T2 e) → (length (members T1 g) < fuel)%nat →
  ordered_alike c s c' s' q g fuel.
Proof. exact (λ c c' cap cap' tr tr' s s' q g fuel Hc Hc' Hr Hr', caught_ordered c c' Hc Hc' cap cap' tr tr' s s' Hr Hr' q g fuel). Qed.
Print Assumptions C82_caught_ordered_query.
(** So component queries do not show the order of calls that are apart (C79), ... *)
Theorem C82_swap : ∀ c cap tr1 s cap' tr2 s' tr x y q, cfg_ok c → crun c cap tr1 s → crun c cap' tr2 s' →
  answered tr1 = tr ++ [x; y] → answered tr2 = tr ++ [y; x] → apart x y → NoDup (q_types q) → q_types q ≠ [] →
  (∀ e t, alive_in (tr ++ [x; y]) e → t ∈ q_types q → t ∉ untold (tr ++ [x; y]) e) → visited_alike c s c s' q.
Proof. exact swap_queries. Qed.
Print Assumptions C82_swap.
(** ... nor calls that were taken back (C80), ... *)
Theorem C82_take_back : ∀ c cap tr1 s cap' tr2 s' tr x y q, cfg_ok c → crun c cap tr1 s → crun c cap' tr2 s' →
  answered tr1 = tr → answered tr2 = tr ++ [x; y] → undoes tr x y → NoDup (q_types q) → q_types q ≠ [] →
  (∀ e t, alive_in tr e → t ∈ q_types q → t ∉ untold tr e) → visited_alike c s c s' q.
Proof. exact undo_queries. Qed.
Print Assumptions C82_take_back.
(** ... nor superfluous ones (C81), if the values of the queried components are told by the calls. *)
Theorem C82_superfluous : ∀ c cap tr1 s cap' tr2 s' tr x y q, cfg_ok c → crun c cap tr1 s → crun c cap' tr2 s' →
  answered tr1 = tr ++ [x; y] → answered tr2 = tr ++ [y] → overrides x.1 y.1 → NoDup (q_types q) → q_types q ≠ [] →
  (∀ e t, alive_in (tr ++ [y]) e → t ∈ q_types q → t ∉ untold (tr ++ [y]) e) → visited_alike c s c s' q.
Proof. exact override_queries. Qed.
Print Assumptions C82_superfluous.

(** Two entities get different components in the one or the other order, in different builds: the same entities are visited with the same
    values, in different orders. *)
Definition ex_alike : list (list entity → op) :=
  [λ _, OCreate; λ _, OCreate; λ _, OCreate; λ hs, OAdd (h 0 hs) [(1, [1; 2; 3; 4])]; λ hs, OAdd (h 1 hs) [(1, [5; 6; 7; 8])];
   λ hs, OAdd (h 2 hs) [(1, [9; 9; 9; 9])]; λ hs, OTagAdd 7 (h 1 hs); λ hs, OOrdAdd 9 (h 2 hs); λ hs, OOrdAdd 9 (h 0 hs)].
Example C82_example :
  let c := ex_cfg Debug in let c' := ex_cfg Release in let a := Entity 0 1 in let b := Entity 1 1 in let d := Entity 2 1 in
  let x := OAdd a [(3, [1])] in let y := OAdd b [(4, [2; 2])] in let q := Access [1] [] in
  let ops := ex_alike ++ [λ _, x; λ _, y] in let ops' := ex_alike ++ [λ _, y; λ _, x] in
  let tr := end_trace c 8 ops in let s := end_store c 8 ops in let tr' := end_trace c' 8 ops' in let s' := end_store c' 8 ops' in
  drun (λ _ _, True) c 8 tr s ∧ frugal c tr ∧ drun (λ _ _, True) c' 8 tr' s' ∧ frugal c' tr' ∧
  (it ← component_query c q s; l ← drain 9 (qiter_next_with (ec_ver (st_ec s))) it; mret (viewed s l) : pres _)
    = POk [(d, [Some <$> [9; 9; 9; 9]]); (a, [Some <$> [1; 2; 3; 4]]); (b, [Some <$> [5; 6; 7; 8]])] ∧
  (it ← component_query c' q s'; l ← drain 9 (qiter_next_with (ec_ver (st_ec s'))) it; mret (viewed s' l) : pres _)
    = POk [(d, [Some <$> [9; 9; 9; 9]]); (b, [Some <$> [5; 6; 7; 8]]); (a, [Some <$> [1; 2; 3; 4]])] ∧
  (it ← entity_query c q s [b; a]; l ← drain 9 eiter_next_with it; mret (viewed s l) : pres _) = POk [(b, [Some <$> [5; 6; 7; 8]]); (a, [Some <$> [1; 2; 3; 4]])] ∧
  (it ← entity_query c' q s' [b; a]; l ← drain 9 eiter_next_with it; mret (viewed s' l) : pres _) = POk [(b, [Some <$> [5; 6; 7; 8]]); (a, [Some <$> [1; 2; 3; 4]])].
Proof.
  intros c c' a b d x y q ops ops' tr s tr' s'. split; [apply dend_run; vm_compute; reflexivity|].
  split. { split; [apply one_abandonedb_ok|right; apply below_capacityb_ok]; vm_compute; reflexivity. }
  split; [apply dend_run; vm_compute; reflexivity|].
  split. { split; [apply one_abandonedb_ok|right; apply below_capacityb_ok]; vm_compute; reflexivity. }
  split_and!; vm_compute; reflexivity.
Qed.
