(** Systems.v — loops over write queries commute with all that does not concern their components: C83. *)
From Verif.Spec Require Import Env Handles Components Discipline Caught Systems.
From Verif.Proofs Require Import UsageR UsageP DiscP ExecP SystemsP.
Local Open Scope N_scope.

(** C83: a loop over a write query (a system) and a call before it that does not concern the components of the query — in particular another
    loop neither of which writes what the other accesses — can change places, in both builds: the calls return in the other order too, with
    the same results, and afterwards the store answers alike about all entities and groups: liveness, components and, except for contents
    that create_entity_with_archetype left open, values; the order of each group; and the tags, if they are put on live entities only.
    [frugal] (Spec/Discipline.v) is asked of one history only. The function of the loop is given the entity and the values that the query
    reads. A loop that reads what it writes is meant too: what it writes to an entity is then a function of the entity, namely of what the
    entity had before both calls. *)
Theorem C83_later : ∀ c cap tr s x q f,
  cfg_ok c → aside x.1 q → frugal c (tr ++ [x; (OWrite q f, None)]) → drun (λ _ _, True) c cap (tr ++ [x; (OWrite q f, None)]) s →
  ∃ s', drun (λ _ _, True) c cap (tr ++ [(OWrite q f, None); x]) s' ∧ frugal c (tr ++ [(OWrite q f, None); x]) ∧
  (∀ e, e ∈ issued (tr ++ [x; (OWrite q f, None)]) →
    is_alive c s e = is_alive c s' e ∧
    (∃ a a', get_entity_archetype c s e = POk a ∧ get_entity_archetype c s' e = POk a' ∧ arch_ids <$> a = arch_ids <$> a') ∧
    ∀ T, T ≠ [] → (∀ t, t ∈ T → t ∉ untold (tr ++ [x; (OWrite q f, None)]) e) → read_components c s e T = read_components c s' e T) ∧
  (∀ g, first_ordered c s g = first_ordered c s' g ∧ last_ordered c s g = last_ordered c s' g ∧
    ∀ e, alive_in (tr ++ [x; (OWrite q f, None)]) e → next_ordered c s g e = next_ordered c s' g e ∧ previous_ordered c s g e = previous_ordered c s' g e) ∧
  (tags_on_live (tr ++ [x; (OWrite q f, None)]) → ∀ t e, alive_in (tr ++ [x; (OWrite q f, None)]) e → has_tag c s t e = has_tag c s' t e).
Proof. exact loops_swap. Qed.
Print Assumptions C83_later.
(** The other way round. *)
Theorem C83_earlier : ∀ c cap tr s' x q f,
  cfg_ok c → aside x.1 q → frugal c (tr ++ [(OWrite q f, None); x]) → drun (λ _ _, True) c cap (tr ++ [(OWrite q f, None); x]) s' →
  ∃ s, drun (λ _ _, True) c cap (tr ++ [x; (OWrite q f, None)]) s ∧ frugal c (tr ++ [x; (OWrite q f, None)]) ∧
  (∀ e, e ∈ issued (tr ++ [x; (OWrite q f, None)]) →
    is_alive c s e = is_alive c s' e ∧
    (∃ a a', get_entity_archetype c s e = POk a ∧ get_entity_archetype c s' e = POk a' ∧ arch_ids <$> a = arch_ids <$> a') ∧
    ∀ T, T ≠ [] → (∀ t, t ∈ T → t ∉ untold (tr ++ [x; (OWrite q f, None)]) e) → read_components c s e T = read_components c s' e T) ∧
  (∀ g, first_ordered c s g = first_ordered c s' g ∧ last_ordered c s g = last_ordered c s' g ∧
    ∀ e, alive_in (tr ++ [x; (OWrite q f, None)]) e → next_ordered c s g e = next_ordered c s' g e ∧ previous_ordered c s g e = previous_ordered c s' g e) ∧
  (tags_on_live (tr ++ [x; (OWrite q f, None)]) → ∀ t e, alive_in (tr ++ [x; (OWrite q f, None)]) e → has_tag c s t e = has_tag c s' t e).
Proof. exact loops_swap_back. Qed.
Print Assumptions C83_earlier.
(** Of two consecutive loops with the same query, the second of which computes from what the query reads only, the first can be left out. *)
Theorem C83_again : ∀ c cap tr s q f f',
  cfg_ok c → frugal c (tr ++ [(OWrite q f, None); (OWrite q f', None)]) → drun (λ _ _, True) c cap (tr ++ [(OWrite q f, None); (OWrite q f', None)]) s →
  ∃ s', drun (λ _ _, True) c cap (tr ++ [(OWrite q f', None)]) s' ∧ frugal c (tr ++ [(OWrite q f', None)]) ∧
  (∀ e, e ∈ issued (tr) →
    is_alive c s e = is_alive c s' e ∧
    (∃ a a', get_entity_archetype c s e = POk a ∧ get_entity_archetype c s' e = POk a' ∧ arch_ids <$> a = arch_ids <$> a') ∧
    ∀ T, T ≠ [] → (∀ t, t ∈ T → t ∉ untold (tr ++ [(OWrite q f', None)]) e) → read_components c s e T = read_components c s' e T) ∧
  (∀ g, first_ordered c s g = first_ordered c s' g ∧ last_ordered c s g = last_ordered c s' g ∧
    ∀ e, alive_in (tr) e → next_ordered c s g e = next_ordered c s' g e ∧ previous_ordered c s g e = previous_ordered c s' g e) ∧
  (tags_on_live (tr ++ [(OWrite q f, None); (OWrite q f', None)]) → ∀ t e, alive_in (tr) e → has_tag c s t e = has_tag c s' t e).
Proof. exact loops_again. Qed.
Print Assumptions C83_again.
(** The answers also for all histories with healthy states, Spec/Components.v; capacities may differ. *)
Theorem C83_healthy : ∀ c cap cap' tr s s' x q f,
  cfg_ok c → drun (healthy c) c cap (tr ++ [x; (OWrite q f, None)]) s → drun (healthy c) c cap' (tr ++ [(OWrite q f, None); x]) s' → aside x.1 q →
  (∀ e, e ∈ issued (tr ++ [x; (OWrite q f, None)]) →
    is_alive c s e = is_alive c s' e ∧
    (∃ a a', get_entity_archetype c s e = POk a ∧ get_entity_archetype c s' e = POk a' ∧ arch_ids <$> a = arch_ids <$> a') ∧
    ∀ T, T ≠ [] → (∀ t, t ∈ T → t ∉ untold (tr ++ [x; (OWrite q f, None)]) e) → read_components c s e T = read_components c s' e T) ∧
  (∀ g, first_ordered c s g = first_ordered c s' g ∧ last_ordered c s g = last_ordered c s' g ∧
    ∀ e, alive_in (tr ++ [x; (OWrite q f, None)]) e → next_ordered c s g e = next_ordered c s' g e ∧ previous_ordered c s g e = previous_ordered c s' g e) ∧
  (tags_on_live (tr ++ [x; (OWrite q f, None)]) → ∀ t e, alive_in (tr ++ [x; (OWrite q f, None)]) e → has_tag c s t e = has_tag c s' t e).
Proof. exact loop_same. Qed.
Print Assumptions C83_healthy.
Theorem C83_again_healthy : ∀ c cap cap' tr s s' q f f',
  cfg_ok c → drun (healthy c) c cap (tr ++ [(OWrite q f, None); (OWrite q f', None)]) s → drun (healthy c) c cap' (tr ++ [(OWrite q f', None)]) s' →
  (∀ e, e ∈ issued (tr) →
    is_alive c s e = is_alive c s' e ∧
    (∃ a a', get_entity_archetype c s e = POk a ∧ get_entity_archetype c s' e = POk a' ∧ arch_ids <$> a = arch_ids <$> a') ∧
    ∀ T, T ≠ [] → (∀ t, t ∈ T → t ∉ untold (tr ++ [(OWrite q f', None)]) e) → read_components c s e T = read_components c s' e T) ∧
  (∀ g, first_ordered c s g = first_ordered c s' g ∧ last_ordered c s g = last_ordered c s' g ∧
    ∀ e, alive_in (tr) e → next_ordered c s g e = next_ordered c s' g e ∧ previous_ordered c s g e = previous_ordered c s' g e) ∧
  (tags_on_live (tr ++ [(OWrite q f, None); (OWrite q f', None)]) → ∀ t e, alive_in (tr) e → has_tag c s t e = has_tag c s' t e).
Proof. exact again_same. Qed.
Print Assumptions C83_again_healthy.
(** And when calls panic and the panics are caught, which may be other calls in the two histories. *)
Theorem C83_caught : ∀ c cap cap' tr1 tr2 s s' tr x q f,
  cfg_ok c → crun c cap tr1 s → crun c cap' tr2 s' →
  answered tr1 = tr ++ [x; (OWrite q f, None)] → answered tr2 = tr ++ [(OWrite q f, None); x] → aside x.1 q →
  (∀ e, e ∈ issued (tr ++ [x; (OWrite q f, None)]) →
    is_alive c s e = is_alive c s' e ∧
    (∃ a a', get_entity_archetype c s e = POk a ∧ get_entity_archetype c s' e = POk a' ∧ arch_ids <$> a = arch_ids <$> a') ∧
    ∀ T, T ≠ [] → (∀ t, t ∈ T → t ∉ untold (tr ++ [x; (OWrite q f, None)]) e) → read_components c s e T = read_components c s' e T) ∧
  (ec_cap (st_ec s) < 2 ^ 32 → ec_cap (st_ec s') < 2 ^ 32 →
    (∀ g, first_ordered c s g = first_ordered c s' g ∧ last_ordered c s g = last_ordered c s' g ∧
      ∀ e, alive_in (tr ++ [x; (OWrite q f, None)]) e → next_ordered c s g e = next_ordered c s' g e ∧ previous_ordered c s g e = previous_ordered c s' g e) ∧
    (tags_on_live (tr ++ [x; (OWrite q f, None)]) → ∀ t e, alive_in (tr ++ [x; (OWrite q f, None)]) e → has_tag c s t e = has_tag c s' t e)).
Proof. exact loop_caught. Qed.
Print Assumptions C83_caught.
Theorem C83_again_caught : ∀ c cap cap' tr1 tr2 s s' tr q f f',
  cfg_ok c → crun c cap tr1 s → crun c cap' tr2 s' →
  answered tr1 = tr ++ [(OWrite q f, None); (OWrite q f', None)] → answered tr2 = tr ++ [(OWrite q f', None)] →
  (∀ e, e ∈ issued (tr) →
    is_alive c s e = is_alive c s' e ∧
    (∃ a a', get_entity_archetype c s e = POk a ∧ get_entity_archetype c s' e = POk a' ∧ arch_ids <$> a = arch_ids <$> a') ∧
    ∀ T, T ≠ [] → (∀ t, t ∈ T → t ∉ untold (tr ++ [(OWrite q f', None)]) e) → read_components c s e T = read_components c s' e T) ∧
  (ec_cap (st_ec s) < 2 ^ 32 → ec_cap (st_ec s') < 2 ^ 32 →
    (∀ g, first_ordered c s g = first_ordered c s' g ∧ last_ordered c s g = last_ordered c s' g ∧
      ∀ e, alive_in (tr) e → next_ordered c s g e = next_ordered c s' g e ∧ previous_ordered c s g e = previous_ordered c s' g e) ∧
    (tags_on_live (tr ++ [(OWrite q f, None); (OWrite q f', None)]) → ∀ t e, alive_in (tr) e → has_tag c s t e = has_tag c s' t e)).
Proof. exact again_caught. Qed.
Print Assumptions C83_again_caught.

(** Of three entities two have the types 1, 2 and 3 and one the types 1 and 2. A loop writes type 2 and another one type 3; both read type 1. *)
Definition ex_sys : list (list entity → op) :=
  [λ _, OCreate; λ _, OCreate; λ _, OCreate; λ hs, OAdd (h 0 hs) [(1, [1; 2; 3; 4]); (2, [0; 0; 0; 0; 0; 0; 0; 0]); (3, [0])];
   λ hs, OAdd (h 1 hs) [(1, [5; 6; 7; 8]); (2, [0; 0; 0; 0; 0; 0; 0; 0]); (3, [0])];
   λ hs, OAdd (h 2 hs) [(1, [9; 9; 9; 9]); (2, [0; 0; 0; 0; 0; 0; 0; 0])]; λ hs, OTagAdd 7 (h 0 hs); λ hs, OOrdAdd 9 (h 2 hs)].
Definition ex_first (l : list (list cell)) : N := match l with (Some b :: _) :: _ => b | _ => 0 end.
Definition ex_loop2 : op := OWrite (Access [1] [2]) (λ _ l, [replicate 8 (ex_first l)]).
Definition ex_loop3 : op := OWrite (Access [1] [3]) (λ e l, [[ex_first l + e_id e]]).
Local Ltac loop_args md := split; [repeat constructor; set_solver|intros e' l'; split; [done|intros t v [= -> ->]%elem_of_list_singleton; by destruct md]].
Example C83_example : ∀ md,
  let c := ex_cfg md in let x := ex_loop3 in let w := ex_loop2 in let a := Entity 0 1 in let b := Entity 2 1 in
  let tr := end_trace c 8 ex_sys in let s0 := end_store c 8 ex_sys in let s := after c w (after c x s0) in let s' := after c x (after c w s0) in
  aside x (Access [1] [2]) ∧ drun (λ _ _, True) c 8 (tr ++ [(x, None); (w, None)]) s ∧ frugal c (tr ++ [(x, None); (w, None)]) ∧
  drun (λ _ _, True) c 8 (tr ++ [(w, None); (x, None)]) s' ∧
  read_components c s a [2; 3] = POk (Some [Some <$> [1; 1; 1; 1; 1; 1; 1; 1]; [Some 1]]) ∧ read_components c s' a [2; 3] = POk (Some [Some <$> [1; 1; 1; 1; 1; 1; 1; 1]; [Some 1]]) ∧
  read_components c s b [2] = POk (Some [Some <$> [9; 9; 9; 9; 9; 9; 9; 9]]) ∧ read_components c s' b [2] = POk (Some [Some <$> [9; 9; 9; 9; 9; 9; 9; 9]]).
Proof.
  intros md c x w a b tr s0 s s'.
  assert (args_ok c x) as Hx by loop_args md. assert (args_ok c w) as Hw by loop_args md.
  split. { split; intros t ->%elem_of_list_singleton; unfold q_types; simpl; rewrite !elem_of_cons, elem_of_nil; intros [?|[?|[]]]; lia. }
  split. { apply (call_twice c 8 ex_sys); [destruct md; vm_compute; reflexivity|by apply loop_disciplined..|destruct md; vm_compute; reflexivity]. }
  split. { split; [apply one_abandonedb_ok|right; apply below_capacityb_ok]; destruct md; vm_compute; reflexivity. }
  split. { apply (call_twice c 8 ex_sys); [destruct md; vm_compute; reflexivity|by apply loop_disciplined..|destruct md; vm_compute; reflexivity]. }
  split_and!; destruct md; vm_compute; reflexivity.
Qed.
(** The condition is needed: a loop sees a value set before it, and not one set after it. An entity that gets the last of the queried types
    before the loop is written to; one that gets it afterwards is not. *)
Example C83_needed_example : ∀ md,
  let c := ex_cfg md in let w := ex_loop2 in let a := Entity 0 1 in let b := Entity 2 1 in
  let x := OSet a [(1, [8; 8; 8; 8])] in let y := OAdd b [(3, [4])] in
  let s0 := end_store c 8 ex_sys in let s1 := after c w (after c x s0) in let s2 := after c x (after c w s0) in
  let s3 := after c ex_loop3 (after c y s0) in let s4 := after c y (after c ex_loop3 s0) in
  ¬ aside x (Access [1] [2]) ∧ ¬ aside y (Access [1] [3]) ∧ aside y (Access [1] [2]) ∧ ¬ aside ex_loop2 (Access [2] [3]) ∧
  read_components c s1 a [2] = POk (Some [Some <$> [8; 8; 8; 8; 8; 8; 8; 8]]) ∧ read_components c s2 a [2] = POk (Some [Some <$> [1; 1; 1; 1; 1; 1; 1; 1]]) ∧
  read_components c s3 b [3] = POk (Some [[Some 11]]) ∧ read_components c s4 b [3] = POk (Some [[Some 4]]).
Proof.
  intros md c w a b x y s0 s1 s2 s3 s4. split; [|split; [|split; [|split]]].
  - intros H. by apply (H 1); left.
  - intros H. apply (H 3); [by left|right; by left].
  - intros t ->%elem_of_list_singleton. unfold q_types. simpl. rewrite !elem_of_cons, elem_of_nil. intros [?|[?|[]]]; lia.
  - intros [H _]. by apply (H 2); left.
  - split_and!; destruct md; vm_compute; reflexivity.
Qed.
(** Two loops with the same query. *)
Example C83_again_example : ∀ md,
  let c := ex_cfg md in let w := OWrite (Access [1] [3]) (λ _ _, [[77]]) in let w' := ex_loop3 in let a := Entity 0 1 in
  let tr := end_trace c 8 ex_sys in let s0 := end_store c 8 ex_sys in let s := after c w' (after c w s0) in let s' := after c w' s0 in
  drun (λ _ _, True) c 8 (tr ++ [(w, None); (w', None)]) s ∧ frugal c (tr ++ [(w, None); (w', None)]) ∧
  read_components c (after c w s0) a [3] = POk (Some [[Some 77]]) ∧
  read_components c s a [3] = POk (Some [[Some 1]]) ∧ read_components c s' a [3] = POk (Some [[Some 1]]).
Proof.
  intros md c w w' a tr s0 s s'.
  assert (args_ok c w) as Hx by loop_args md. assert (args_ok c w') as Hw by loop_args md.
  split. { apply (call_twice c 8 ex_sys); [destruct md; vm_compute; reflexivity|by apply loop_disciplined..|destruct md; vm_compute; reflexivity]. }
  split. { split; [apply one_abandonedb_ok|right; apply below_capacityb_ok]; destruct md; vm_compute; reflexivity. }
  split_and!; destruct md; vm_compute; reflexivity.
Qed.
(** With caught panics, capacities 1 and 4 and a panic between the calls in one of the histories. *)
Example C83_caught_example : ∀ md,
  let c := ex_cfg md in let a := Entity 1 1 in let x := OAdd a [(3, [1])] in let w := ex_loop2 in
  ∃ tr tr1 s tr2 s', crun c 1 tr1 s ∧ crun c 4 tr2 s' ∧ answered tr1 = tr ++ [(x, None); (w, None)] ∧ answered tr2 = tr ++ [(w, None); (x, None)] ∧
  (OAdd a [(7, [])], Panicked) ∈ tr1 ∧ aside x (Access [1] [2]) ∧
  read_components c s a [2; 3] = POk (Some [Some <$> [5; 5; 5; 5; 5; 5; 5; 5]; [Some 1]]) ∧ read_components c s' a [2; 3] = POk (Some [Some <$> [5; 5; 5; 5; 5; 5; 5; 5]; [Some 1]]).
Proof.
  intros md c a x w. assert (args_ok c w) as Hw by loop_args md.
  destruct (cexec0 c 4 ex_caught) as [[tr0 s0]|] eqn:E0; [|by destruct md; vm_compute in E0].
  destruct (cexec0 c 1 (ex_caught ++ [λ _, x; λ _, OAdd a [(7, [])]])) as [[tr1 s1]|] eqn:E1; [|by destruct md; vm_compute in E1].
  assert (tr1 = tr0 ++ [(x, Returned None); (OAdd a [(7, [])], Panicked)]) as Htr1.
  { assert (fst <$> cexec0 c 1 (ex_caught ++ [λ _, x; λ _, OAdd a [(7, [])]]) = (λ r, r.1 ++ [(x, Returned None); (OAdd a [(7, [])], Panicked)]) <$> cexec0 c 4 ex_caught) as H
      by (destruct md; vm_compute; reflexivity). rewrite E0, E1 in H. by injection H. }
  assert (∃ s, step c w s1 = ROk s None ∧ healthyb c (st_ac s1) None = true ∧ read_components c s a [2; 3] = POk (Some [Some <$> [5; 5; 5; 5; 5; 5; 5; 5]; [Some 1]])) as (s & Hs & Hh & Hread).
  { assert (match cexec0 c 1 (ex_caught ++ [λ _, x; λ _, OAdd a [(7, [])]]) with Some (_, s1) =>
      match step c w s1 with ROk s None => Some (healthyb c (st_ac s1) None, read_components c s a [2; 3]) | _ => None end | None => None end =
      Some (true, POk (Some [Some <$> [5; 5; 5; 5; 5; 5; 5; 5]; [Some 1]]))) as H by (destruct md; vm_compute; reflexivity).
    rewrite E1 in H. destruct (step c w s1) as [s [?|]| |]; try done. apply (inj Some), pair_equal_spec in H as [H1 H2]. by exists s. }
  assert (∃ sw s', step c w s0 = ROk sw None ∧ healthyb c (st_ac s0) None = true ∧ cexec c [λ _, x] [] (tr0 ++ [(w, Returned None)]) sw = Some (tr0 ++ [(w, Returned None); (x, Returned None)], s') ∧
    read_components c s' a [2; 3] = POk (Some [Some <$> [5; 5; 5; 5; 5; 5; 5; 5]; [Some 1]])) as (sw & s' & Hsw & Hh0 & Hx & Hread').
  { assert (match cexec0 c 4 ex_caught with Some (tr0, s0) => match step c w s0 with ROk sw None => match cexec c [λ _, x] [] (tr0 ++ [(w, Returned None)]) sw with
      Some (tr2, s') => Some (healthyb c (st_ac s0) None, tr2, read_components c s' a [2; 3]) | None => None end | _ => None end | None => None end =
      match cexec0 c 4 ex_caught with Some (tr0, _) => Some (true, tr0 ++ [(w, Returned None); (x, Returned None)], POk (Some [Some <$> [5; 5; 5; 5; 5; 5; 5; 5]; [Some 1]])) | None => None end) as H
      by (destruct md; vm_compute; reflexivity).
    rewrite E0 in H. destruct (step c w s0) as [sw [?|]| |]; try done. destruct (cexec c [λ _, x] [] (tr0 ++ [(w, Returned None)]) sw) as [[tr2 s']|] eqn:E; [|done].
    apply (inj Some), pair_equal_spec in H as [[H1 H2]%pair_equal_spec H3]. subst tr2. exists sw, s'. split; [done|]. split; [done|]. done. }
  exists (answered tr0), (tr1 ++ [(w, Returned None)]), s, (tr0 ++ [(w, Returned None); (x, Returned None)]), s'.
  split; [eapply crun_loop; [by eapply cexec0_run|done..]|].
  split; [eapply cexec_run; [|exact Hx]; eapply crun_loop; [by eapply cexec0_run|done..]|].
  split. { rewrite Htr1, <- app_assoc. unfold answered. by rewrite omap_app. }
  split. { unfold answered. by rewrite omap_app. }
  split. { rewrite Htr1, <- app_assoc. apply elem_of_app. right. right. by left. }
  split; [|done]. intros t ->%elem_of_list_singleton. unfold q_types. simpl. rewrite !elem_of_cons, elem_of_nil. intros [?|[?|[]]]; lia.
Qed.
