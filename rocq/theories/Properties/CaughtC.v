(** CaughtC.v — components and queries when calls panic and the panics are caught, in both builds: C71, C70. *)
From Verif.Spec Require Import Caught Tags Orders Queries Writes Aliasing.
From Verif.Proofs Require Import UnwindB UnwindQ CompX ExecP QueryX.
Local Open Scope N_scope.

(** C71: careful use of a store whose calls sometimes panic because an archetype is refused, because all components of an entity are
    removed, or, in debug builds, because an order call is improper. The components of every entity whose handle was returned are those that the calls
    that returned gave it ... *)
Theorem C71_values_persist : ∀ c cap tr s e,
  cfg_ok c → crun c cap tr s → e ∈ issued (answered tr) →
  ∃ x, comps (answered tr) e x ∧ observed c s e x ∧ (is_Some x ↔ alive_in (answered tr) e).
Proof. exact (λ c cap tr s e Hc, both_values c Hc cap tr s e). Qed.
Print Assumptions C71_values_persist.
(** ... component queries visit exactly the entities having all queried types, once each, and none whose handle was not returned; ... *)
Theorem C71_component_query_exact : ∀ c cap tr s q,
  cfg_ok c → crun c cap tr s → NoDup (q_types q) → q_types q ≠ [] →
  ∃ it l it1 it2, component_query c q s = POk it ∧
    yields (qiter_next_with (ec_ver (st_ec s))) it l it1 ∧ yields qiter_next it l.*2 it2 ∧ qiter_len it = length l ∧
    NoDup l.*1 ∧ disjoint_items l ∧
    (∀ e, e ∈ l.*1 ↔ e ∈ issued (answered tr) ∧ ∃ m, observed c s e (Some m) ∧ ∀ t, t ∈ q_types q → is_Some (m !! t)) ∧
    (∀ e rs, (e, rs) ∈ l → get_components_refs c s e (q_types q) = POk (Some rs) ∧
      ∃ m, observed c s e (Some m) ∧ read_ref (ac_pages (st_ac s)) <$> rs = values m (q_types q)).
Proof. exact (λ c cap tr s q Hc, both_query c Hc cap tr s q). Qed.
Print Assumptions C71_component_query_exact.
(** ... so do entity queries, under the condition of C36, ... *)
Theorem C71_entity_query_exact : ∀ c cap tr s q ents,
  cfg_ok c → crun c cap tr s → NoDup (q_types q) → q_types q ≠ [] → (∀ e, e ∈ ents → e ∈ issued (answered tr)) →
  (∀ i e e', ents !! i = Some e → ents !! S i = Some e' → qualifies c s q e → had_components (answered tr) e') →
  ∃ it l it' f, entity_query c q s ents = POk it ∧ yields eiter_next_with it l it' ∧ yields eiter_next it l.*2 it' ∧
    l.*1 = List.filter f ents ∧ (∀ e, e ∈ ents → f e = true ↔ qualifies c s q e) ∧
    (∀ e rs, (e, rs) ∈ l → get_components_refs c s e (q_types q) = POk (Some rs)).
Proof. exact (λ c cap tr s q ents Hc, both_caught_entity_query c Hc cap tr s q ents). Qed.
Print Assumptions C71_entity_query_exact.
(** ... and ordered queries (C37); ... *)
Theorem C71_ordered_query_exact : ∀ c cap tr s q g fuel,
  cfg_ok c → crun c cap tr s → NoDup (q_types q) → q_types q ≠ [] → (∀ e, e ∈ members (answered tr) g → had_components (answered tr) e) →
  (length (members (answered tr) g) < fuel)%nat →
  ∃ it l it' f, ordered_query fuel c q s g = Some (POk it) ∧ yields oiter_next it l.*2 it' ∧ oiter_len it = length l ∧
    l.*1 = List.filter f (members (answered tr) g) ∧ (∀ e, e ∈ members (answered tr) g → f e = true ↔ qualifies c s q e) ∧
    (∀ e rs, (e, rs) ∈ l → get_components_refs c s e (q_types q) = POk (Some rs)).
Proof. exact (λ c cap tr s q g fuel Hc, both_caught_ordered_query c Hc cap tr s q g fuel). Qed.
Print Assumptions C71_ordered_query_exact.
(** ... the references handed out are exclusive, in bounds, initialised and aligned under the conditions of C61; ... *)
Theorem C71_references : ∀ c cap tr s src q l,
  cfg_ok c → crun c cap tr s → NoDup (q_types q) → q_types q ≠ [] → known (answered tr) src → hands_out c s src q l →
  (once src → exclusive q l) ∧ in_bounds c s q l ∧ (assigned (answered tr) (q_types q) → initialised s l) ∧
    ∀ base, rust_types c → (∀ p t, t ∈ q_types q → (ti_align (c_ty c t) | base p)) → aligned c base q l.
Proof. exact (λ c cap tr s src q l Hc, both_caught_references c Hc cap tr s src q l). Qed.
Print Assumptions C71_references.
Theorem C71_two_sources : ∀ c cap tr s src1 q1 l1 src2 q2 l2,
  cfg_ok c → crun c cap tr s → NoDup (q_types q1) → q_types q1 ≠ [] → NoDup (q_types q2) → q_types q2 ≠ [] →
  known (answered tr) src1 → known (answered tr) src2 → compatible q1 q2 →
  hands_out c s src1 q1 l1 → hands_out c s src2 q2 l2 → exclusive_of q1 l1 q2 l2.
Proof. exact (λ c cap tr s src1 q1 l1 src2 q2 l2 Hc, both_caught_sources c Hc cap tr s src1 q1 l1 src2 q2 l2). Qed.
Print Assumptions C71_two_sources.
(** ... disciplined calls still return; ... *)
Theorem C71_calls_return : ∀ c cap tr s o,
  cfg_ok c → crun c cap tr s → healthy c (st_ac s) (asks (answered tr) o) → args_ok c o → room (in_mode Debug c) (answered tr) o →
  order_use_ok (answered tr) o → own (answered tr) o → (creating o = true → N.of_nat (creations tr) < 2 ^ 32 - 1) →
  match o with
  | ODestroy e => alive_in (answered tr) e
  | ORemove e T => ∀ m, comps (answered tr) e (Some m) → m = ∅ ∨ ∃ t, is_Some (m !! t) ∧ t ∉ T
  | _ => True
  end → ∃ s' r, step c o s = ROk s' r.
Proof. exact (λ c cap tr s o Hc, both_return c Hc cap tr s o). Qed.
Print Assumptions C71_calls_return.
(** ... and no such call performs an undefined operation, also not with a refused archetype. *)
Theorem C71_calls_defined : ∀ c cap tr s o,
  cfg_ok c → crun c cap tr s → healthy c (st_ac s) (asks (answered tr) o) → args_ok c o → room_or_not c (answered tr) o →
  order_use_ok (answered tr) o → own (answered tr) o → (creating o = true → N.of_nat (creations tr) < 2 ^ 32 - 1) →
  (∀ e, o = ODestroy e → alive_in (answered tr) e) → defined c o s.
Proof. exact (λ c cap tr s o Hc, both_defined c Hc cap tr s o). Qed.
Print Assumptions C71_calls_defined.
(** To the holders of the handles the store looks as after a history without panics, in which the creations that panicked are plain
    creations whose handles were thrown away. *)
Theorem C71_as_without_panics : ∀ c cap tr s, cfg_ok c → crun c cap tr s →
  ∃ tr' F s0, explains tr tr' F ∧ hrun (in_mode Debug c) cap tr' s0 ∧
    ∀ e, e ∈ issued (answered tr) → ∀ x, observed c s e x ↔ observed (in_mode Debug c) s0 e x.
Proof. exact (λ c cap tr s Hc, both_told c Hc cap tr s). Qed.
Print Assumptions C71_as_without_panics.
(** The two builds do the same, also when they panic. *)
Theorem C71_both_builds : ∀ c cap tr s o,
  cfg_ok c → crun c cap tr s → healthy c (st_ac s) (asks (answered tr) o) → args_ok c o → room_or_not c (answered tr) o →
  order_use_ok (answered tr) o → own (answered tr) o → (creating o = true → N.of_nat (creations tr) < 2 ^ 32 - 1) →
  (∀ e, o = ODestroy e → alive_in (answered tr) e) →
  ∀ x s', ends c o s x s' ↔ ends (in_mode Debug c) o s x s'.
Proof. exact (λ c cap tr s o Hc, both_same c Hc cap tr s o). Qed.
Print Assumptions C71_both_builds.

(** C70 for these histories, in both builds. *)
Theorem C70_tags_both : ∀ c cap tr s t e, cfg_ok c → crun c cap tr s → ec_cap (st_ec s) < 2 ^ 32 →
  tags_on_live (answered tr) → alive_in (answered tr) e →
  ∃ b : bool, has_tag c s t e = POk b ∧ (b = true ↔ tagged (answered tr) t e).
Proof. exact (λ c cap tr s t e Hc, both_has_tag c Hc cap tr s t e). Qed.
Print Assumptions C70_tags_both.
Theorem C70_orders_both : ∀ c cap tr s g, cfg_ok c → crun c cap tr s → ec_cap (st_ec s) < 2 ^ 32 →
  let l := members (answered tr) g in
  NoDup l ∧ (∀ e, e ∈ l → alive_in (answered tr) e) ∧
  first_ordered c s g = POk (head l) ∧
  last_ordered c s g = POk (last l) ∧
  (∀ i e, l !! i = Some e → next_ordered c s g e = POk (l !! S i) ∧ previous_ordered c s g e = POk (before l i)) ∧
  (∀ e, alive_in (answered tr) e → e ∉ l → next_ordered c s g e = POk None ∧ previous_ordered c s g e = POk None).
Proof. exact (λ c cap tr s g Hc, both_order c Hc cap tr s g). Qed.
Print Assumptions C70_orders_both.

(** Three panics. The entity (0, 2) is the one of the creation that panicked: its id has the archetype bit of the entity (0, 1), which
    is why the theorems are about handles that were returned. *)
Example C71_example : ∀ md, ∃ tr s, cexec0 (ex_cfg md) 1 ex_caught = Some (tr, s) ∧ crun (ex_cfg md) 1 tr s ∧
  (λ x, match x.2 with Panicked => true | _ => false end) <$> tr =
    [false; false; false; false; false; true; true; false; false; true; false; false; false; false] ∧
  issued (answered tr) = [Entity 0 1; Entity 1 1; Entity 2 1] ∧
  read_components (ex_cfg md) s (Entity 0 1) [1] = POk None ∧
  read_components (ex_cfg md) s (Entity 1 1) [2; 1] = POk (Some [Some <$> [1; 1; 1; 1; 1; 1; 1; 1]; Some <$> [5; 6; 7; 8]]) ∧
  read_components (ex_cfg md) s (Entity 2 1) [1] = POk (Some [Some <$> [9; 9; 9; 9]]) ∧
  is_alive (ex_cfg md) s (Entity 0 2) = POk true ∧ has_archetype s 0 = POk true ∧
  members (answered tr) 5 = [Entity 1 1; Entity 2 1] ∧ first_ordered (ex_cfg md) s 5 = POk (Some (Entity 1 1)) ∧
  has_tag (ex_cfg md) s 3 (Entity 2 1) = POk true ∧ has_tag (ex_cfg md) s 3 (Entity 1 1) = POk false ∧
  show_query (ex_cfg md) (Access [1] []) s =
    POk [(Entity 2 1, [Some <$> [9; 9; 9; 9]]); (Entity 1 1, [Some <$> [5; 6; 7; 8]])] ∧
  (it ← entity_query (ex_cfg md) (Access [2] []) s [Entity 1 1; Entity 2 1; Entity 0 1]; l ← drain 9 eiter_next_with it; mret l.*1 : pres (list entity)) = POk [Entity 1 1] ∧
  (it ← default PPanic (ordered_query 9 (ex_cfg md) (Access [1] []) s 5); l ← drain 9 oiter_next it; mret (List.map (List.map (read_ref (ac_pages (st_ac s)))) l) : pres (list (list (list cell)))) =
    POk [[Some <$> [5; 6; 7; 8]]; [Some <$> [9; 9; 9; 9]]].
Proof.
  intros md. destruct (cexec0 (ex_cfg md) 1 ex_caught) as [[tr s]|] eqn:E; [|by destruct md; vm_compute in E]. exists tr, s.
  split; [done|]. split; [by eapply cexec0_run|].
  split_and!; match goal with |- ?x = ?v => let y := eval pattern tr, s in x in match y with ?f _ _ =>
    assert ((λ r, f r.1 r.2) <$> cexec0 (ex_cfg md) 1 ex_caught = Some v) as H by (destruct md; vm_compute; reflexivity) end end;
    rewrite E in H; injection H as H; exact H.
Qed.
