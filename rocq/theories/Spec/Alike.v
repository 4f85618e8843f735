(** Alike.v — what a loop over a query sees. *)
From Verif.Spec Require Export Components Tags Orders Queries Writes Discipline Caught.
Local Open Scope N_scope.

(** The entities and values of the items. *)
Definition viewed (s : store) (l : list (entity * list cref)) : list (entity * list (list cell)) :=
  (λ x : entity * list cref, (x.1, read_ref (ac_pages (st_ac s)) <$> x.2)) <$> l.
(** The two stores have the same live entities, and reading their components [T] gives the same. *)
Definition reads_alike (c : cfg) (tr : trace) (s : store) (c' : cfg) (tr' : trace) (s' : store) (T : list tid) : Prop :=
  ∀ e, (alive_in tr e ↔ alive_in tr' e) ∧ (alive_in tr e → read_components c s e T = read_components c' s' e T).
(** Component queries [q] of the two stores return and yield the same entities and values, in some order. *)
Definition visited_alike (c : cfg) (s : store) (c' : cfg) (s' : store) (q : access) : Prop :=
  ∃ it l it1 it' l' it1', component_query c q s = POk it ∧ yields (qiter_next_with (ec_ver (st_ec s))) it l it1 ∧
    component_query c' q s' = POk it' ∧ yields (qiter_next_with (ec_ver (st_ec s'))) it' l' it1' ∧
    viewed s l ≡ₚ viewed s' l' ∧ qiter_len it = qiter_len it'.
(** Entity queries [q] of the two stores with the list [ents] return and yield the same entities and values in the same order. *)
Definition looked_up_alike (c : cfg) (s : store) (c' : cfg) (s' : store) (q : access) (ents : list entity) : Prop :=
  ∃ it l it1 it' l' it1', entity_query c q s ents = POk it ∧ yields eiter_next_with it l it1 ∧
    entity_query c' q s' ents = POk it' ∧ yields eiter_next_with it' l' it1' ∧ viewed s l = viewed s' l'.
(** Ordered queries [q] of the group [g] likewise. *)
Definition ordered_alike (c : cfg) (s : store) (c' : cfg) (s' : store) (q : access) (g : tid) (fuel : nat) : Prop :=
  ∃ it l it1 it' l' it1', ordered_query fuel c q s g = Some (POk it) ∧ yields oiter_next it l.*2 it1 ∧
    ordered_query fuel c' q s' g = Some (POk it') ∧ yields oiter_next it' l'.*2 it1' ∧ viewed s l = viewed s' l' ∧ oiter_len it = oiter_len it'.
