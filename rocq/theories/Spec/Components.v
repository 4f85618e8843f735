(** Components.v — the components of each entity, as a history of calls determines them. *)
From Verif.Model Require Export Run.
From Verif.Spec Require Export Env Handles.
Local Open Scope N_scope.

(** The components of one entity: bytes by type. *)
Notation row := (gmap tid (list cell)) (only parsing).

(** Has every type of the tuple. *)
Definition has_all (m : row) (T : list tid) : bool := forallb (λ t, bool_decide (is_Some (m !! t))) T.
(** The values of the types of a tuple. *)
Definition values (m : row) (T : list tid) : list (list cell) := (λ t, default [] (m !! t)) <$> T.
(** Assign the given values, one after the other. *)
Definition put (vals : list (tid * list N)) (m : row) : row := foldl (λ m tv, <[tv.1 := Some <$> tv.2]> m) m vals.
(** Forget the given types. *)
Definition forget (T : list tid) (m : row) : row := filter (λ kv, kv.1 ∉ T) m.

(** How one call changes the components of [e] ([None]: not alive). Only the contents of the components of
    create_entity_with_archetype are not determined. *)
Definition comp_step (e : entity) (x : option row) (o : op) (r : option entity) (x' : option row) : Prop :=
  match o with
  | OCreate => x' = if decide (r = Some e) then Some ∅ else x
  | OCreateWith a => if decide (r = Some e) then ∃ m, x' = Some m ∧ ∀ t, is_Some (m !! t) ↔ t ∈ arch_ids a else x' = x
  | ODestroy e' => x' = if decide (e' = e) then None else x
  | OAdd e' vals => x' = if decide (e' = e) then put vals <$> x else x
  | ORemove e' T => x' = if decide (e' = e) then forget T <$> x else x
  | OSet e' vals => x' = if decide (e' = e) then (λ m, if has_all m vals.*1 then put vals m else m) <$> x else x
  | OWrite q f => x' = (λ m, if has_all m (q_types q) then put (zip (q_write q) (f e (values m (q_read q)))) m else m) <$> x
  | _ => x' = x
  end.
(** [comps tr e x]: after [tr], the components of [e] are [x]. *)
Inductive comps : trace → entity → option row → Prop :=
| comps_nil e : comps [] e None
| comps_snoc tr e x o r x' : comps tr e x → comp_step e x o r x' → comps (tr ++ [(o, r)]) e x'.

(** What reading the tuple T must give. *)
Definition expected (x : option row) (T : list tid) : option (list (list cell)) :=
  match x with Some m => if has_all m T then Some (values m T) else None | None => None end.

(** Everything the API tells about the components of [e] is [x]: whether it is alive, what can be read, its archetype. *)
Definition observed (c : cfg) (s : store) (e : entity) (x : option row) : Prop :=
  is_alive c s e = POk (bool_decide (is_Some x)) ∧
  (∀ T, T ≠ [] → read_components c s e T = POk (expected x T)) ∧
  match x with
  | Some m =>
    if decide (m = ∅) then get_entity_archetype c s e = POk None
    else ∃ a, get_entity_archetype c s e = POk (Some a) ∧ StronglySorted N.lt (arch_ids a) ∧
              ∀ t, t ∈ arch_ids a ↔ is_Some (m !! t)
  | None => get_entity_archetype c s e = POk None
  end.

(** The entity whose components a call is about. *)
Definition concerns (o : op) (e : entity) : bool :=
  match o with
  | ODestroy e' | OAdd e' _ | ORemove e' _ | OSet e' _ => bool_decide (e' = e)
  | OWrite _ _ => true
  | _ => false
  end.

(** ** Discipline of use *)

(** An archetype of this program's component types. *)
Definition arch_wf (c : cfg) (a : archetype) : Prop :=
  StronglySorted N.lt (arch_ids a) ∧ a ≠ [] ∧ a = ctype_of c <$> arch_ids a.
(** The layout of the archetype is accepted, and a page holds at least one row. *)
Definition fits (c : cfg) (a : archetype) : Prop := ∃ ly, layout_new (c_mode c) a = POk ly ∧ 1 ≤ ly_cap ly.
(** The same for a set of types. *)
Definition fits_types (c : cfg) (S : gset tid) : Prop :=
  ∀ a, arch_wf c a → (∀ t, t ∈ arch_ids a ↔ t ∈ S) → fits c a.

(** A value has the size of its type. *)
Definition vals_ok (c : cfg) (vals : list (tid * list N)) : Prop :=
  ∀ t v, (t, v) ∈ vals → N.of_nat (length v) = ti_size (c_ty c t).
(** The type checker's and the documentation's requirements on the arguments: non-empty tuples of distinct types. *)
Definition args_ok (c : cfg) (o : op) : Prop :=
  match o with
  | OCreateWith a => arch_wf c a
  | OAdd _ vals | OSet _ vals => vals ≠ [] ∧ NoDup vals.*1 ∧ vals_ok c vals
  | ORemove _ T => T ≠ [] ∧ NoDup T
  | OWrite q f => NoDup (q_types q) ∧
      ∀ e l, length (f e l) = length (q_write q) ∧ vals_ok c (zip (q_write q) (f e l))
  | _ => True
  end.
(** The archetype the call moves its entity to has room in a page. *)
Definition room (c : cfg) (tr : trace) (o : op) : Prop :=
  match o with
  | OCreateWith a => fits c a
  | OAdd e vals => ∀ m, comps tr e (Some m) → fits_types c (dom m ∪ list_to_set vals.*1)
  | ORemove e T => ∀ m, comps tr e (Some m) → fits_types c (dom m ∖ list_to_set T)
  | _ => True
  end.

(** ** Healthy archetypes *)

(** The set of component types of an entity ([None]: not alive) is determined by the history. *)
Definition types_step (e : entity) (x : option (gset tid)) (o : op) (r : option entity) : option (gset tid) :=
  match o with
  | OCreate => if decide (r = Some e) then Some ∅ else x
  | OCreateWith a => if decide (r = Some e) then Some (list_to_set (arch_ids a)) else x
  | ODestroy e' => if decide (e' = e) then None else x
  | OAdd e' vals => if decide (e' = e) then (λ S, S ∪ list_to_set vals.*1) <$> x else x
  | ORemove e' T => if decide (e' = e) then (λ S, S ∖ list_to_set T) <$> x else x
  | _ => x
  end.
Definition types (tr : trace) (e : entity) : option (gset tid) := foldl (λ x or, types_step e x or.1 or.2) None tr.
(** The types of the archetype that the call puts its entity in. *)
Definition asks (tr : trace) (o : op) : option (gset tid) :=
  match o with
  | OCreateWith a => Some (list_to_set (arch_ids a))
  | OAdd e vals => (λ S, S ∪ list_to_set vals.*1) <$> types tr e
  | ORemove e T => (λ S, S ∖ list_to_set T) <$> types tr e
  | _ => None
  end.

(** The pages of archetype [i] with room according to their Vec have room according to their layout. *)
Definition roomy_at (s : ac) (i : nat) : Prop := ∀ ps p pg ly,
  ac_pages_of s !! i = Some ps → p ∈ ps → ac_pages s !! p = Some pg → ac_layouts s !! i = Some ly →
  N.of_nat (length (pg_ids pg)) < pg_vcap pg → N.of_nat (length (pg_ids pg)) < ly_cap ly.
(** The binary search for archetype [i] in the list of abandoned archetypes gives a correct answer. *)
Definition found_right (c : cfg) (s : ac) (i : nat) : Prop :=
  match c_bs c (N.of_nat <$> ac_free_archs s) (N.of_nat i) with
  | BFound n => ac_free_archs s !! n = Some i
  | BMissing _ => i ∉ ac_free_archs s
  end.
(** The archetype of the types asked for, if there is one, is healthy. *)
Definition healthy_for (c : cfg) (s : ac) (S : gset tid) : Prop := ∀ i a,
  ac_archs s !! i = Some a → list_to_set (arch_ids a) = S → found_right c s i ∧ roomy_at s i.
Definition healthy (c : cfg) (s : ac) (w : option (gset tid)) : Prop := ∀ S, w = Some S → healthy_for c s S.

(** Conditions on all archetypes: pages with room according to their Vec have room according to their layout; the list
    of abandoned archetypes is in increasing order. *)
Definition roomy (s : ac) : Prop := ∀ i, roomy_at s i.
Definition sorted_free (s : ac) : Prop := StronglySorted N.lt (N.of_nat <$> ac_free_archs s).

(** A run whose calls all meet these conditions. *)
Inductive hrun (c : cfg) (cap : N) : trace → store → Prop :=
| hrun_init s : store_with_capacity (c_mode c) cap = POk s → hrun c cap [] s
| hrun_step tr s o s' r : hrun c cap tr s → healthy c (st_ac s) (asks tr o) → args_ok c o → room c tr o →
    step c o s = ROk s' r → hrun c cap (tr ++ [(o, r)]) s'.

(** [e] has had components at some time. *)
Definition had_components (tr : trace) (e : entity) : Prop :=
  ∃ tr1 tr2 m, tr = tr1 ++ tr2 ∧ comps tr1 e (Some m) ∧ m ≠ ∅.
