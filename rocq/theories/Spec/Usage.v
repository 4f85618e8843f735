(** Usage.v — how a history uses component types: which sets of types its entities have had. *)
From Verif.Spec Require Export Components.
Local Open Scope N_scope.

(** Some entity has exactly the types [S]; some entity has had them; [S] is the first such set of the history. *)
Definition occupied (tr : trace) (S : gset tid) : Prop := S ≠ ∅ ∧ ∃ e, types tr e = Some S.
Definition used (tr : trace) (S : gset tid) : Prop := ∃ tr1 tr2, tr = tr1 ++ tr2 ∧ occupied tr1 S.
Definition first_used (tr : trace) (S : gset tid) : Prop :=
  ∃ tr1 x tr2, tr = tr1 ++ x :: tr2 ∧ (∀ S', ¬ used tr1 S') ∧ occupied (tr1 ++ [x]) S.
(** No entity has the types [S] any more. The first set of the history does not count. *)
Definition abandoned (tr : trace) (S : gset tid) : Prop := used tr S ∧ ¬ occupied tr S ∧ ¬ first_used tr S.

(** At no time is more than one set of types abandoned. *)
Definition one_abandoned (tr : trace) : Prop :=
  ∀ tr1 tr2 S1 S2, tr = tr1 ++ tr2 → abandoned tr1 S1 → abandoned tr1 S2 → S1 = S2.

(** A page holds [n] rows of the types [S]. *)
Definition page_holds (c : cfg) (S : gset tid) (n : N) : Prop :=
  ∃ a ly, arch_wf c a ∧ list_to_set (arch_ids a) = S ∧ layout_new (c_mode c) a = POk ly ∧ ly_cap ly = n.
(** Pages hold the same number of rows whatever the types used. *)
Definition same_capacity (c : cfg) (K : N) (tr : trace) : Prop := ∀ S n, used tr S → page_holds c S n → n = K.
(** At no time are there as many entities with the same set of types as a page holds. *)
Definition below_capacity (c : cfg) (tr : trace) : Prop :=
  ∀ tr1 tr2 S n es, tr = tr1 ++ tr2 → page_holds c S n → es ≠ [] → NoDup es → Forall (λ e, types tr1 e = Some S) es →
    N.of_nat (length es) < n.

(** ** A weaker condition, call by call
    The types of the entity whose row a call takes off its page, if any: adding types takes the entity to another page if
    one of them is new. *)
Definition leaves (tr : trace) (o : op) : option (gset tid) :=
  match o with
  | ODestroy e | ORemove e _ => types tr e
  | OAdd e vals => X ← types tr e; if decide (list_to_set vals.*1 ⊆ X) then None else Some X
  | _ => None
  end.
(** Pages may have been left empty by the types [S]. The pages of the first set of the history are never given back. *)
Definition vacated (tr : trace) (S : gset tid) : Prop :=
  (∃ tr1 o r tr2, tr = tr1 ++ (o, r) :: tr2 ∧ leaves tr1 o = Some S) ∧ ¬ first_used tr S.
(** [Vec::reserve] of [n] elements on an empty Vec with room for [v]. *)
Definition reserve_vec (c : cfg) (v n : N) : N := if v <? n then c_grow c v n else v.
(** The number of ids a free page may have room for: it is new, or the types that left it had it reserve room for their rows. *)
Inductive page_room (c : cfg) (tr : trace) : N → Prop :=
| page_room_new : page_room c tr 0
| page_room_left S n v : vacated tr S → page_holds c S n → page_room c tr v → page_room c tr (reserve_vec c v n).
(** There are as many entities with the types [S] as a page of [n] rows holds. *)
Definition crowded (tr : trace) (S : gset tid) (n : N) : Prop :=
  ∃ es, es ≠ [] ∧ NoDup es ∧ Forall (λ e, types tr e = Some S) es ∧ n ≤ N.of_nat (length es).
(** A call that puts an entity into the types [S]: if [S] is abandoned, no other set of types is; and if there are enough
    entities to fill a page, all free pages there may have been had room for as many ids as a page has rows of [S], no more. *)
Definition careful_call (c : cfg) (tr : trace) (o : op) : Prop :=
  ∀ S, asks tr o = Some S →
    (abandoned tr S → ∀ S', abandoned tr S' → S' = S) ∧
    (∀ n v, page_holds c S n → crowded tr S n → page_room c tr v → reserve_vec c v n = n).
Definition careful (c : cfg) (tr : trace) : Prop :=
  ∀ tr1 o r tr2, tr = tr1 ++ (o, r) :: tr2 → careful_call c tr1 o.
(** On unsorted slices too, a binary search only claims to have found what is there. Not in the documentation of
    [slice::binary_search], but true of its implementations. *)
Definition search_honest (bs : list N → N → bsres) : Prop := ∀ l x i, bs l x = BFound i → l !! i = Some x.

(** A run whose calls meet the requirements on arguments, and whose containers and calls (by the types they ask for) meet [H]. *)
Inductive grun (H : ac → option (gset tid) → Prop) (c : cfg) (cap : N) : trace → store → Prop :=
| grun_init s : store_with_capacity (c_mode c) cap = POk s → grun H c cap [] s
| grun_step tr s o s' r : grun H c cap tr s → H (st_ac s) (asks tr o) → args_ok c o → room c tr o →
    step c o s = ROk s' r → grun H c cap (tr ++ [(o, r)]) s'.

(** The claim that calls leave the components of other entities alone, and the claim that calls stay inside the memory of
    their pages, for histories in which the containers meet [H]. *)
Definition others_kept (H : cfg → ac → option (gset tid) → Prop) : Prop :=
  ∀ c cap tr s o s' r e T v, cfg_ok c → c_mode c = Debug → grun (H c) c cap tr s → H c (st_ac s) (asks tr o) → args_ok c o → room c tr o →
    step c o s = ROk s' r → alive_in tr e → concerns o e = false → T ≠ [] →
    read_components c s e T = POk (Some v) → read_components c s' e T = POk (Some v).
Definition stays_inside (H : cfg → ac → option (gset tid) → Prop) : Prop :=
  ∀ c cap tr s o, cfg_ok c → c_mode c = Debug → grun (H c) c cap tr s → H c (st_ac s) (asks tr o) → args_ok c o → room c tr o →
    step c o s ≠ RUB OutOfBounds.
