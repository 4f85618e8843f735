(** Oracle.v — the properties as checks of concrete histories.

    Pseudo-random histories of disciplined calls are run on the model, and after each call everything the interface tells
    is compared with what the history says, written here once more as computable functions. A list of the numbers of the
    properties found violated is returned. No lemma is used, so that edited models can be tested against the properties
    when the proofs no longer go through (seeded/LOG.jsonl). *)
From Verif.Model Require Export Run QueryObj Heap BinarySearch.
From Verif.Spec Require Export Handles Orders Components Queries Runs Heap Resources.
Local Open Scope N_scope.

Definition eqb {A} `{EqDecision A} (x y : A) : bool := bool_decide (x = y).
Global Instance pres_eq_dec {A} `{EqDecision A} : EqDecision (pres A).
Proof. unfold EqDecision. intros x y. unfold Decision. decide equality. - apply EqDecision0. - decide equality. Defined.
Global Instance ctype_eq_dec : EqDecision ctype.
Proof. solve_decision. Defined.
Global Instance cref_eq_dec : EqDecision cref.
Proof. solve_decision. Defined.
Global Instance ptr_eq_dec : EqDecision ptr.
Proof. solve_decision. Defined.
Global Instance pview_eq_dec : EqDecision pview.
Proof. solve_decision. Defined.
Global Instance piter_eq_dec : EqDecision piter.
Proof. solve_decision. Defined.
Global Instance qiter_eq_dec : EqDecision qiter.
Proof. solve_decision. Defined.
Global Instance eiter_eq_dec : EqDecision eiter.
Proof. solve_decision. Defined.
Global Instance oiter_eq_dec : EqDecision oiter.
Proof. solve_decision. Defined.

(** ** What the history says *)
Definition alls : list entity → (entity → bool) → bool := λ l f, forallb f l.
Definition live_list (tr : trace) : list entity := List.filter (λ e, bool_decide (e ∈ live tr)) (issued tr).
Definition taggedb (tr : trace) (t : tid) (e : entity) : bool :=
  foldl (λ b x, match x.1 with
    | OTagAdd t' e' => b || (eqb t' t && eqb e' e)
    | OTagDel t' e' => b && negb (eqb t' t && eqb e' e)
    | ODestroy e' => b && negb (eqb e' e)
    | _ => b end) false tr.
(** Components: a value not determined by the history is None. *)
Definition crow := gmap tid (option (list cell)).
Definition cput (vals : list (tid * list N)) (m : crow) : crow := foldl (λ m tv, <[tv.1 := Some (Some <$> tv.2)]> m) m vals.
Definition chas (m : crow) (T : list tid) : bool := forallb (λ t, bool_decide (is_Some (m !! t))) T.
Definition comps_step (e : entity) (x : option crow) (or : op * option entity) : option crow :=
  match or.1 with
  | OCreate => if eqb or.2 (Some e) then Some ∅ else x
  | OCreateWith a => if eqb or.2 (Some e) then Some (list_to_map ((λ t, (t, None)) <$> arch_ids a)) else x
  | ODestroy e' => if eqb e' e then None else x
  | OAdd e' vals => if eqb e' e then cput vals <$> x else x
  | ORemove e' T => if eqb e' e then (λ m, filter (λ kv, kv.1 ∉ T) m) <$> x else x
  | OSet e' vals => if eqb e' e then (λ m, if chas m vals.*1 then cput vals m else m) <$> x else x
  | OWrite q f => (λ m, if chas m (q_types q) then
        match mapM (λ t, m !! t ≫= λ x, x) (q_read q) with
        | Some vs => cput (zip (q_write q) (f e vs)) m
        | None => foldl (λ m t, <[t := None]> m) m (q_write q)
        end else m) <$> x
  | _ => x
  end.
Definition comps_of (tr : trace) (e : entity) : option crow := foldl (comps_step e) None tr.
Definition had_comps (tr : trace) (e : entity) : bool :=
  snd (foldl (λ b x, (comps_step e b.1 x, b.2 || match comps_step e b.1 x with Some m => negb (bool_decide (m = ∅)) | None => false end))
             (None, false) tr).
Fixpoint sortedb (l : list N) : bool :=
  match l with x :: ((y :: _) as r) => (x <? y) && sortedb r | _ => true end.

(** ** Checks of a state *)
Section checks.
Context (c : cfg) (cap : N) (Ts : list (list tid)) (tags groups : list tid) (tr : trace) (s : store).
Notation hs := (issued tr).

Definition agrees (want : option (list cell)) (got : list cell) : bool := match want with Some v => eqb v got | None => true end.
Definition check_alive : bool := alls hs (λ e, eqb (is_alive c s e) (POk (bool_decide (e ∈ live tr)))).
Definition check_ids : bool := bool_decide (NoDup hs) && alls hs (λ e, e_id e <? peak tr).
Definition check_read : bool := alls hs (λ e, forallb (λ T,
  match read_components c s e T, comps_of tr e with
  | POk (Some vs), Some m => chas m T && Nat.eqb (length vs) (length T) && forallb (λ tv, agrees (default None (m !! tv.1)) tv.2) (zip T vs)
  | POk None, Some m => negb (chas m T)
  | POk None, None => true
  | _, _ => false
  end) Ts).
Definition check_arch : bool := alls hs (λ e,
  match get_entity_archetype c s e, types tr e with
  | POk (Some a), Some X => sortedb (arch_ids a) && bool_decide (list_to_set (arch_ids a) = X) && negb (bool_decide (X = ∅))
  | POk None, Some X => bool_decide (X = ∅)
  | POk None, None => true
  | _, _ => false
  end).
Definition check_tags : bool := alls (live_list tr) (λ e, forallb (λ t, eqb (has_tag c s t e) (POk (taggedb tr t e))) tags).
Fixpoint indexed {A} (i : nat) (l : list A) : list (nat * A) := match l with [] => [] | x :: r => (i, x) :: indexed (S i) r end.
Definition check_orders : bool := forallb (λ g, let l := members tr g in
  eqb (first_ordered c s g) (POk (head l)) && eqb (last_ordered c s g) (POk (last l)) &&
  forallb (λ ie : nat * entity, eqb (next_ordered c s g ie.2) (POk (l !! S ie.1)) && eqb (previous_ordered c s g ie.2) (POk (before l ie.1))) (indexed 0 l) &&
  alls (live_list tr) (λ e, bool_decide (e ∈ l) || (eqb (next_ordered c s g e) (POk None) && eqb (previous_ordered c s g e) (POk None)))) groups.
Fixpoint items {I X} (k : nat) (next : I → pres (option X * I)) (it : I) : pres (list X) :=
  match k with
  | O => PPanic
  | S k => r ← next it; match r.1 with None => mret [] | Some x => xs ← items k next r.2; mret (x :: xs) end
  end.
Definition having (T : list tid) (e : entity) : bool := match types tr e with Some X => bool_decide (list_to_set T ⊆ X) | None => false end.
Definition fuel : nat := S (S (length hs)).
Definition refs_right (T : list tid) (l : list (entity * list cref)) : bool :=
  forallb (λ x : entity * list cref, eqb (get_components_refs c s x.1 T) (POk (Some x.2))) l.
Definition query_items (q : access) : pres (qiter * list (entity * list cref)) :=
  it ← component_query c q s; l ← items fuel (qiter_next_with (ec_ver (st_ec s))) it; mret (it, l).
Definition query_right (q : access) : bool :=
  match query_items q with
  | POk (it, l) =>
    bool_decide (NoDup l.*1) && bool_decide ((list_to_set l.*1 : gset entity) = list_to_set (List.filter (having (q_types q)) hs)) &&
    refs_right (q_types q) l && Nat.eqb (qiter_len it) (length l) && eqb (items fuel qiter_next it) (POk l.*2)
  | _ => false
  end.
Definition accesses : list access := (λ T, Access (take 1 T) (drop 1 T)) <$> Ts.
Definition check_query : bool := forallb query_right accesses.
Definition check_filter : bool := forallb (λ q, forallb (λ t,
  match filter_tag c s t with
  | POk bv =>
    match query_items q with
    | POk (it, l) => eqb (l' ← items fuel (filtering fuel s bv) it; mret (l'.*1 : list entity) : pres (list entity))
                         (POk (List.filter (taggedb tr t) l.*1))
    | _ => false
    end
  | PPanic => forallb (λ x : op * option entity, match x.1 with OTagAdd t' _ => negb (eqb t' t) | _ => true end) tr
  | PUB _ => false
  end) tags) accesses.
(** Lists for entity queries: handles that have had components, dead or alive, in several orders. *)
Definition entity_lists : list (list entity) :=
  let l := List.filter (had_comps tr) hs in [l; reverse l; l ++ take 3 l].
Definition check_entity_query : bool := forallb (λ q, forallb (λ ents,
  match (it ← entity_query c q s ents; l ← items (fuel + 3) eiter_next_with it; l2 ← items (fuel + 3) eiter_next it; mret (l, l2)) with
  | POk (l, l2) => eqb l.*1 (List.filter (having (q_types q)) ents) && refs_right (q_types q) l && eqb l2 l.*2
  | _ => false
  end) entity_lists) accesses.
Definition check_ordered : bool := forallb (λ q, forallb (λ g,
  if alls (members tr g) (had_comps tr) then
    match ordered_query fuel c q s g with
    | Some (POk it) =>
      match items fuel oiter_next it with
      | POk l => eqb l (omap (λ e, match get_components_refs c s e (q_types q) with POk o => o | _ => None end) (members tr g)) && Nat.eqb (oiter_len it) (length l)
      | _ => false
      end
    | _ => false
    end
  else true) groups) accesses.
Definition check_with : bool := forallb (λ q, forallb (λ g,
  if alls (members tr g) (had_comps tr) then
    let rs := List.filter (forallb (having (q_types q))) (runs s (members tr g)) in
    match ordered_query fuel c q s g with
    | Some (POk it) =>
      match items fuel (oiter_next_with (ec_ver (st_ec s))) it with
      | POk l => eqb (paired s None rs) (Some <$> (l.*1 : list entity))
      | _ => existsb (λ x : option entity, match x with None => true | _ => false end) (paired s None rs)
      end
    | _ => false
    end
  else true) groups) accesses.
(** Query objects used before, for anything. *)
Definition junk : pview := PView [] [7; 7] 2.
Definition check_objects : bool := forallb (λ q,
  eqb (x ← component_query_iter c q s [junk]; mret x.1 : pres qiter) (component_query c q s) &&
  forallb (λ ents, eqb (x ← entity_component_query_iter c q s ents (RqObj [(1, 2)%nat] [junk]); mret x.1 : pres eiter) (entity_query c q s ents)) entity_lists &&
  forallb (λ g, eqb (match ordered_query_iter fuel c q s g (RqObj [(1, 2)%nat] [junk]) with Some (POk x) => Some (POk x.1) | Some PPanic => Some PPanic | Some (PUB w) => Some (PUB w) | None => None end)
                    (ordered_query fuel c q s g)) groups) accesses.
(** Health: see Spec/Components.v. *)
Definition check_health : bool := let a := st_ac s in
  forallb (λ i, match c_bs c (N.of_nat <$> ac_free_archs a) (N.of_nat i) with
     | BFound n => eqb (ac_free_archs a !! n) (Some i) | BMissing _ => negb (bool_decide (i ∈ ac_free_archs a)) end &&
     match ac_pages_of a !! i, ac_layouts a !! i with
     | Some ps, Some ly => forallb (λ p, match ac_pages a !! p with
         | Some pg => let n := N.of_nat (length (pg_ids pg)) in negb (n <? pg_vcap pg) || (n <? ly_cap ly) | None => false end) ps
     | _, _ => false end) (seq 0 (length (ac_archs a))).
(** A page is in use or free, and there are no more pages than C63 allows. *)
Definition check_pages : bool := let a := st_ac s in
  forallb (λ p, bool_decide (p ∈ ac_free_pages a) || existsb (λ ps, bool_decide (p ∈ ps)) (ac_pages_of a)) (seq 0 (length (ac_pages a))) &&
  bool_decide (NoDup (ac_free_pages a ++ concat (ac_pages_of a))) && (N.of_nat (length (ac_pages a)) <=? N.max 5 (2 * peak tr + 2)).
(** A debug build refuses to destroy twice. *)
Definition refused (o : op) : bool := match c_mode c, step c o s with Release, _ => true | _, RPanic _ => true | _, _ => false end.
Definition check_refused : bool := alls hs (λ e, bool_decide (e ∈ live tr) ||
    refused (ODestroy e)).

Definition checks (reads : bool) : list (N * bool) :=
  [(1, check_ids); (2, check_alive); (7, if reads then check_read else true); (9, check_arch); (26, check_tags); (28, check_orders); (32, check_query);
   (35, check_filter); (36, check_entity_query); (37, check_ordered); (38, check_with); (59, check_objects); (16, check_health); (63, check_pages); (6, check_refused)].
Definition violated (reads : bool) : list N := (List.filter (λ x, negb x.2) (checks reads)).*1.
End checks.

(** ** Pseudo-random histories *)
Definition next_seed (x : N) : N := (x * 1103515245 + 12345) mod 2147483648.
Definition draw (x n : N) : N := if n =? 0 then 0 else (x / 65536) mod n.
Definition pick {A} (l : list A) (x : N) : option A := l !! N.to_nat (draw x (N.of_nat (length l))).

Section gen.
Context (c : cfg) (cap : N) (sets : list (list tid)) (tags groups : list tid) (anchors : nat) (kinds : list N).
(** A value of the type, from a number. *)
Definition value (t : tid) (x : N) : list N := replicate (N.to_nat (ti_size (c_ty c t))) (x mod 251).
Definition arch (T : list tid) : archetype := match with_components c T with POk a => a | _ => [] end.
(** A loop over a write query that adds to the values of the first type. *)
Definition writes (T : list tid) (x : N) (e : entity) (vs : list (list cell)) : list (list N) :=
  match T, vs with t :: _, v :: _ => [(λ b, (default 0 b + e_id e + x) mod 256) <$> v] | _, _ => [] end.
(** The sets of types in use. Anchors, one entity for each set but the last, are never changed. *)
Definition allowed_set (X : gset tid) : bool := existsb (λ T, bool_decide (list_to_set T = X)) sets.
Definition choose (tr : trace) (x : N) : list op :=
  let x1 := next_seed x in let x2 := next_seed x1 in let x3 := next_seed x2 in
  let es := drop anchors (issued tr) in let ls := List.filter (λ e, bool_decide (e ∈ live tr)) es in
  let k := default 0 (pick kinds x) in
  if k =? 0 then [OCreate]
  else if k <? 3 then match pick sets x1 with Some T => [OCreateWith (arch T)] | None => [] end
  else if k <? 6 then
    match pick es x1, pick sets x2 with
    | Some e, Some T =>
      let vals := (λ t, (t, value t (x3 + t))) <$> T in
      if match types tr e with Some X => allowed_set (X ∪ list_to_set T) | None => true end then [OAdd e vals] else [OSet e vals]
    | _, _ => []
    end
  else if k =? 6 then
    match pick es x1, pick sets x2 with
    | Some e, Some T => if match types tr e with Some X => bool_decide (X = ∅) || allowed_set (X ∖ list_to_set T) | None => true end then [ORemove e T] else []
    | _, _ => []
    end
  else if k =? 7 then match pick es x1, pick sets x2 with Some e, Some T => [OSet e ((λ t, (t, value t (x3 + t))) <$> T)] | _, _ => [] end
  else if k <? 10 then match pick ls x1 with Some e => [ODestroy e] | None => [] end
  else if k =? 10 then match pick ls x1, pick tags x2 with Some e, Some t => [OTagAdd t e] | _, _ => [] end
  else if k =? 11 then match pick ls x1, pick tags x2 with Some e, Some t => [OTagDel t e] | _, _ => [] end
  else if k =? 16 then match pick sets x1 with Some T => [OWrite (Access T (take 1 T)) (writes T x3)] | None => [] end
  else match pick ls x1, pick groups x2 with
    | Some e, Some g =>
      let l := members tr g in
      if k =? 12 then [OOrdDel g e]
      else if bool_decide (e ∈ l) then []
      else if k =? 13 then [OOrdAdd g e]
      else match pick l x3 with Some to => [if k =? 14 then OOrdNext g e to else OOrdPrev g e to] | None => [OOrdAdd g e] end
    | _, _ => []
    end.
(** Makes [n] choices, checking after every [often]-th; values are read after every [every]-th. Returns the violated properties. *)
Fixpoint play (often n : nat) (every : nat) (x : N) (tr : trace) (s : store) : list N * trace :=
  let bad := if Nat.eqb (Nat.modulo n often) 0 then violated c sets tags groups tr s (Nat.eqb (Nat.modulo n every) 0) else [] in
  match bad, n with
  | _ :: _, _ => (bad, tr)
  | [], O => ([], tr)
  | [], S n =>
    match choose tr x with
    | o :: _ =>
      match step c o s with
      | ROk s' r => play often n every (Nat.iter 4 next_seed x) (tr ++ [(o, r)]) s'
      | _ => ([53], tr ++ [(o, None)])
      end
    | [] => play often n every (Nat.iter 4 next_seed x) tr s
    end
  end.
Fixpoint start (l : list (list tid)) (tr : trace) (s : store) : option (trace * store) :=
  match l with
  | [] => Some (tr, s)
  | T :: r =>
    match step c (OCreateWith (arch T)) s with
    | ROk s' x => start r (tr ++ [(OCreateWith (arch T), x)]) s'
    | _ => None
    end
  end.
(** Creates an entity for each set of [pre], the first of which are the anchors, then plays. *)
Definition history (pre : list (list tid)) (often n every : nat) (x : N) : list N * trace :=
  match store_with_capacity (c_mode c) cap with
  | POk s => match start pre [] s with Some (tr, s) => play often n every x tr s | None => ([53], []) end
  | _ => ([53], [])
  end.
(** The blocks of the history are freed. *)
Definition blocks (tr : trace) : bool := match m_life c cap tr with ROk h _ => eqb (map_to_list <$> in_use h) (Some []) | _ => false end.
Definition report (pre : list (list tid)) (often n every : nat) (x : N) : list N :=
  let r := history pre often n every x in r.1 ++ (if blocks r.2 then [] else [52]).
End gen.

(** ** Archetypes: all lists of at most three types, and all pairs of them *)
Section archetypes.
Context (c : cfg) (ids : list tid).
Definition lists : list (list tid) :=
  [] :: ((λ t, [t]) <$> ids) ++ (t ← ids; u ← ids; [[t; u]]) ++ (t ← ids; u ← ids; v ← ids; [[t; u; v]]).
Definition memb (t : tid) (l : list tid) : bool := bool_decide (t ∈ l).
Definition sub (l l' : list tid) : bool := forallb (λ t, memb t l') l.
Definition disjoint (l l' : list tid) : bool := forallb (λ t, negb (memb t l')) l.
Definition nodupb (l : list tid) : bool := bool_decide (NoDup l).
Definition built_right (l l' : list tid) : bool :=
  match bld_build (bld_exclude (bld_include (bld_include bld_new (ctype_of c <$> l)) (ctype_of c <$> l')) (ctype_of c <$> take 1 l')) with
  | ROk _ a => let want := List.filter (λ t, negb (memb t (take 1 l'))) (l ++ l') in
      sortedb (arch_ids a) && sub (arch_ids a) want && sub want (arch_ids a) && forallb (λ x, eqb x (ctype_of c (ct_id x))) a && negb (Nat.eqb (length a) 0)
  | RPanic _ => sub (l ++ l') (take 1 l')
  | _ => false
  end.
Definition arch_of (l : list tid) : archetype := match with_components c l with POk a => a | _ => [] end.
Definition pairs_right (a b : archetype) : bool :=
  let '(us, vs) := arch_union a b in Nat.eqb (length us) (length vs) && bool_decide (NoDup us) && bool_decide (NoDup vs) &&
  forallb (λ x : nat * nat, match arch_ids a !! x.1, arch_ids b !! x.2 with Some t, Some u => t =? u | _, _ => false end) (zip us vs) &&
  Nat.eqb (length us) (length (List.filter (λ t, memb t (arch_ids b)) (arch_ids a))).
Definition arch_violated : list N := (List.filter (λ x : N * bool, negb x.2)
  [(19, forallb (λ l, match with_components c l with POk a => sortedb (arch_ids a) && sub l (arch_ids a) && sub (arch_ids a) l
                      | PPanic => Nat.eqb (length l) 0 | _ => false end) (List.filter nodupb lists) &&
        forallb (λ l, forallb (built_right l) lists) lists);
   (20, forallb (λ l, forallb (λ l', eqb (is_same_as (arch_of l) (arch_of l')) (sub l l' && sub l' l)) (List.filter nodupb lists)) (List.filter nodupb lists));
   (21, forallb (λ l, forallb (λ l', negb (nodupb l') || eqb (is_include_ids c (arch_of l) l') (sub l' l)) lists) (List.filter nodupb lists));
   (22, forallb (λ l, forallb (λ l', negb (nodupb l') || eqb (is_include_only_ids c (arch_of l) l') (sub l' l && sub l l')) lists) (List.filter nodupb lists));
   (23, forallb (λ l, forallb (λ l', eqb (is_exclude c (arch_of l) (arch_of l')) (POk (disjoint l' l))) (List.filter nodupb lists)) (List.filter nodupb lists));
   (24, forallb (λ l, forallb (λ l', pairs_right (arch_of l) (arch_of l')) (List.filter nodupb lists)) (List.filter nodupb lists))]).*1.
(** Layouts: columns in order, aligned, apart, inside the page; C18: fitting sets are accepted. *)
Fixpoint columns_right (a : archetype) (os : list N) (k from : N) : bool :=
  match a, os with
  | [], [] => from <=? 16384
  | x :: a, o :: os => (from <=? o) && (o mod ct_align x =? 0) && columns_right a os k (o + k * ct_size x)
  | _, _ => false
  end.
Definition layout_right (md : mode) (l : list tid) : bool := let a := arch_of l in
  match layout_new md a with
  | POk ly => columns_right a (ly_offs ly) (ly_cap ly) 0
  | PPanic => match a with [] => true | x :: _ =>
      existsb (λ y, (ct_size y =? 0) || (16384 / N.of_nat (length a) - 8 <? ct_size y)) a ||
      (existsb (λ y, 8 <=? ct_align y) a && existsb (λ y, negb (ct_align y =? ct_align x)) a) end
  | PUB _ => false
  end.
Definition layouts_violated : list N :=
  if forallb (λ l, layout_right Debug l && layout_right Release l) (List.filter nodupb lists) then [] else [17].
End archetypes.

(** ** Resource stores *)
Fixpoint rplay (n : nat) (x : N) (tr : rtrace N) (s : rs N) : list N :=
  let ok := forallb (λ e, eqb (rs_index Debug s e) (match held tr e with Some v => POk v | None => PPanic end)) (rissued tr) &&
            bool_decide (NoDup (rissued tr)) &&
            match rs_drop s with POk l => bool_decide (gave tr ≡ₚ got tr ++ l) | _ => false end in
  if negb ok then [42] else
  match n with
  | O => []
  | S n =>
    let x1 := next_seed x in let k := draw x 3 in
    let o := if k =? 0 then RCreate (N.of_nat n) else
      match pick (rissued tr) x1 with Some e => if k =? 1 then RRelease e else RAssign e (N.of_nat n) | None => RCreate (N.of_nat n) end in
    match o, rstep Debug o s with
    | _, ROk s' r => rplay n (next_seed x1) (tr ++ [(o, r)]) s'
    | RRelease e, RPanic _ | RAssign e _, RPanic _ => match held tr e with None => rplay n (next_seed x1) tr s | Some _ => [42] end
    | _, _ => [42]
    end
  end.

(** The kinds of calls: all; and those of large histories, with more creation. *)
Definition kinds17 : list N := N.of_nat <$> seq 0 17.
Definition kinds_many : list N := [0; 1; 1; 2; 3; 6; 8; 9; 9; 10; 11; 12; 13; 14; 15].
Fixpoint cycle {A} (k : nat) (l : list A) : list A := match k with O => [] | S k => l ++ cycle k l end.

(** Small types, several sets of types; the last set is not anchored. Few entities, so that pages are never full. *)
Definition small_ty (t : tid) : tyinfo := match t with 1 => TyInfo 4 4 | 2 => TyInfo 8 8 | 3 => TyInfo 1 1 | 4 => TyInfo 2 2 | _ => TyInfo 4 4 end.
Definition small (md : mode) (bs : list N → N → bsres) (cap : N) : nat → nat → N → list N :=
  report (Cfg md small_ty bs rawvec_grow) cap [[2]; [1]; [3]; [1; 2]; [3; 1]; [1; 2; 3]] [5; 6] [9; 8] 5 kinds17
    [[2]; [1]; [3]; [1; 2]; [3; 1]] 1.
(** Types of 3000 bytes, one per entity: pages have 5 rows, and the sets use several. (No write queries: they take long.) *)
Definition large (md : mode) (bs : list N → N → bsres) (cap : N) : nat → nat → N → list N :=
  report (Cfg md (λ _, TyInfo 3000 4) bs rawvec_grow) cap [[7]; [3]; [5]; [1]] [5; 4] [9; 8] 3 (take 16 kinds17)
    [[7]; [3]; [5]] 1.
(** Many entities, checked now and then: more than 32 ids, and more than one page of some archetypes. *)
Definition crowd (md : mode) (bs : list N → N → bsres) (cap : N) : nat → nat → nat → N → list N :=
  report (Cfg md small_ty bs rawvec_grow) cap [[2]; [1]; [3]; [1; 2]; [3; 1]; [1; 2; 3]] [5; 6; 7] [9; 8] 5 kinds_many
    (cycle 7 [[2]; [1]; [3]; [1; 2]; [3; 1]]).
Definition crowd_large (md : mode) (bs : list N → N → bsres) (cap : N) : nat → nat → nat → N → list N :=
  report (Cfg md (λ _, TyInfo 3000 4) bs rawvec_grow) cap [[7]; [3]; [5]; [1]] [5; 4] [9; 8] 2 kinds_many
    (cycle 4 [[7]; [3]; [5]]).
Definition layout_ty (t : tid) : tyinfo :=
  match t with 1 => TyInfo 4 4 | 2 => TyInfo 3 1 | 3 => TyInfo 16 16 | 4 => TyInfo 24 8 | 5 => TyInfo 0 1 | 6 => TyInfo 5000 4 | 7 => TyInfo 8192 8192 | 8 => TyInfo 1 1 | _ => TyInfo 1366 2 end.
Definition archetypes (bs : list N → N → bsres) : list N :=
  arch_violated (Cfg Debug small_ty bs rawvec_grow) [4; 1; 3; 2] ++ layouts_violated (Cfg Debug layout_ty bs rawvec_grow) [1; 2; 3; 4; 5; 6; 7; 8; 9].
Definition resources (cap : N) (x : N) : list N := rplay 60 x [] (if cap =? 0 then rs_new else rs_with_capacity cap).
