(** Query.v — src/query/*.rs: queries as iterator state machines.
    An access is a pair (R, W) of tuples: ReadWriteAccess<R, W>; ReadonlyAccess<R> is (R, []); WriteAccess<W> is ([], W).
    The reusable query objects with their vectors are in QueryObj.v; here the iterators have them as their own. *)
From Verif.Model Require Export Store.
Local Open Scope N_scope.

(** query/access.rs:8-20: the three kinds of access *)
Record access := Access { q_read : list tid; q_write : list tid }.
(** the types a query asks for, query/access.rs:69-72 *)
Definition q_types (q : access) : list tid := q_read q ++ q_write q.

(** query/access.rs:69-72, 125-127, 170-172 is_archetype_include_types *)
Definition q_include (c : cfg) (q : access) (a : archetype) : bool :=
  is_include_ids c a (q_read q) && is_include_ids c a (q_write q).
(** query/access.rs:61-66, 139-141, 184-186 get_offsets *)
Definition q_offsets (c : cfg) (q : access) (a : archetype) (ly : layout) : pres (list N * list N) :=
  r ← get_offsets_unchecked c (q_read q) a ly;
  w ← get_offsets_unchecked c (q_write q) a ly;
  mret (r, w).
(** query/access.rs:87-95 get_ptrs: the read pointers followed by the write pointers *)
Definition q_ptrs (c : cfg) (q : access) (pi : nat) (offs : list N * list N) : list ptr :=
  get_ptrs c pi (q_read q) offs.1 ++ get_ptrs c pi (q_write q) offs.2.

(** query/component_page_iter_view.rs:6-28. [pv_ids] are the ids in the page's Vec (its contents cannot change while
    the iterator borrows the store); null pointers of empty() are the empty list. *)
Record pview := PView { pv_ptrs : list ptr; pv_ids : list N; pv_count : nat }.
Definition pview_new (c : cfg) (q : access) (pi : nat) (p : page) (offs : list N * list N) : pview :=
  PView (q_ptrs c q pi offs) (pg_ids p) (page_count p).
Definition pview_empty : pview := PView [] [] 0.

(** query/component_page_iter.rs:5-28 *)
Record piter := PIter { pi_view : pview; pi_next : nat }.
Definition piter_new (v : pview) : piter := PIter v 0.
Definition piter_empty : piter := piter_new pview_empty.
(** query/component_page_iter.rs:38-50 next *)
Definition piter_next (it : piter) : pres (option (list cref) * piter) :=
  if Nat.leb (pv_count (pi_view it)) (pi_next it) then POk (None, it)
  else
    rs ← ptrs_to_refs (add_to_ptrs (pv_ptrs (pi_view it)) (pi_next it));
    mret (Some rs, PIter (pi_view it) (S (pi_next it))).
(** query/component_page_iter.rs:30-32 current_entity_id *)
Definition piter_current_id (it : piter) : pres N :=
  match pi_next it with
  | O => PUB OutOfBounds
  | S k => match pv_ids (pi_view it) !! k with Some id => POk id | None => PUB OutOfBounds end
  end.

(** ** Component queries: query/component.rs *)

(** query/component.rs:21-28 *)
Record qiter := QIter { qi_views : list pview; qi_cur : piter; qi_idx : nat; qi_count : nat }.

(** query/component.rs:86-99: pages of one archetype *)
Fixpoint cq_pages (c : cfg) (q : access) (pages : list page) (offs : list N * list N) (ps : list nat)
    : pres (list pview * nat) :=
  match ps with
  | [] => POk ([], 0%nat)
  | pi :: r =>
    p ← vidx pages pi;
    rest ← cq_pages c q pages offs r;
    mret (if Nat.eqb (page_count p) 0 then rest
          else (pview_new c q pi p offs :: rest.1, (page_count p + rest.2)%nat))
  end.
(** query/component.rs:72-100: all archetypes *)
Fixpoint cq_archs (c : cfg) (q : access) (s : ac) (ais : list nat) : pres (list pview * nat) :=
  match ais with
  | [] => POk ([], 0%nat)
  | ai :: r =>
    al ← arch_with_layout_unchecked s ai;
    if negb (q_include c q al.1) then cq_archs c q s r
    else
      offs ← q_offsets c q al.1 al.2;
      ps ← vidx (ac_pages_of s) ai;
      x ← cq_pages c q (ac_pages s) offs ps;
      y ← cq_archs c q s r;
      mret (x.1 ++ y.1, (x.2 + y.2)%nat)
  end.
(** query/component.rs:62-117 component_query_iter *)
Definition component_query (c : cfg) (q : access) (s : store) : pres qiter :=
  x ← cq_archs c q (st_ac s) (seq 0 (length (ac_archs (st_ac s))));
  let it := match x.1 with v :: _ => piter_new v | [] => piter_empty end in
  mret (QIter x.1 it 0 x.2).

(** query/component.rs:123-142 next *)
Definition qiter_next (it : qiter) : pres (option (list cref) * qiter) :=
  r ← piter_next (qi_cur it);
  match r.1 with
  | Some v => mret (Some v, QIter (qi_views it) r.2 (qi_idx it) (qi_count it))
  | None =>
    let k := S (qi_idx it) in
    match qi_views it !! k with
    | Some v =>
      r ← piter_next (piter_new v);
      mret (r.1, QIter (qi_views it) r.2 k (qi_count it))
    | None => mret (None, QIter (qi_views it) piter_empty k (qi_count it))
    end
  end.
(** query/component.rs:145-149 len *)
Definition qiter_len (it : qiter) : nat := qi_count it.

(** query/component.rs:162-173 WithEntitiesIter::next; [vers] is entities_versions *)
Definition qiter_next_with (vers : arr N) (it : qiter) : pres (option (entity * list cref) * qiter) :=
  r ← qiter_next it;
  match r.1 with
  | None => mret (None, r.2)
  | Some refs =>
    id ← piter_current_id (qi_cur r.2);
    v ← aget vers id;
    mret (Some (Entity id v, refs), r.2)
  end.

(** query/component.rs:175-185 filter_tag: fetches the bit vector of the tag type *)
Definition filter_tag (c : cfg) (s : store) (t : tid) : pres bitvec := has_tag_bitvec c (st_tags s) t.
(** query/component.rs:187-199 FilterTagIter::next. It calls itself for every item without the tag; [depth] is the
    available call depth, and the result is None when it is exhausted. *)
Fixpoint filter_next (depth : nat) (vers : arr N) (bv : bitvec) (it : qiter)
    : option (pres (option (entity * list cref) * qiter)) :=
  match depth with
  | O => None
  | S depth =>
    match qiter_next_with vers it with
    | POk (None, it') => Some (POk (None, it'))
    | POk (Some x, it') =>
      match bv_get bv (e_id x.1) with
      | POk true => Some (POk (Some x, it'))
      | POk false => filter_next depth vers bv it'
      | PPanic => Some PPanic
      | PUB w => Some (PUB w)
      end
    | PPanic => Some PPanic
    | PUB w => Some (PUB w)
    end
  end.

(** ** Entity queries: query/entity_component.rs *)

(** query/entity_component.rs:21-30 *)
Record eiter := EIter {
  ei_index : arr nat;              (* entity_to_index_in_page_ptr *)
  ei_entities : list entity;
  ei_ranges : list (nat * nat);    (* start, end *)
  ei_views : list pview;
  ei_cur : nat;                    (* current_entity_index *)
  ei_range : nat;                  (* next_range_index *)
  ei_off : nat;                    (* next_offset_from_range *)
}.

(** query/entity_component.rs:124-128 is_valid_entity_for_query *)
Definition valid_for_query (c : cfg) (q : access) (s : store) (e : entity) : pres bool :=
  o ← get_entity_archetype c s e;
  mret (match o with Some a => q_include c q a | None => false end).

(** query/entity_component.rs:91-102: how many of the following entities extend the range *)
Fixpoint eq_extend (c : cfg) (s : store) (page_index : nat) (rest : list entity) : pres nat :=
  match rest with
  | [] => POk 0%nat
  | e :: r =>
    p ← get_page_index s (e_id e);
    b ← is_alive c s e;
    if negb b || negb (Nat.eqb page_index p) then mret 0%nat
    else n ← eq_extend c s page_index r; mret (S n)
  end.
(** query/entity_component.rs:67-110. [fuel] bounds the number of outer iterations; the number of entities is enough. *)
Fixpoint eq_ranges (c : cfg) (q : access) (s : store) (entities : list entity) (fuel start : nat)
    : pres (list ((nat * nat) * pview)) :=
  match fuel with
  | O => POk []
  | S fuel =>
    match entities !! start with
    | None => POk []
    | Some e =>
      ok ← valid_for_query c q s e;
      if negb ok then eq_ranges c q s entities fuel (S start)
      else
        pi ← get_page_index s (e_id e);
        ai ← arch_index_by_page (st_ac s) pi;
        al ← arch_with_layout_unchecked (st_ac s) ai;
        p ← vget_unchecked (ac_pages (st_ac s)) pi;
        offs ← q_offsets c q al.1 al.2;
        n ← eq_extend c s pi (drop (S start) entities);
        let e_end := (S start + n)%nat in
        r ← eq_ranges c q s entities fuel e_end;
        mret (((start, e_end), pview_new c q pi p offs) :: r)
    end
  end.
(** query/entity_component.rs:59-121 entity_component_query_iter *)
Definition entity_query (c : cfg) (q : access) (s : store) (entities : list entity) : pres eiter :=
  r ← eq_ranges c q s entities (length entities) 0;
  mret (EIter (st_idx s) entities r.*1 r.*2 0 0 0).

(** query/entity_component.rs:134-161 next *)
Definition eiter_next (it : eiter) : pres (option (list cref) * eiter) :=
  match ei_ranges it !! ei_range it with
  | None => POk (None, it)
  | Some (start, stop) =>
    let cur := (start + ei_off it)%nat in
    e ← vget_unchecked (ei_entities it) cur;
    v ← vget_unchecked (ei_views it) (ei_range it);
    i ← aget (ei_index it) (e_id e);
    let '(range', off') := if Nat.leb (pred stop) cur then (S (ei_range it), 0%nat)
                           else (ei_range it, S (ei_off it)) in
    rs ← ptrs_to_refs (add_to_ptrs (pv_ptrs v) i);
    mret (Some rs, EIter (ei_index it) (ei_entities it) (ei_ranges it) (ei_views it) cur range' off')
  end.
(** query/entity_component.rs:170-183 WithEntitiesIter::next *)
Definition eiter_next_with (it : eiter) : pres (option (entity * list cref) * eiter) :=
  r ← eiter_next it;
  match r.1 with
  | None => mret (None, r.2)
  | Some refs => e ← vget_unchecked (ei_entities r.2) (ei_cur r.2); mret (Some (e, refs), r.2)
  end.

(** ** Ordered queries: query/ordered_component.rs *)

(** query/ordered_component.rs:18-29; indices in pages and counts are not truncated to u32 *)
Record oiter := OIter {
  oi_ranges : list (nat * nat);
  oi_views : list pview;
  oi_range : nat;                  (* next_range_index *)
  oi_cur : nat;                    (* current_index_in_page *)
  oi_off : nat;                    (* next_offset_from_range *)
  oi_len : nat;
}.

(** query/ordered_component.rs:122-139: the inner loop; returns (range_end, next_entity). None when the fuel is exhausted:
    the number of iterations of this loop is not bounded by the code. *)
Fixpoint oq_extend (fuel : nat) (s : store) (next_map : arr N) (page_index range_end : nat) (next : N)
    : option (pres (nat * N)) :=
  match fuel with
  | O => None
  | S fuel =>
    if next =? NULL_ID then Some (POk (range_end, next))
    else
      match get_eia s next with
      | PPanic => Some PPanic
      | PUB w => Some (PUB w)
      | POk l =>
        if negb (Nat.eqb (ea_page l) page_index) || negb (Nat.eqb (ea_idx l) range_end)
        then Some (POk (range_end, next))
        else match aget next_map next with
             | POk n => oq_extend fuel s next_map page_index (S range_end) n
             | PPanic => Some PPanic
             | PUB w => Some (PUB w)
             end
      end
  end.

(** query/ordered_component.rs:91-117: page, offsets and index of one member; None in the result when its archetype
    lacks the queried types. *)
Definition oq_member (c : cfg) (q : access) (s : store) (curr : N) : pres (option (eia * pview)) :=
  l ← get_eia s curr;
  p ← vget_unchecked (ac_pages (st_ac s)) (ea_page l);
  ai ← arch_index_by_page (st_ac s) (ea_page l);
  al ← arch_with_layout_unchecked (st_ac s) ai;
  if negb (q_include c q al.1) then mret None
  else offs ← q_offsets c q al.1 al.2; mret (Some (l, pview_new c q (ea_page l) p offs)).

(** query/ordered_component.rs:90-149: the outer loop; None when the fuel is exhausted. *)
Fixpoint oq_ranges (fuel : nat) (c : cfg) (q : access) (s : store) (next_map : arr N) (curr : N)
    : option (pres (list ((nat * nat) * pview))) :=
  match fuel with
  | O => None
  | S fuel =>
    if curr =? NULL_ID then Some (POk [])
    else
      match oq_member c q s curr with
      | PPanic => Some PPanic
      | PUB w => Some (PUB w)
      | POk None =>
        match aget next_map curr with
        | POk n => oq_ranges fuel c q s next_map n
        | PPanic => Some PPanic
        | PUB w => Some (PUB w)
        end
      | POk (Some (l, v)) =>
        match aget next_map curr with
        | PPanic => Some PPanic
        | PUB w => Some (PUB w)
        | POk n =>
          x ← oq_extend fuel s next_map (ea_page l) (S (ea_idx l)) n;
          match x with
          | PPanic => Some PPanic
          | PUB w => Some (PUB w)
          | POk (stop, n') =>
            y ← oq_ranges fuel c q s next_map n';
            match y with
            | POk r => Some (POk (((ea_idx l, stop), v) :: r))
            | PPanic => Some PPanic
            | PUB w => Some (PUB w)
            end
          end
        end
      end
  end.
(** query/ordered_component.rs:66-169 ordered_query_iter and iter_from_query *)
Definition ordered_query (fuel : nat) (c : cfg) (q : access) (s : store) (g : tid) : option (pres oiter) :=
  match get_group_index c (st_orders s) g with
  | None => Some (POk (OIter [] [] 0 0 0 0))
  | Some gi =>
    match vget_unchecked (og_fwd (st_orders s)) gi, vget_unchecked (og_head (st_orders s)) gi with
    | POk next_map, POk head =>
      r ← oq_ranges fuel c q s next_map head;
      match r with
      | POk rs => Some (POk (OIter rs.*1 rs.*2 0 0 0 (sum_list ((λ x, (x.1.2 - x.1.1)%nat) <$> rs))))
      | PPanic => Some PPanic
      | PUB w => Some (PUB w)
      end
    | _, _ => Some (PUB UnwrapNone)
    end
  end.

(** query/ordered_component.rs:175-195 next *)
Definition oiter_next (it : oiter) : pres (option (list cref) * oiter) :=
  match oi_ranges it !! oi_range it with
  | None => POk (None, it)
  | Some (start, stop) =>
    let cur := (start + oi_off it)%nat in
    let '(range', off') := if Nat.leb (pred stop) cur then (S (oi_range it), 0%nat)
                           else (oi_range it, S (oi_off it)) in
    v ← vget_unchecked (oi_views it) (oi_range it);
    rs ← ptrs_to_refs (add_to_ptrs (pv_ptrs v) cur);
    mret (Some rs, OIter (oi_ranges it) (oi_views it) range' cur off' (oi_len it))
  end.
(** query/ordered_component.rs:231-235 len *)
Definition oiter_len (it : oiter) : nat := oi_len it.
(** query/ordered_component.rs:207-229 WithEntitiesIter::next; saturating_sub(1) is [pred] *)
Definition oiter_next_with (vers : arr N) (it : oiter) : pres (option (entity * list cref) * oiter) :=
  r ← oiter_next it;
  match r.1 with
  | None => mret (None, r.2)
  | Some refs =>
    v ← vget_unchecked (oi_views r.2) (pred (oi_range r.2));
    id ← (match pv_ids v !! oi_cur r.2 with Some id => POk id | None => PUB OutOfBounds end);
    ver ← aget vers id;
    mret (Some (Entity id ver, refs), r.2)
  end.

(** ** Using a write query: [for (e, (r, w)) in store.component_query_iter(q).with_entities() { *w = f(e, *r) }].
    This is client code, written here to state what write queries do. [k] is the number of next() calls made. *)
Fixpoint write_loop (k : nat) (q : access) (vers : arr N) (f : entity → list (list cell) → list (list N))
    (pages : list page) (it : qiter) : pres (list page) :=
  match k with
  | O => POk pages
  | S k =>
    r ← qiter_next_with vers it;
    match r.1 with
    | None => mret pages
    | Some (e, refs) =>
      let n := length (q_read q) in
      let vals := f e (read_ref pages <$> take n refs) in
      write_loop k q vers f (assign_to_refs pages (drop n refs) vals) r.2
    end
  end.
(** The loop, on the iterator of query/component.rs:62-117. *)
Definition query_write (c : cfg) (q : access) (f : entity → list (list cell) → list (list N)) : M store unit :=
  s ← getS;
  it ← lift (component_query c q s);
  pages ← lift (write_loop (S (qiter_len it)) q (ec_ver (st_ec s)) f (ac_pages (st_ac s)) it);
  putS (st_set_ac (ac_set_pages pages (st_ac s)) s).
