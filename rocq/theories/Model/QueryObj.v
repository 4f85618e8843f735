(** QueryObj.v — query objects, which are created once and used for any number of queries: their Vecs are cleared, then
    filled by push, then lent to the iterator. Query.v has the same functions without the Vecs. *)
From Verif.Model Require Export Query.
Local Open Scope N_scope.

(** query/component.rs:17-19; the object holds the page views of the previous use *)
Definition cq_obj := list pview.
(** query/component.rs:53-59 new *)
Definition cq_obj_new : cq_obj := [].
(** query/component.rs:86-99: the loop over the pages of one archetype; state: page_views, queried_entities_count *)
Fixpoint push_pages (c : cfg) (q : access) (pages : list page) (offs : list N * list N) (ps : list nat) (vec : cq_obj) (count : nat)
    : pres (cq_obj * nat) :=
  match ps with
  | [] => POk (vec, count)
  | pi :: r =>
    p ← vidx pages pi;
    if Nat.eqb (page_count p) 0 then push_pages c q pages offs r vec count
    else push_pages c q pages offs r (vec ++ [pview_new c q pi p offs]) (count + page_count p)%nat
  end.
(** query/component.rs:72-100: the loop over the archetypes *)
Fixpoint push_archs (c : cfg) (q : access) (s : ac) (ais : list nat) (vec : cq_obj) (count : nat) : pres (cq_obj * nat) :=
  match ais with
  | [] => POk (vec, count)
  | ai :: r =>
    al ← arch_with_layout_unchecked s ai;
    if negb (q_include c q al.1) then push_archs c q s r vec count
    else
      offs ← q_offsets c q al.1 al.2;
      ps ← vidx (ac_pages_of s) ai;
      x ← push_pages c q (ac_pages s) offs ps vec count;
      push_archs c q s r x.1 x.2
  end.
(** query/component.rs:62-117 component_query_iter: the iterator, and the object, which it borrows *)
Definition component_query_iter (c : cfg) (q : access) (s : store) (vec : cq_obj) : pres (qiter * cq_obj) :=
  let vec := [] in                                                              (* 70: clear *)
  x ← push_archs c q (st_ac s) (seq 0 (length (ac_archs (st_ac s)))) vec 0;
  it ← (if Nat.ltb 0 (length x.1) then v ← vidx x.1 0; mret (piter_new v) else mret piter_empty);
  mret (QIter x.1 it 0 x.2, x.1).

(** query/entity_component.rs:16-19, query/ordered_component.rs:12-16: the ranges and page views of the previous use *)
Record rq_obj := RqObj { rq_ranges : list (nat * nat); rq_views : list pview }.
(** query/entity_component.rs:36-43, query/ordered_component.rs:55-63 new *)
Definition rq_obj_new : rq_obj := RqObj [] [].
Definition rq_push (o : rq_obj) (x : nat * nat) (v : pview) : rq_obj := RqObj (rq_ranges o ++ [x]) (rq_views o ++ [v]).

(** query/entity_component.rs:67-110 *)
Fixpoint push_ranges (c : cfg) (q : access) (s : store) (entities : list entity) (fuel start : nat) (o : rq_obj) : pres rq_obj :=
  match fuel with
  | O => POk o
  | S fuel =>
    match entities !! start with
    | None => POk o
    | Some e =>
      ok ← valid_for_query c q s e;
      if negb ok then push_ranges c q s entities fuel (S start) o
      else
        pi ← get_page_index s (e_id e);
        ai ← arch_index_by_page (st_ac s) pi;
        al ← arch_with_layout_unchecked (st_ac s) ai;
        p ← vget_unchecked (ac_pages (st_ac s)) pi;
        offs ← q_offsets c q al.1 al.2;
        n ← eq_extend c s pi (drop (S start) entities);
        let e_end := (S start + n)%nat in
        push_ranges c q s entities fuel e_end (rq_push o (start, e_end) (pview_new c q pi p offs))
    end
  end.
(** query/entity_component.rs:59-121 entity_component_query_iter *)
Definition entity_component_query_iter (c : cfg) (q : access) (s : store) (entities : list entity) (o : rq_obj) : pres (eiter * rq_obj) :=
  let o := RqObj [] [] in                                                       (* 64-65: clear *)
  o ← push_ranges c q s entities (length entities) 0 o;
  mret (EIter (st_idx s) entities (rq_ranges o) (rq_views o) 0 0 0, o).

(** query/ordered_component.rs:90-149; state: the object, entity_count *)
Fixpoint push_ordered (fuel : nat) (c : cfg) (q : access) (s : store) (next_map : arr N) (curr : N) (o : rq_obj) (count : nat)
    : option (pres (rq_obj * nat)) :=
  match fuel with
  | O => None
  | S fuel =>
    if curr =? NULL_ID then Some (POk (o, count))
    else
      match oq_member c q s curr with
      | PPanic => Some PPanic
      | PUB w => Some (PUB w)
      | POk None =>
        match aget next_map curr with
        | POk n => push_ordered fuel c q s next_map n o count
        | PPanic => Some PPanic
        | PUB w => Some (PUB w)
        end
      | POk (Some (l, v)) =>
        match aget next_map curr with
        | PPanic => Some PPanic
        | PUB w => Some (PUB w)
        | POk n =>
          x ← oq_extend fuel s next_map (ea_page l) (S (ea_idx l)) n;
          match x with
          | PPanic => Some PPanic
          | PUB w => Some (PUB w)
          | POk (stop, n') => push_ordered fuel c q s next_map n' (rq_push o (ea_idx l, stop) v) (count + (stop - ea_idx l))%nat
          end
        end
      end
  end.
(** query/ordered_component.rs:66-169 ordered_query_iter and iter_from_query *)
Definition ordered_query_iter (fuel : nat) (c : cfg) (q : access) (s : store) (g : tid) (o : rq_obj) : option (pres (oiter * rq_obj)) :=
  let o := RqObj [] [] in                                                       (* 70-71: clear *)
  match get_group_index c (st_orders s) g with
  | None => Some (POk (OIter (rq_ranges o) (rq_views o) 0 0 0 0, o))
  | Some gi =>
    match vget_unchecked (og_fwd (st_orders s)) gi, vget_unchecked (og_head (st_orders s)) gi with
    | POk next_map, POk head =>
      r ← push_ordered fuel c q s next_map head o 0;
      match r with
      | POk (o, n) => Some (POk (OIter (rq_ranges o) (rq_views o) 0 0 0 n, o))
      | PPanic => Some PPanic
      | PUB w => Some (PUB w)
      end
    | _, _ => Some (PUB UnwrapNone)
    end
  end.

(** query/component_page_iter.rs:53-57 len: the number of entities in the page *)
Definition piter_len (it : piter) : nat := pv_count (pi_view it).
