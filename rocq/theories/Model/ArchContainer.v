(** ArchContainer.v — src/archetypes_container.rs *)
From Verif.Model Require Export Base Archetype Page.
Local Open Scope N_scope.

(** archetypes_container.rs:10-25. Page and archetype indices are [nat]; casts of page indices to u32 are not truncated. *)
Record ac := AC {
  ac_archs : list archetype;
  ac_layouts : list layout;
  ac_pages_of : list (list nat);   (* archetype_to_pages *)
  ac_pages : list page;
  ac_p2a : list nat;               (* page_to_archetype *)
  ac_free_archs : list nat;        (* free_archetypes: a stack *)
  ac_free_pages : list nat;        (* free_pages: a stack *)
}.
(** Assignments to the fields. *)
Definition ac_set_archs v s := AC v (ac_layouts s) (ac_pages_of s) (ac_pages s) (ac_p2a s) (ac_free_archs s) (ac_free_pages s).
Definition ac_set_layouts v s := AC (ac_archs s) v (ac_pages_of s) (ac_pages s) (ac_p2a s) (ac_free_archs s) (ac_free_pages s).
Definition ac_set_pages_of v s := AC (ac_archs s) (ac_layouts s) v (ac_pages s) (ac_p2a s) (ac_free_archs s) (ac_free_pages s).
Definition ac_set_pages v s := AC (ac_archs s) (ac_layouts s) (ac_pages_of s) v (ac_p2a s) (ac_free_archs s) (ac_free_pages s).
Definition ac_set_p2a v s := AC (ac_archs s) (ac_layouts s) (ac_pages_of s) (ac_pages s) v (ac_free_archs s) (ac_free_pages s).
Definition ac_set_free_archs v s := AC (ac_archs s) (ac_layouts s) (ac_pages_of s) (ac_pages s) (ac_p2a s) v (ac_free_pages s).
Definition ac_set_free_pages v s := AC (ac_archs s) (ac_layouts s) (ac_pages_of s) (ac_pages s) (ac_p2a s) (ac_free_archs s) v.

(** entity_in_archetype.rs:1-5 *)
Record eia := Eia { ea_page : nat; ea_idx : nat }.

(** archetypes_container.rs:31-59 new: five empty pages, all free *)
Definition ac_new : ac := AC [] [] [] (replicate 5 page_new) (replicate 5 0%nat) [] (seq 0 5).

(** archetypes_container.rs:186-205 free_page. The early return for archetype 0 keeps its empty pages in place. *)
Fixpoint position_nat (x : nat) (l : list nat) : option nat :=
  match l with
  | [] => None
  | y :: r => if Nat.eqb y x then Some 0%nat else S <$> position_nat x r
  end.
Definition free_page (page_index : nat) : M ac unit :=
  s ← getS;
  ai ← lift (vidx (ac_p2a s) page_index);
  if Nat.eqb ai 0 then mret tt
  else
    ps ← lift (vidx (ac_pages_of s) ai);
    _ ← (match position_nat page_index ps with
         | Some i =>
           _ ← modS (ac_set_pages_of (<[ai := delete i ps]> (ac_pages_of s)));
           if Nat.eqb (length (delete i ps)) 0
           then modS (ac_set_free_archs (ac_free_archs s ++ [ai]))
           else mret tt
         | None => mret tt
         end);
    modS (ac_set_free_pages (ac_free_pages s ++ [page_index])).

(** archetypes_container.rs:70-93 swap_remove_entity. The page is replaced after its method returns: it panics only unchanged. *)
Definition ac_swap_remove (e : eia) : M ac (option N) :=
  s ← getS;
  ai ← lift (vidx (ac_p2a s) (ea_page e));
  p ← lift (vidx (ac_pages s) (ea_page e));
  let page_will_empty := Nat.eqb (page_count p) 1 in
  a ← lift (vidx (ac_archs s) ai);
  ly ← lift (vidx (ac_layouts s) ai);
  r ← lift (page_swap_remove p (ea_idx e) a ly);
  _ ← modS (ac_set_pages (<[ea_page e := r.1]> (ac_pages s)));
  _ ← (if page_will_empty then free_page (ea_page e) else mret tt);
  mret r.2.

(** archetypes_container.rs:208-217: first archetype with the same components *)
Fixpoint find_arch (archs : list archetype) (i : nat) (a : archetype) : option nat :=
  match archs with
  | [] => None
  | x :: r => if is_same_as x a then Some i else find_arch r (S i) a
  end.
(** archetypes_container.rs:207-236 reserve_archetype *)
Definition reserve_archetype (c : cfg) (a : archetype) : M ac nat :=
  s ← getS;
  match find_arch (ac_archs s) 0 a with
  | Some i =>
    match c_bs c (N.of_nat <$> ac_free_archs s) (N.of_nat i) with
    | BFound j =>
      fr ← lift (vremove (ac_free_archs s) j);
      _ ← modS (ac_set_free_archs fr);
      mret i
    | BMissing _ => mret i
    end
  | None =>
    ly ← lift (layout_new (c_mode c) a);
    match last (ac_free_archs s) with
    | Some free_idx =>
      _ ← modS (ac_set_free_archs (vpop (ac_free_archs s)));
      archs ← lift (vset (ac_archs s) free_idx a);
      _ ← modS (ac_set_archs archs);
      lys ← lift (vset (ac_layouts s) free_idx ly);
      _ ← modS (ac_set_layouts lys);
      mret free_idx
    | None =>
      _ ← modS (ac_set_archs (ac_archs s ++ [a]));
      _ ← modS (ac_set_layouts (ac_layouts s ++ [ly]));
      _ ← modS (ac_set_pages_of (ac_pages_of s ++ [[]]));
      mret (length (ac_archs s))
    end
  end.

(** archetypes_container.rs:247-259: first page with room, given the page indices in reverse order *)
Fixpoint find_room (pages : list page) (rev_ps : list nat) : pres (option nat) :=
  match rev_ps with
  | [] => POk None
  | pi :: r =>
    p ← vidx pages pi;
    if has_free_space p then mret (Some pi) else find_room pages r
  end.
(** archetypes_container.rs:252, 279: add_entity_id on the page [pi] of the container *)
Definition ac_page_add (c : cfg) (pi : nat) (id : N) : M ac eia :=
  s ← getS;
  p ← lift (vidx (ac_pages s) pi);
  r ← lift (page_add c p id);
  _ ← modS (ac_set_pages (<[pi := r.1]> (ac_pages s)));
  mret (Eia pi r.2).
(** archetypes_container.rs:238-286 reserve_page *)
Definition reserve_page (c : cfg) (id : N) (ai : nat) : M ac eia :=
  s ← getS;
  ps ← lift (vidx (ac_pages_of s) ai);
  room ← lift (find_room (ac_pages s) (reverse ps));
  match room with
  | Some pi => ac_page_add c pi id
  | None =>
    pi ← (match last (ac_free_pages s) with
          | Some pi =>
            _ ← modS (ac_set_free_pages (vpop (ac_free_pages s)));
            mret pi
          | None =>
            let pi := length (ac_pages s) in
            _ ← modS (ac_set_pages (ac_pages s ++ [page_new]));
            p2a ← lift (vinsert (ac_p2a s) pi ai);
            _ ← modS (ac_set_p2a p2a);
            mret pi
          end);
    s ← getS;
    ly ← lift (vidx (ac_layouts s) ai);
    p ← lift (vidx (ac_pages s) pi);
    _ ← modS (ac_set_pages (<[pi := page_set_layout c p ly]> (ac_pages s)));
    ps ← lift (vidx (ac_pages_of s) ai);
    _ ← modS (ac_set_pages_of (<[ai := ps ++ [pi]]> (ac_pages_of s)));
    p2a ← lift (vset (ac_p2a s) pi ai);
    _ ← modS (ac_set_p2a p2a);
    ac_page_add c pi id
  end.

(** archetypes_container.rs:61-68 add_entity *)
Definition ac_add_entity (c : cfg) (id : N) (a : archetype) : M ac eia :=
  ai ← reserve_archetype c a;
  reserve_page c id ai.

(** archetypes_container.rs:95-126 move_entity_to_other_archetype *)
Definition ac_move_entity (c : cfg) (id : N) (prev : eia) (prev_ai : nat) (a : archetype) : M ac eia :=
  new_ai ← reserve_archetype c a;
  e ← reserve_page c id new_ai;
  s ← getS;
  _ ← lift (vidx (ac_pages s) (ea_page prev));
  _ ← lift (vidx (ac_pages s) (ea_page e));
  prev_a ← lift (vidx (ac_archs s) prev_ai);
  prev_ly ← lift (vidx (ac_layouts s) prev_ai);
  new_ly ← lift (vidx (ac_layouts s) new_ai);
  pages ← lift (copy_component_data (ac_pages s) (ea_page prev) (ea_page e) (ea_idx prev) (ea_idx e)
                                    prev_a a prev_ly new_ly);
  _ ← modS (ac_set_pages pages);
  mret e.

(** archetypes_container.rs:176-178 get_archetype_index_by_page, 181-184 get_archetype_by_page *)
Definition arch_index_by_page (s : ac) (pi : nat) : pres nat := vidx (ac_p2a s) pi.
Definition arch_by_page (s : ac) (pi : nat) : pres archetype :=
  ai ← vidx (ac_p2a s) pi; vidx (ac_archs s) ai.

(** archetypes_container.rs:147-155 get_archetype_with_layout_unchecked *)
Definition arch_with_layout_unchecked (s : ac) (ai : nat) : pres (archetype * layout) :=
  a ← vget_unchecked (ac_archs s) ai; ly ← vget_unchecked (ac_layouts s) ai; mret (a, ly).

(** archetypes_container.rs:129-139 get_page_view_unchecked; archetype_data_page_view.rs:4-8. The page is named by its index. *)
Record view := View { v_arch : archetype; v_layout : layout; v_page : nat }.
Definition page_view_unchecked (s : ac) (pi : nat) : pres view :=
  ai ← vget_unchecked (ac_p2a s) pi;
  al ← arch_with_layout_unchecked s ai;
  _ ← vget_unchecked (ac_pages s) pi;
  mret (View al.1 al.2 pi).
