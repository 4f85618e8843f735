(** Memory.v — how many pages a store keeps, and for what. A page is a block of 16384 bytes
    (archetype_data_page.rs:16-25). Only fields of the store and the history of calls are used. *)
From Verif.Spec Require Export Discipline.
Local Open Scope N_scope.

(** Pages are never given back before the store is dropped, so this is also the largest number of pages so far. *)
Definition page_total (s : store) : N := N.of_nat (length (ac_pages (st_ac s))).

(** The list the page is in: that of the free pages, or that of the archetype with the index. *)
Definition in_list (s : store) (p : nat) (i : option nat) : Prop :=
  match i with
  | None => p ∈ ac_free_pages (st_ac s)
  | Some i => ∃ ps, ac_pages_of (st_ac s) !! i = Some ps ∧ p ∈ ps
  end.
Definition vacant (s : store) (p : nat) : Prop := ∃ pg, ac_pages (st_ac s) !! p = Some pg ∧ pg_ids pg = [].

(** No page is lost and no page is used twice; pages without entities are on the free list, except those of the first
    archetype. *)
Record accounted (s : store) : Prop := Accounted {
  acc_one : ∀ p, (p < length (ac_pages (st_ac s)))%nat → ∃ i, in_list s p i ∧ ∀ j, in_list s p j → j = i;
  acc_known : ∀ p i, in_list s p i → (p < length (ac_pages (st_ac s)))%nat;
  acc_free : NoDup (ac_free_pages (st_ac s));
  acc_arch : ∀ i ps, ac_pages_of (st_ac s) !! i = Some ps → NoDup ps;
  acc_vacant : ∀ p i, in_list s p i → vacant s p → i = None ∨ i = Some 0%nat;
  acc_free_vacant : ∀ p, in_list s p None → vacant s p;
}.
