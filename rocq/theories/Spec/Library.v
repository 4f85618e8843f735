(** Library.v — two builds of one program with different standard libraries. *)
From Verif.Spec Require Export Env Usage.
From Verif.Model Require Export Run.
Local Open Scope N_scope.

(** The same build mode and the same component types. Binary searches and the growth of vectors may differ. *)
Definition same_program (c1 c2 : cfg) : Prop := c_mode c1 = c_mode c2 ∧ c_ty c1 = c_ty c2.

(** The same rows. The room reserved for ids may differ. *)
Definition page_alike (p q : page) : Prop := pg_ids p = pg_ids q ∧ pg_mem p = pg_mem q.
(** The same stores, but for the room reserved for the ids of pages. *)
Record alike (s1 s2 : store) : Prop := Alike {
  al_ec : st_ec s1 = st_ec s2;
  al_archs : ac_archs (st_ac s1) = ac_archs (st_ac s2);
  al_layouts : ac_layouts (st_ac s1) = ac_layouts (st_ac s2);
  al_pages_of : ac_pages_of (st_ac s1) = ac_pages_of (st_ac s2);
  al_pages : Forall2 page_alike (ac_pages (st_ac s1)) (ac_pages (st_ac s2));
  al_p2a : ac_p2a (st_ac s1) = ac_p2a (st_ac s2);
  al_free_archs : ac_free_archs (st_ac s1) = ac_free_archs (st_ac s2);
  al_free_pages : ac_free_pages (st_ac s1) = ac_free_pages (st_ac s2);
  al_tags : st_tags s1 = st_tags s2;
  al_orders : st_orders s1 = st_orders s2;
  al_page : st_page s1 = st_page s2;
  al_idx : st_idx s1 = st_idx s2;
  al_has : st_has s1 = st_has s2;
}.

(** Everything the interface reports of the two stores is the same, the iterators of queries included: the references they
    hand out point to the same places. [fuel] bounds the loops of ordered queries as in the model. *)
Record same_answers (c1 : cfg) (s1 : store) (c2 : cfg) (s2 : store) : Prop := SameAnswers {
  sa_alive : ∀ e, is_alive c1 s1 e = is_alive c2 s2 e;
  sa_archetype : ∀ e, get_entity_archetype c1 s1 e = get_entity_archetype c2 s2 e;
  sa_refs : ∀ e T, get_components_refs c1 s1 e T = get_components_refs c2 s2 e T;
  sa_read : ∀ e T, read_components c1 s1 e T = read_components c2 s2 e T;
  sa_has_tag : ∀ t e, has_tag c1 s1 t e = has_tag c2 s2 t e;
  sa_filter : ∀ t, filter_tag c1 s1 t = filter_tag c2 s2 t;
  sa_next : ∀ g e, next_ordered c1 s1 g e = next_ordered c2 s2 g e;
  sa_previous : ∀ g e, previous_ordered c1 s1 g e = previous_ordered c2 s2 g e;
  sa_first : ∀ g, first_ordered c1 s1 g = first_ordered c2 s2 g;
  sa_last : ∀ g, last_ordered c1 s1 g = last_ordered c2 s2 g;
  sa_query : ∀ q, component_query c1 q s1 = component_query c2 q s2;
  sa_entity_query : ∀ q es, entity_query c1 q s1 es = entity_query c2 q s2 es;
  sa_ordered_query : ∀ fuel q g, ordered_query fuel c1 q s1 g = ordered_query fuel c2 q s2 g;
}.

(** The claim that programs read the same components whatever the library, for histories in which the containers meet [H]
    and libraries related by [P]. *)
Definition library_free (P : cfg → cfg → Prop) (H : cfg → ac → option (gset tid) → Prop) : Prop :=
  ∀ c1 c2 cap tr1 s1 tr2 s2 e T, cfg_ok c1 → cfg_ok c2 → same_program c1 c2 → P c1 c2 → c_mode c1 = Debug →
    grun (H c1) c1 cap tr1 s1 → grun (H c2) c2 cap tr2 s2 → tr1.*1 = tr2.*1 → T ≠ [] →
    read_components c1 s1 e T = read_components c2 s2 e T.
