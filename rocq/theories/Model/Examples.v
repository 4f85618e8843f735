(** Examples.v — examples/query_bench.rs, examples/cache_test.rs. The component types of the programs are a tuple of any
    types, the random values are arguments, and so is the number of entities (the length of the list). Of the loops over
    queries, only which items they see is modelled, not what they compute from them. *)
From Verif.Model Require Export Store Query.
Local Open Scope N_scope.

(** examples/query_bench.rs:28-50. One element per iteration: the components and whether [i % 10 != 0]. *)
Fixpoint bench_fill (c : cfg) (tag : tid) (items : list (list (tid * list N) * bool)) : M store unit :=
  match items with
  | [] => mret tt
  | (vals, marked) :: r =>
    e ← create_entity c;
    _ ← add_components c e vals;
    _ ← (if (marked : bool) then _ ← add_order c tag e; add_tag c tag e else mret tt);
    bench_fill c tag r
  end.

(** examples/cache_test.rs:116-118. [build] is the last use of the builder. *)
Definition cache_archetype (c : cfg) (T : list tid) : pres archetype :=
  match bld_build (bld_include bld_new (ctype_of c <$> T)) with ROk _ a => POk a | RPanic _ => PPanic | RUB w => PUB w end.
(** examples/cache_test.rs:120-128 *)
Fixpoint cache_fill_with (c : cfg) (a : archetype) (data : list (list (tid * list N))) : M store unit :=
  match data with
  | [] => mret tt
  | vals :: r =>
    e ← create_entity_with_archetype c a;
    s ← getS;
    refs ← lift (get_components_refs c s e vals.*1);
    _ ← match refs with
        | Some rs => putS (st_set_ac (ac_set_pages (assign_to_refs (ac_pages (st_ac s)) rs vals.*2) (st_ac s)) s)
        | None => panic                                    (* unwrap *)
        end;
    cache_fill_with c a r
  end.
(** examples/cache_test.rs:115-129 populate_ecs *)
Definition cache_fill (c : cfg) (T : list tid) (data : list (list (tid * list N))) : M store unit :=
  a ← lift (cache_archetype c T);
  cache_fill_with c a data.
