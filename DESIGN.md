# Formal model of division_ecs in Rocq (Coq 8.16.1)

## Approach

The code is modelled function by function as executable Gallina (`theories/Model/*.v`), with every definition citing the
lines of `/repo` it models. `&mut self` methods are state-passing functions `M S A := S -> res S A`, where

* `ROk s a`  – returned normally,
* `RPanic s` – panicked, leaving the state `s` behind (needed for the panic-safety claims),
* `RUB why`  – reached undefined behaviour (out-of-bounds raw pointer access, read of an uninitialised cell,
  `unwrap_unchecked` on `None`, overlapping `copy_nonoverlapping`).

`&self` methods are functions `S -> pres A` with the same three outcomes.

What the Rust source leaves to its environment is a record `cfg`, constrained only by documented contracts
(`cfg_ok` in `Spec/Env.v`):

* `c_mode`: the build mode (`Debug`: debug_assert and overflow checks panic; `Release`: asserts skipped, arithmetic wraps),
* `c_ty`: the type environment (`TypeId -> size, align`),
* `c_bs`: `slice::binary_search` (correct on sorted input; nothing is promised otherwise),
* `c_grow`: `Vec`'s growth policy (`reserve` gives at least what was asked).

The two binary search algorithms std has shipped and the real `RawVec` growth are also defined
(`Model/BinarySearch.v`) and shown to satisfy the contracts. Refutations are stated for concrete instances of them.

Component data is modelled at byte level: a page is a memory of 16384 cells (byte or uninitialised), values are byte
strings, moves are byte copies at the computed addresses. So overlap, type confusion and stale data are visible.

Specifications (`theories/Spec/*.v`) are functions and relations of the *trace* (the list of calls and their results):
the set of live handles, a map from entities to component maps, a set of tagged entities per tag, a list of entities per
order group, a map from handles to resources. They do not use the model's helper functions. Theorems
(`theories/Properties/*.v`) say that after every history the observers of the model return what the specification says.
Proofs live in `theories/Proofs/*.v`. The property files contain only theorems closed by `exact`, with
`Print Assumptions`, and examples computed on concrete histories.

## Files

`INDEX.md` lists every function of the crate with the definitions that model it.

| model | source |
|----|----|
| `Base` | outcomes, raw arrays (`mem_utils.rs`), u32/usize arithmetic, `cfg` |
| `BitVec` | `bitvec_utils.rs` |
| `Archetype` | `archetype.rs`, `archetype_builder.rs`, `component_type.rs`, `archetype_layout.rs` |
| `Entities` | `entities_container.rs`, `entity.rs` |
| `Tags`, `Orders` | `tag_container.rs`, `order_group_container.rs` |
| `Page`, `ArchContainer` | `archetype_data_page.rs`, `archetypes_container.rs` |
| `Tuple` | `component_tuple.rs`, `archetype_data_page_view.rs` |
| `Store` | `store.rs` and the `impl Store` blocks elsewhere |
| `Query`, `QueryObj` | `query/*.rs`, `macros.rs`; `QueryObj` has the reusable query objects |
| `Run` | histories of calls |
| `Resource` | `resource_store.rs` |
| `Heap` | the allocator calls of all of the above, including the `Drop` implementations |
| `Unwind` | the allocator calls made by calls that panic; histories with caught panics |
| `Derive` | `division_ecs_attributes/src/lib.rs` |
| `Examples` | `examples/query_bench.rs`, `examples/cache_test.rs` |

## Healthy states

Two defects of the code make the unconditional component claims false (C14, C15, with `_refuted` theorems):

1. `reserve_archetype` binary-searches `free_archetypes`, an unsorted stack. So a re-used archetype can stay on the free list
   and its slot be overwritten while it has entities.
2. A page's room is measured by `Vec::capacity`, which can exceed the number of rows its layout has.

The component theorems assume `healthy` states before each call (`hrun` in `Spec/Components.v`), which is a condition on the
archetype the call puts its entity in only: the binary search for it in the free list gives a correct answer, and its pages
with room according to their `Vec` have room according to their layout. Calls that put no entity anywhere are
always healthy. Two further assumptions are on arguments (`args_ok`: distinct types and values of the right size, which the
type checker ensures) and on layouts (`room`: the target archetype is accepted by `ArchetypeLayout`; the call panics otherwise).
C16 derives `healthy` from conditions on the history alone. `careful` (`Spec/Usage.v`): a call that puts an entity into an
abandoned set of types is made when no other set is abandoned, and a call that puts an entity into types of which a page is
full is made when the free pages there may have been all have exactly as much room as rows of these types. Two simpler
conditions imply it (`C16_usage_careful`): at no time are two sets of types abandoned, and either all archetypes have
the same page capacity K ≥ 4, or no archetype ever fills its page.

## Per property

| id | modelled / how proved |
|----|----|
| C01–C05 | entities and store; invariant on gaps, next_free_id, versions and bits; induction over histories |
| C06, C51 | release builds; refuted (C51 by induction on the number of recyclings: 2^32+1 rounds for every release configuration); `_partial` for guarded destruction and fewer than 2^32-1 handles |
| C07–C13 | the full store; refinement to a map from entities to component maps; induction over histories with healthy states |
| C14, C15 | refuted by concrete histories; `_partial`: the claim for healthy states, and for the two conditions of C16 |
| C16 | preservation of `healthy` under conditions on the history |
| C17, C18 | layout arithmetic with wrapping; C18 refuted in three ways. In release builds the arithmetic of a layout can wrap only for more than 2340 component types; C17 is stated with this bound |
| C19–C24 | archetypes as sorted lists against sets; C23 refuted for unsorted id lists |
| C25 | bit vectors: u32 words against arrays of booleans |
| C26, C27 | tags inside the store; C27 refuted through stale handles |
| C28–C31 | doubly linked lists against lists; C29 refuted for single-member groups, C30 refuted; for both, what happens instead |
| C32–C41 | queries as iterator state machines; the k-th `next` is the k-th element of the expected list |
| C42–C44 | ResourceStore against a map, for an arbitrary value type; destructor calls counted |
| C45 | a debug run that does not panic is a release run, by simulation through the monad |
| C46 | no `RUB` for calls with own handles, in debug builds and healthy states |
| C47 | the null handle: refuted; what is detected in debug builds |
| C48 | panicking calls: refuted for destroy and create; proved for the other calls; destroying a dead handle damages at most one entity |
| C49 | growth is invisible: corollary of the refinements |
| C50 | refuted; proved for create_entity and for assigned components |
| C52 | record of allocator calls; ownership of blocks as multisets; frame-style triples |
| C53, C54 | progress: the step lemmas of C46 with "no panic" as panic condition; the debug run determines the release run |
| C55 - C57 | references as byte ranges of pages; every reference comes from a row and a column, and those are disjoint (C17); witnesses by evaluation |
| C58 | a client loop as a relation on page memories; the items of the iterator are the references of get_components_refs, so each assignment is a step of the store |
| C59 | query objects with their vectors as accumulators; equal to the iterators of `Query` |
| C60 - C62 | transfer of C32 - C37, C55 - C58 to release builds: in disciplined states both builds observe the same |
| C63 | every occupied page has a live entity of its own; a page is added only when all pages of the archetype are full and none is free |
| C64 | pages of an archetype fill up in the order of its page list, which is searched from the end; archetypes are listed in the order of first use; the query goes through both lists in order |
| C65, C66 | the programs in examples/ as clients: each call is a step of a disciplined history whose only set of types is T, so C16, C64 and C38 apply |
| C67 | simulation of two runs with different libraries: sorted slices have one search result, and a healthy page has room exactly when its layout has; refuted without health |
| C68 | the blocks owned by the state a panic leaves behind, plus those the unwound locals free; the difference is the array of offsets of an archetype whose layout is refused |
| C69 | versions of an id only grow, also in calls that panic; a panicking creation may revive the last version |
| C70 | a call that panics leaves tags and order groups as they were, or makes an entity no one has the handle of |
| C71 | simulation: the store differs from that of a history without panics only in the archetype bits of entities no one has the handle of; a refused layout panics before the container changes; the release build panics in the same calls and leaves the same store |
| C72 | the macros as functions from parsed items to text; sizes of structs by the Rust layout rules; refuted for empty fields and for parameters |
| C73 | growths of a history as a relation (`growths`); each doubles the capacity and is caused by a population of that size; allocator calls from the heap model |
| C74 | histories with results `None` for panics (`prrun`); refuted by 2^32 reuses of an id; otherwise the calls that returned form a history |
| C75 | release histories; refuted by a double release and a stale assignment; careful ones are debug histories |
| C76 | a separate allocator told of creations and destroyed ids (`predicted`), related to the gaps, the next id and the versions |
| C77 | projections of histories (`calls`); each part of the store is a function of its projection, proved for pairs of runs |
| C78 | the calls on one entity (`story`) and the components they do not tell (`untold`); component values are a function of the story |
| C79 | the parts of a store a call changes (`touches`, `apart`); the swapped history is disciplined, returns, and gives each entity the same story and each group the same order |
| C80 | pairs of calls (`undoes`); the specification gives each entity, group and tag what it gave before the pair; the second call is disciplined |
| C81 | pairs of calls (`overrides`); the history without the first call is disciplined and returns; the specification gives the same |
| C82 | two histories, the same live entities, and what get_components_refs tells of each (`reads_alike`); the items as entities and values (`viewed`) |
| C83 | calls that do not concern the components of a query (`aside`); the specification of a loop commutes with theirs; a loop changes neither liveness nor which types are in use |
| C84 | a list of loops (`loops`), pairwise independence (`independent`), permutations of it |
| C85 | the equivalence on histories generated by exchanging neighbours (`rearranged`); the specifications of the two histories say the same |
| C86 | the preorder on histories generated by exchanging neighbours and leaving out calls (`simpler`); what the specification says of the history it says of the simpler one |
| C87 | the preorder generated by `simpler` and the replacement of calls by fewer (`merges`, `reduces`); proved like C86 |

`MANIFEST.json` lists the theorems of each property with what is missing.

## Choices and simplifications

* u32 and usize values are `N` with explicit wrapping where the code computes on them; indices into `Vec`s are `nat`.
  Casts of page indices and indices in pages to u32 are not truncated
  (no restriction while fewer than 2^31 entities are alive: C63_indices_fit). `will_grow_with_id`
  truncates the capacity to 32 bits as the code does.
* A tuple type is the list of its TypeIds, of any length ≥ 1 (the macro covers 1 to 12).
* Raw memory from `alloc` is an array of cells, uninitialised at first; `realloc_zeroing` and `alloc_zeroed` give zeros.
  What an out-of-range access would do is not modelled: it is `RUB` and the run ends.
* `fuel` arguments stand for call stack or loop bounds. Theorems say how much suffices.
* Of the programs in examples/, `Examples` has the calls; component types, values and number of entities are arguments, and
  of the loops over queries only what they see is modelled, not the arithmetic on it.
* A loop over a write query (`OWrite`) overwrites the written components with a function of the entity and of the values read.
  What a loop writes that reads what it writes is, on a given history, such a function of the entity; C58 has loops as relations.
* Most query theorems are about the iterators of `Query`; C59 connects them with the reusable query objects.
* In `Heap`, blocks get fresh names (the allocator does not return the address of a block in use), `Vec` buffers are
  std's business and left out. Histories in which calls panic and the panics are caught are those of `Unwind`; a panic
  ends a call where it occurs, and what the unwinding itself does is to free the blocks owned by locals.

## Not modelled

`name` of component types, `Display`/`Debug`, `Hash` beyond the hashed sequence, allocator failure,
usize overflow of capacities and page counts (2^32 pages), drop of component values (they are `Copy`), aliasing of Rust
references beyond which bytes they cover (Stacked Borrows; C55 is about bytes), threads, the base address of pages except
in C56 (C17 is about offsets), unwinding through user code.

## Trusted base

* Coq 8.16.1's kernel, including `vm_compute` for concrete witnesses and examples.
* The libraries: Coq's standard library and std++.
* Faithfulness of the hand-written model: the code is read, not run.

### Assumptions

`Print Assumptions` stands under every theorem of `theories/Properties`; each prints
`Closed under the global context`. There are no axioms of our own.

`coqchk` on the whole development lists these constants of a standard library module, which std++ loads through
ssreflect. They are the sealed fields of a module in `Coq.ssr.ssrunder`, and no theorem here depends on them:

* `Coq.ssr.ssrunder.Under_rel.Over_rel`
* `Coq.ssr.ssrunder.Under_rel.Under_rel`
* `Coq.ssr.ssrunder.Under_rel.Under_relE`
* `Coq.ssr.ssrunder.Under_rel.Under_rel_from_rel`
* `Coq.ssr.ssrunder.Under_rel.over_rel`
* `Coq.ssr.ssrunder.Under_rel.over_rel_done`
* `Coq.ssr.ssrunder.Under_rel.under_rel_done`

## Testing the theorems

`seeded/LOG.jsonl` has one line per seeded bug: a definition of the model is changed in a scratch copy, all files are
rebuilt, and the property theorems that no longer follow are listed. `failed` has every property theorem that depends on a
lemma whose proof script broke (these are in `lemmas_failed`), so it also has theorems that could be proved again;
`tightened` has the theorems that should have failed and did not, and were strengthened.

`rocq/theories/Tests` has the repository's own unit tests (`src/tests/*.rs`) as examples about the model. Each test is
written as a computation over the model's state and evaluated by the kernel in up to 48 environments: both build
profiles, both binary searches of the standard library, six orders of the TypeIds and both alignments of u128. All of
them pass. Two of the tests create many entities and are evaluated in four environments. The two tests of
`get_components_refs` and `get_components_refs_mut` on an entity without components are one example, because the model
has one definition for both functions.

`Tests/Oracle.v` writes many of the properties once more as computations: after each call of a pseudo-random history it
compares everything the interface tells with what the history says, and returns the numbers of the properties found
false. It uses the model and the specifications but no lemma, so it also runs on models for which the proofs no longer go
through. `Tests/OracleRuns.v` has runs on the model itself, all without a violation. For the wrong models of
`seeded/LOG.jsonl` the numbers are in the field `spec_violated`; they show that the property itself is false there, and
not only that a proof script broke.
