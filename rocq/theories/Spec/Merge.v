(** Merge.v — histories in which several calls are replaced by fewer or simpler ones with the same effect. *)
From Verif.Spec Require Export Simplify.

(** After the history [tr], [ys] does what [xs] does: components given, taken or set one after the other can be given, taken or set at once;
    an entity created with an archetype whose components are then all set can be created empty and given them; and the order of the types
    in a tuple does not matter. *)
Inductive merges (tr : trace) : trace → trace → Prop :=
| me_add e v v' : merges tr [(OAdd e v, None); (OAdd e v', None)] [(OAdd e (v ++ v'), None)]
| me_remove e T T' : merges tr [(ORemove e T, None); (ORemove e T', None)] [(ORemove e (T ++ T'), None)]
| me_set e v v' : (∀ t, t ∈ (v ++ v').*1 → t ∈ default ∅ (types tr e)) →
    merges tr [(OSet e v, None); (OSet e v', None)] [(OSet e (v ++ v'), None)]
| me_create e a v : (∀ t, t ∈ arch_ids a ↔ t ∈ v.*1) →
    merges tr [(OCreateWith a, Some e); (OSet e v, None)] [(OCreate, Some e); (OAdd e v, None)]
| me_add_order e v v' : v ≡ₚ v' → NoDup v.*1 → merges tr [(OAdd e v, None)] [(OAdd e v', None)]
| me_remove_order e T T' : T ≡ₚ T' → merges tr [(ORemove e T, None)] [(ORemove e T', None)]
| me_set_order e v v' : v ≡ₚ v' → NoDup v.*1 → merges tr [(OSet e v, None)] [(OSet e v', None)].
(** Any number of times and anywhere in the history, together with the simplifications of Spec/Simplify.v. *)
Inductive reduces : trace → trace → Prop :=
| rd_simpler tr tr' : simpler tr tr' → reduces tr tr'
| rd_merged tr xs ys tr2 : merges tr xs ys → reduces (tr ++ xs ++ tr2) (tr ++ ys ++ tr2)
| rd_more tr tr' tr'' : reduces tr tr' → reduces tr' tr'' → reduces tr tr''.
