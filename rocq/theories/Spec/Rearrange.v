(** Rearrange.v — histories that differ in the order of calls that have nothing to do with each other. *)
From Verif.Spec Require Export Swap Systems.

(** [T'] comes from [T] by exchanging neighbours, any number of times and anywhere in the history: calls that are apart (Spec/Swap.v), and
    loops over write queries with calls that do not concern their components (Spec/Systems.v). *)
Inductive rearranged : trace → trace → Prop :=
| re_same tr : rearranged tr tr
| re_apart tr x y tr2 : apart x y → rearranged (tr ++ [x; y] ++ tr2) (tr ++ [y; x] ++ tr2)
| re_loop tr x q f tr2 : aside x.1 q → rearranged (tr ++ [x; (OWrite q f, None)] ++ tr2) (tr ++ [(OWrite q f, None); x] ++ tr2)
| re_back tr tr' : rearranged tr tr' → rearranged tr' tr
| re_more tr tr' tr'' : rearranged tr tr' → rearranged tr' tr'' → rearranged tr tr''.
