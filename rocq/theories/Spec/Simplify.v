(** Simplify.v — histories from which calls are left out that make no difference. *)
From Verif.Spec Require Export Rearrange TakeBack Override.

(** [T'] comes from [T] by exchanging neighbours that have nothing to do with each other (Spec/Rearrange.v), leaving out calls together with the
    calls that take them back (Spec/TakeBack.v; not a creation with its destruction, after which creations would give other handles), and
    leaving out calls that the next call makes superfluous (Spec/Override.v); any number of times and anywhere in the history. The member that
    enters a group and leaves it again must not have been in it before. *)
Inductive simpler : trace → trace → Prop :=
| si_rearranged tr tr' : rearranged tr tr' → simpler tr tr'
| si_undone tr x y tr2 : undoes tr x y → x.2 = None → order_use_ok tr x.1 → simpler (tr ++ [x; y] ++ tr2) (tr ++ tr2)
| si_overridden tr x y tr2 : overrides x.1 y.1 → simpler (tr ++ [x; y] ++ tr2) (tr ++ [y] ++ tr2)
| si_more tr tr' tr'' : simpler tr tr' → simpler tr' tr'' → simpler tr tr''.
