(** Derive.v — types and implementations as the compiler sees them. *)
From Verif.Model Require Export Derive.
Local Open Scope N_scope.

(** What is known of [size_of] and [align_of]: alignments are positive and divide sizes; fields do not overlap; a struct whose
    fields are all empty is empty. *)
Record layout_rules (size align : rty → N) : Prop := LayoutRules {
  lr_scalar : ∀ s a, 0 < a → (a | s) → size (RScalar s a) = s ∧ align (RScalar s a) = a;
  lr_align : ∀ t, 0 < align t ∧ (align t | size t);
  lr_fields : ∀ fs, foldr N.add 0 (size <$> fs) ≤ size (RStruct fs);
  lr_empty : ∀ fs, (∀ f, f ∈ fs → size f = 0) → size (RStruct fs) = 0;
}.

Fixpoint commas (l : list string) : string :=
  match l with
  | [] => ""
  | [x] => x
  | x :: r => x +:+ ", " +:+ commas r
  end.
Definition angles (l : list string) : string := match l with [] => "" | _ => "<" +:+ commas l +:+ ">" end.
(** The implementation of a trait without items for the type with these parameters. *)
Definition impl_for (tr : string) (ident : string) (params : list string) : string :=
  "impl" +:+ angles params +:+ " " +:+ tr +:+ " for " +:+ ident +:+ angles params +:+ " {}".
