(** Runs.v — what with_entities() of an ordered query pairs components with. Only fields of the store are used. *)
From Verif.Spec Require Export Queries.
Local Open Scope N_scope.

(** Where the store has the components of the entity: page and index in the page. *)
Definition place (s : store) (e : entity) : option (nat * nat) :=
  match st_page s !! N.to_nat (e_id e), st_idx s !! N.to_nat (e_id e) with
  | Some (Some p), Some (Some k) => Some (p, k)
  | _, _ => None
  end.
(** The entity at the place, with its current version. *)
Definition resident (s : store) (p k : nat) : option entity :=
  pg ← ac_pages (st_ac s) !! p;
  id ← pg_ids pg !! k;
  match ec_ver (st_ec s) !! N.to_nat id with
  | Some (Some v) => Some (Entity id v)
  | _ => None
  end.

(** [e'] is right behind [e] in a page. *)
Definition behind (s : store) (e e' : entity) : bool :=
  match place s e, place s e' with
  | Some (p, k), Some (p', k') => Nat.eqb p' p && Nat.eqb k' (S k)
  | _, _ => false
  end.
(** The list cut into stretches of entities that are right behind each other. *)
Fixpoint runs (s : store) (l : list entity) : list (list entity) :=
  match l with
  | [] => []
  | e :: r =>
    match runs s r with
    | (e' :: x) :: rs => if behind s e e' then (e :: e' :: x) :: rs else [e] :: (e' :: x) :: rs
    | rs => [e] :: rs
    end
  end.

(** The last of a run and the members of the first run are paired with themselves, the others with the entity that has their
    index in the page [p] of the run before. *)
Fixpoint paired_in (s : store) (p : option nat) (run : list entity) : list (option entity) :=
  match run with
  | [] => []
  | [e] => [Some e]
  | e :: r => match p, place s e with Some p, Some (_, k) => resident s p k | _, _ => Some e end :: paired_in s p r
  end.
Definition page_of (s : store) (run : list entity) : option nat := e ← head run; x ← place s e; Some x.1.
Fixpoint paired (s : store) (p : option nat) (rs : list (list entity)) : list (option entity) :=
  match rs with
  | [] => []
  | run :: r => paired_in s p run ++ paired s (page_of s run) r
  end.
(** Runs of several entities, other than the first run, come after a run of the same page. *)
Definition runs_stay (s : store) (rs : list (list entity)) : Prop :=
  ∀ n r1 r2, rs !! n = Some r1 → rs !! S n = Some r2 → (length r2 ≤ 1)%nat ∨ page_of s r1 = page_of s r2.
