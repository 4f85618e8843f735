(** Predict.v — which handles creations return, told from the creations and destructions alone. *)
From Verif.Spec Require Export Handles Resources.
Local Open Scope N_scope.

(** What creations and destructions leave behind: the ids given back (the newest first), the first id that was not given
    out, and the last version of each id. *)
Record allocator := Allocator { al_free : list N; al_next : N; al_ver : gmap N N }.
Definition al_init : allocator := Allocator [] 0 ∅.
(** The id given back last is used first; versions count the uses of an id. Numbers are 32 bit. *)
Definition al_take (id : N) (free : list N) (next : N) (a : allocator) : allocator * entity :=
  let v := (default 0 (al_ver a !! id) + 1) mod 2 ^ 32 in
  (Allocator free next (<[id := v]> (al_ver a)), Entity id v).
Definition al_create (a : allocator) : allocator * entity :=
  match al_free a with
  | id :: free => al_take id free (al_next a) a
  | [] => al_take (al_next a) [] ((al_next a + 1) mod 2 ^ 32) a
  end.
(** An id is remembered as given back, unless it is the last one given out. *)
Definition al_destroy (id : N) (a : allocator) : allocator :=
  if id =? (al_next a + 2 ^ 32 - 1) mod 2 ^ 32 then Allocator (al_free a) id (al_ver a)
  else Allocator (id :: al_free a) (al_next a) (al_ver a).

(** A creation, or the destruction of a handle with this id. *)
Inductive life := Born | Died (id : N).
Definition al_step (x : allocator * list entity) (l : life) : allocator * list entity :=
  match l with
  | Born => let r := al_create x.1 in (r.1, x.2 ++ [r.2])
  | Died id => (al_destroy id x.1, x.2)
  end.
(** The handles returned. *)
Definition predicted (ls : list life) : list entity := (foldl al_step (al_init, []) ls).2.

Definition lives (tr : trace) : list life :=
  omap (λ c, match c.1 with OCreate | OCreateWith _ => Some Born | ODestroy e => Some (Died (e_id e)) | _ => None end) tr.
Definition rlives {T} (tr : rtrace T) : list life :=
  omap (λ c, match c.1 with RCreate _ => Some Born | RRelease e => Some (Died (e_id e)) | RAssign _ _ => None end) tr.
