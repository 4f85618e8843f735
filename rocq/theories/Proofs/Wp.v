(** Wp.v — reasoning about outcomes. *)
From Verif.Model Require Export Base.
Local Open Scope N_scope.

(** [sat U r Q P]: outcome [r] satisfies [Q] if normal and [P] if a panic; undefined behaviour requires [U]. *)
Definition sat {S A} (U : Prop) (r : res S A) (Q : S → A → Prop) (P : S → Prop) : Prop :=
  match r with ROk s a => Q s a | RPanic s => P s | RUB _ => U end.
Definition psat {A} (U : Prop) (r : pres A) (Q : A → Prop) (P : Prop) : Prop :=
  match r with POk a => Q a | PPanic => P | PUB _ => U end.

Section sat.
Context {S A B : Type} (U : Prop).
Implicit Types (Q : S → B → Prop) (P : S → Prop).

Lemma sat_bind (m : M S A) (k : A → M S B) s Q P :
  sat U ((m ≫= k) s) Q P ↔ sat U (m s) (λ s1 a, sat U (k a s1) Q P) P.
Proof. unfold mbind, M_bind. destruct (m s); reflexivity. Qed.
Lemma sat_ret (a : B) s Q P : sat U ((mret a : M S B) s) Q P ↔ Q s a.
Proof. reflexivity. Qed.
Lemma sat_panic s Q P : sat U ((panic : M S B) s) Q P ↔ P s.
Proof. reflexivity. Qed.
Lemma sat_lift (p : pres B) s Q P : sat U (lift p s) Q P ↔ psat U p (λ a, Q s a) (P s).
Proof. destruct p; reflexivity. Qed.
Lemma sat_get s (Q : S → S → Prop) P : sat U (getS s) Q P ↔ Q s s.
Proof. reflexivity. Qed.
Lemma sat_put s s' (Q : S → unit → Prop) P : sat U (putS s' s) Q P ↔ Q s' tt.
Proof. reflexivity. Qed.
Lemma sat_mod f s (Q : S → unit → Prop) P : sat U (modS f s) Q P ↔ Q (f s) tt.
Proof. reflexivity. Qed.
Lemma sat_mono (r : res S B) Q Q' P P' :
  sat U r Q P → (∀ s a, Q s a → Q' s a) → (∀ s, P s → P' s) → sat U r Q' P'.
Proof. destruct r; simpl; auto. Qed.
Lemma sat_ok (r : res S B) Q P s a : sat U r Q P → r = ROk s a → Q s a.
Proof. intros H ->. exact H. Qed.
End sat.

Lemma sat_mono_U {S B} (U U' : Prop) (r : res S B) Q P : (U → U') → sat U r Q P → sat U' r Q P.
Proof. destruct r; simpl; auto. Qed.
Lemma sat_zoom {S T A} U (get : S → T) put (m : M T A) s (Q : S → A → Prop) P :
  sat U (zoom get put m s) Q P ↔ sat U (m (get s)) (λ t a, Q (put t s) a) (λ t, P (put t s)).
Proof. unfold zoom. destruct (m (get s)); reflexivity. Qed.
Lemma sat_and {S B} U (r : res S B) (Q Q' : S → B → Prop) (P P' : S → Prop) :
  sat U r Q P → sat U r Q' P' → sat U r (λ s a, Q s a ∧ Q' s a) (λ s, P s ∧ P' s).
Proof. destruct r; simpl; auto. Qed.

Section psat.
Context {A B : Type} (U : Prop).
Implicit Types (Q : B → Prop) (P : Prop).
Lemma psat_bind (m : pres A) (k : A → pres B) Q P :
  psat U (m ≫= k) Q P ↔ psat U m (λ a, psat U (k a) Q P) P.
Proof. destruct m; reflexivity. Qed.
Lemma psat_ret (a : B) Q P : psat U (mret a : pres B) Q P ↔ Q a.
Proof. reflexivity. Qed.
Lemma psat_ok (r : pres B) Q P a : psat U r Q P → r = POk a → Q a.
Proof. intros H ->. exact H. Qed.
Lemma psat_mono (r : pres B) Q Q' P P' : psat U r Q P → (∀ a, Q a → Q' a) → (P → P') → psat U r Q' P'.
Proof. destruct r; simpl; auto. Qed.
End psat.

Lemma psat_assert U b (Q : unit → Prop) P :
  psat U (assertP b) Q P ↔ (b = true → Q tt) ∧ (b = false → P).
Proof. destruct b; simpl; naive_solver. Qed.

(** Inversion of successful outcomes. *)
Lemma bind_ok {S A B} (m : M S A) (k : A → M S B) s s' b :
  (m ≫= k) s = ROk s' b ↔ ∃ s1 a, m s = ROk s1 a ∧ k a s1 = ROk s' b.
Proof.
  unfold mbind, M_bind. destruct (m s) as [s1 a|s1|w] eqn:E; naive_solver.
Qed.
Lemma lift_ok {S A} (p : pres A) (s s' : S) a : lift p s = ROk s' a ↔ p = POk a ∧ s' = s.
Proof. destruct p; simpl; naive_solver. Qed.
Lemma zoom_ok {S T A} (get : S → T) put (m : M T A) s s' a :
  zoom get put m s = ROk s' a ↔ ∃ t, m (get s) = ROk t a ∧ s' = put t s.
Proof. unfold zoom. destruct (m (get s)); naive_solver. Qed.
Lemma pbind_ok {A B} (m : pres A) (k : A → pres B) b :
  m ≫= k = POk b ↔ ∃ a, m = POk a ∧ k a = POk b.
Proof. destruct m; simpl; naive_solver. Qed.
Lemma ret_ok {S A} (s s' : S) (a b : A) : (mret a : M S A) s = ROk s' b ↔ b = a ∧ s' = s.
Proof. unfold mret, M_ret. naive_solver. Qed.
Lemma pret_ok {A} (a b : A) : (mret a : pres A) = POk b ↔ b = a.
Proof. unfold mret, pres_ret. naive_solver. Qed.
Lemma get_ok {S} (s s' b : S) : getS s = ROk s' b ↔ b = s ∧ s' = s.
Proof. unfold getS. naive_solver. Qed.
Lemma put_ok {S} (s s' x : S) b : putS x s = ROk s' b ↔ s' = x.
Proof. destruct b. unfold putS. naive_solver. Qed.
Lemma mod_ok {S} (s s' : S) f b : modS f s = ROk s' b ↔ s' = f s.
Proof. destruct b. unfold modS. naive_solver. Qed.
Lemma panic_ok {S A} (s s' : S) (a : A) : panic s = ROk s' a ↔ False.
Proof. unfold panic. naive_solver. Qed.

(** Break a hypothesis [m s = ROk s' a] down into its steps. *)
Ltac inv1 H :=
  lazymatch type of H with
  | (_ ≫= _) _ = ROk _ _ =>
      let s1 := fresh "s" in let a := fresh "a" in let H1 := fresh "H" in
      apply bind_ok in H as (s1 & a & H1 & H); inv1 H1; inv1 H
  | (mret _) _ = ROk _ _ => apply ret_ok in H as [? ?]; try subst
  | getS _ = ROk _ _ => apply get_ok in H as [? ?]; try subst
  | putS _ _ = ROk _ _ => apply put_ok in H; try subst
  | modS _ _ = ROk _ _ => apply mod_ok in H; try subst
  | lift _ _ = ROk _ _ => let H1 := fresh "H" in apply lift_ok in H as [H H1]; try subst; inv1 H
  | zoom _ _ _ _ = ROk _ _ =>
      let t := fresh "t" in let H1 := fresh "H" in apply zoom_ok in H as (t & H & H1); try subst; inv1 H
  | panic _ = ROk _ _ => destruct H
  | _ ≫= _ = POk _ =>
      let a := fresh "a" in let H1 := fresh "H" in
      apply pbind_ok in H as (a & H1 & H); inv1 H1; inv1 H
  | mret _ = POk _ => apply pret_ok in H; try subst
  | POk _ = POk _ => injection H as H; try subst
  | PPanic = POk _ => discriminate H
  | PUB _ = POk _ => discriminate H
  | ROk _ _ = ROk _ _ => let H1 := fresh "H" in injection H as H H1; try subst
  | RPanic _ = ROk _ _ => discriminate H
  | RUB _ = ROk _ _ => discriminate H
  | assertP ?b = POk _ => unfold assertP in H; destruct b eqn:?; inv1 H
  | _ => idtac
  end.

(** ** Machine-indexed lists *)
Lemma nlookup_lookup {A} (l : list A) i : nlookup l i = l !! N.to_nat i.
Proof.
  unfold nlookup. destruct (i <? N.of_nat (length l)) eqn:E; [done|].
  apply N.ltb_ge in E. symmetry. apply lookup_ge_None. lia.
Qed.
Lemma nlookup_Some {A} (l : list A) i x : nlookup l i = Some x ↔ l !! N.to_nat i = Some x.
Proof. by rewrite nlookup_lookup. Qed.

Lemma aget_ok {A} (a : arr A) i v : aget a i = POk v ↔ a !! N.to_nat i = Some (Some v).
Proof. unfold aget. rewrite nlookup_lookup. destruct (a !! N.to_nat i) as [[x|]|]; split; congruence. Qed.
Lemma aset_ok {A} (a a' : arr A) i v :
  aset a i v = POk a' ↔ (i < N.of_nat (length a)) ∧ a' = <[N.to_nat i := Some v]> a.
Proof.
  unfold aset. destruct (i <? N.of_nat (length a)) eqn:E.
  - apply N.ltb_lt in E. naive_solver.
  - apply N.ltb_ge in E. split; [done|]. intros [? _]. lia.
Qed.
Lemma aset_cases {A} (a : arr A) i v :
  (i < N.of_nat (length a) ∧ aset a i v = POk (<[N.to_nat i := Some v]> a))
  ∨ (N.of_nat (length a) ≤ i ∧ aset a i v = PUB OutOfBounds).
Proof.
  unfold aset. destruct (i <? N.of_nat (length a)) eqn:E;
    [apply N.ltb_lt in E|apply N.ltb_ge in E]; auto.
Qed.
Lemma aset_lt {A} (a : arr A) i v :
  i < N.of_nat (length a) → aset a i v = POk (<[N.to_nat i := Some v]> a).
Proof. intros. apply aset_ok. auto. Qed.
Lemma aget_lookup {A} (a : arr A) i v : a !! N.to_nat i = Some (Some v) → aget a i = POk v.
Proof. apply aget_ok. Qed.

Lemma copy_prefix_ok {A} (a b r : list A) n :
  copy_prefix a b n = POk r ↔
  n ≤ N.of_nat (length a) ∧ n ≤ N.of_nat (length b) ∧ r = take (N.to_nat n) a ++ drop (N.to_nat n) b.
Proof.
  unfold copy_prefix. destruct (_ && _) eqn:E.
  - apply andb_prop in E as [E1%N.leb_le E2%N.leb_le]. naive_solver.
  - split; [done|]. intros (H1 & H2 & _). apply N.leb_le in H1, H2. rewrite H1, H2 in E. done.
Qed.
Lemma copy_prefix_le {A} (a b : list A) n :
  n ≤ N.of_nat (length a) → n ≤ N.of_nat (length b) →
  copy_prefix a b n = POk (take (N.to_nat n) a ++ drop (N.to_nat n) b).
Proof. intros. apply copy_prefix_ok. auto. Qed.

Lemma vidx_ok {A} (l : list A) i x : vidx l i = POk x ↔ l !! i = Some x.
Proof. unfold vidx. destruct (l !! i); naive_solver. Qed.
Lemma vset_ok {A} (l l' : list A) i x : vset l i x = POk l' ↔ (i < length l)%nat ∧ l' = <[i := x]> l.
Proof.
  unfold vset. destruct (l !! i) eqn:E.
  - apply lookup_lt_Some in E. naive_solver.
  - apply lookup_ge_None in E. split; [done|]. lia.
Qed.
Lemma vinsert_ok {A} (l l' : list A) i x :
  vinsert l i x = POk l' ↔ (i ≤ length l)%nat ∧ l' = take i l ++ x :: drop i l.
Proof.
  unfold vinsert. destruct (Nat.leb i (length l)) eqn:E.
  - apply Nat.leb_le in E. naive_solver.
  - apply Nat.leb_gt in E. split; [done|]. lia.
Qed.
Lemma vremove_ok {A} (l l' : list A) i : vremove l i = POk l' ↔ (i < length l)%nat ∧ l' = delete i l.
Proof.
  unfold vremove. destruct (l !! i) eqn:E.
  - apply lookup_lt_Some in E. naive_solver.
  - apply lookup_ge_None in E. split; [done|]. lia.
Qed.
Lemma vget_ok {A} (l : list A) i x : vget_unchecked l i = POk x ↔ l !! i = Some x.
Proof. unfold vget_unchecked. destruct (l !! i); naive_solver. Qed.

Lemma dassert_ok md p u : dassertP md p = POk u ↔ (md = Debug → p = POk true).
Proof.
  destruct u, md; simpl; [|naive_solver].
  destruct p as [[]| |]; simpl; naive_solver.
Qed.
Lemma dassert_debug p u : dassertP Debug p = POk u ↔ p = POk true.
Proof. rewrite dassert_ok. naive_solver. Qed.

Lemma vpop_snoc {A} (l : list A) x : vpop (l ++ [x]) = l.
Proof. unfold vpop. rewrite app_length. simpl. rewrite Nat.add_comm. simpl. by rewrite take_app. Qed.
Lemma last_snoc_inv {A} (l : list A) x : last l = Some x → l = vpop l ++ [x].
Proof. intros [l' ->]%last_Some. by rewrite vpop_snoc. Qed.

(** Step through the goal [sat U (prog s) Q P]. *)
Ltac wp1 :=
  cbv beta iota;
  lazymatch goal with
  | |- sat _ ((_ ≫= _) _) _ _ => apply sat_bind
  | |- sat _ (mret _ _) _ _ => apply sat_ret
  | |- sat _ (getS _) _ _ => apply sat_get
  | |- sat _ (putS _ _) _ _ => apply sat_put
  | |- sat _ (modS _ _) _ _ => apply sat_mod
  | |- sat _ (panic _) _ _ => apply sat_panic
  | |- sat _ (lift _ _) _ _ => apply sat_lift
  | |- sat _ (zoom _ _ _ _) _ _ => apply sat_zoom
  | |- psat _ (_ ≫= _) _ _ => apply psat_bind
  | |- psat _ (mret _) _ _ => apply psat_ret
  | |- psat _ (POk _) _ _ => unfold psat
  | |- psat _ (assertP _) _ _ => apply psat_assert
  end.
Ltac wp := repeat wp1; cbv beta iota.
