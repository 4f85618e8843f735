(** StoreP.v — which parts of the store each call touches. *)
From Verif.Model Require Export Run.
From Verif.Proofs Require Export Wp EntitiesP.
Local Open Scope N_scope.

(** [keeps π m]: [m] does not change [π], whether it returns or panics. *)
Definition keeps {S X A} (π : S → X) (m : M S A) : Prop := ∀ s, sat True (m s) (λ s' _, π s' = π s) (λ s', π s' = π s).

Section keeps.
Context {S X : Type} (π : S → X).
Lemma keeps_bind {A B} (m : M S A) (k : A → M S B) : keeps π m → (∀ a, keeps π (k a)) → keeps π (m ≫= k).
Proof.
  intros Hm Hk s. apply sat_bind. eapply sat_mono; [apply Hm| |done].
  intros s1 a Heq. simpl. rewrite <- Heq. apply Hk.
Qed.
Lemma keeps_bind_get {B} (k : S → M S B) : (∀ s, keeps π (k s)) → keeps π (getS ≫= k).
Proof. intros Hk. apply keeps_bind; [|done]. intros s. reflexivity. Qed.
Lemma keeps_ret {A} (a : A) : keeps π (mret a).
Proof. intros s. reflexivity. Qed.
Lemma keeps_get : keeps π getS.
Proof. intros s. reflexivity. Qed.
Lemma keeps_panic {A} : keeps π (panic : M S A).
Proof. intros s. reflexivity. Qed.
Lemma keeps_lift {A} (p : pres A) : keeps π (lift p).
Proof. intros s. by destruct p. Qed.
Lemma keeps_mod f : (∀ s, π (f s) = π s) → keeps π (modS f).
Proof. intros H s. apply H. Qed.
Lemma keeps_zoom {T A} (get : S → T) put (m : M T A) : (∀ t s, π (put t s) = π s) → keeps π (zoom get put m).
Proof. intros H s. unfold zoom. destruct (m (get s)); simpl; auto. Qed.
Lemma keeps_ok {A} (m : M S A) s s' a : keeps π m → m s = ROk s' a → π s' = π s.
Proof. intros H E. specialize (H s). by rewrite E in H. Qed.
Lemma keeps_panicked {A} (m : M S A) s s' : keeps π m → m s = RPanic s' → π s' = π s.
Proof. intros H E. specialize (H s). by rewrite E in H. Qed.
End keeps.

Ltac keeps :=
  repeat first
    [ apply keeps_bind; [|intros ?]
    | apply keeps_ret | apply keeps_lift | apply keeps_panic | apply keeps_get
    | apply keeps_mod; intros ?; reflexivity
    | apply keeps_zoom; intros ? ?; reflexivity
    | match goal with |- keeps _ (match ?x with _ => _ end) => destruct x end
    | eassumption ].

(** The parts of the store other than the one named. *)
Definition but_ec (s : store) := (st_ac s, st_tags s, st_orders s, st_page s, st_idx s, st_has s).
Definition ids_part (s : store) := (st_ec s, st_tags s, st_orders s).
Definition but_tags (s : store) := (st_ec s, st_ac s, st_orders s, st_page s, st_idx s, st_has s).
Definition but_orders (s : store) := (st_ec s, st_ac s, st_tags s, st_page s, st_idx s, st_has s).

Ltac unfold_ops :=
  unfold add_components, remove_components, set_components, query_write, ensure_types, move_entity, set_location,
    swap_remove_internal, set_page_index, set_index_in_page, enable_archetype, disable_archetype, on_ac, on_ec,
    on_tags, on_orders, add_tag, remove_tag, add_order, add_order_next, add_order_prev, remove_order.

Lemma add_components_keeps c e vals : keeps ids_part (add_components c e vals).
Proof. unfold_ops. keeps. Qed.
Lemma remove_components_keeps c e T : keeps ids_part (remove_components c e T).
Proof. unfold_ops. keeps. Qed.
Lemma set_components_keeps c e vals : keeps ids_part (set_components c e vals).
Proof.
  intros s. unfold set_components, mbind, M_bind, getS, lift.
  destruct (get_components_refs c s e vals.*1) as [[rs|]| |]; reflexivity.
Qed.
Lemma query_write_keeps c q f : keeps ids_part (query_write c q f).
Proof.
  intros s. unfold query_write, mbind, M_bind, getS, lift.
  destruct (component_query c q s) as [it| |]; try reflexivity.
  by destruct (write_loop _ _ _ _ _ _).
Qed.
Lemma tag_keeps c t e : keeps but_tags (add_tag c t e) ∧ keeps but_tags (remove_tag c t e).
Proof. unfold_ops. split; keeps. Qed.
Lemma order_keeps c g e to :
  keeps but_orders (add_order c g e) ∧ keeps but_orders (add_order_next c g e to) ∧
  keeps but_orders (add_order_prev c g e to) ∧ keeps but_orders (remove_order c g e).
Proof. unfold_ops. split_and!; keeps. Qed.

(** Results of the calls that return nothing. *)
Lemma no_out_ok m s s' r : no_out m s = ROk s' r ↔ m s = ROk s' () ∧ r = None.
Proof.
  unfold no_out. rewrite bind_ok. split.
  - intros (s1 & [] & H & [-> ->]%ret_ok). done.
  - intros [H ->]. exists s', (). split; [done|]. by apply ret_ok.
Qed.

(** ** register_new_entity *)
Definition grown (md : mode) (old : N) (s s' : store) : Prop :=
  arealloc (st_page s) old (ec_cap (st_ec s')) = POk (st_page s') ∧
  arealloc (st_idx s) old (ec_cap (st_ec s')) = POk (st_idx s') ∧
  bv_realloc (st_has s) old (ec_cap (st_ec s')) = POk (st_has s') ∧
  tags_grow (ec_cap (st_ec s')) (st_tags s) = ROk (st_tags s') () ∧
  orders_grow md (ec_cap (st_ec s')) (st_orders s) = ROk (st_orders s') ().

Lemma grow_entities_ok md old s s' u : grow_entities md old s = ROk s' u →
  st_ec s' = st_ec s ∧ st_ac s' = st_ac s ∧ grown md old s s'.
Proof.
  destruct u. intros H. unfold grow_entities, on_tags, on_orders in H. inv1 H.
  destruct s; simpl in *. unfold grown, entities_capacity in *. simpl in *. repeat match goal with u : unit |- _ => destruct u end. split_and!; done.
Qed.

Lemma register_ok c s s' e : register_new_entity c s = ROk s' e →
  ∃ cr, ec_create (c_mode c) (st_ec s) = ROk (st_ec s') cr ∧ e = cr_entity cr ∧ st_ac s' = st_ac s ∧
    if container_was_grow cr then grown (c_mode c) (cr_before cr) s s'
    else st_tags s' = st_tags s ∧ st_orders s' = st_orders s ∧ st_page s' = st_page s ∧ st_idx s' = st_idx s ∧
         st_has s' = st_has s.
Proof.
  intros H. unfold register_new_entity, on_ec in H.
  apply bind_ok in H as (s1 & cr & (t & Hc & ->)%zoom_ok & H).
  apply bind_ok in H as (s2 & [] & Hg & [-> ->]%ret_ok). exists cr.
  destruct (container_was_grow cr) eqn:E.
  - apply grow_entities_ok in Hg as (Hec & Hac & Hg). rewrite Hec, Hac. by split_and!.
  - apply ret_ok in Hg as [_ ->]. by split_and!.
Qed.

(** ** creation *)
Lemma create_ok c s s' e : create_entity c s = ROk s' e →
  ∃ s1, register_new_entity c s = ROk s1 e ∧ ids_part s' = ids_part s1 ∧ st_ac s' = st_ac s1 ∧
    st_page s' = st_page s1 ∧ st_idx s' = st_idx s1 ∧ bv_off (st_has s1) (e_id e) = POk (st_has s').
Proof.
  intros H. unfold create_entity, disable_archetype in H. inv1 H.
  eexists. split; [eassumption|]. done.
Qed.
Lemma create_with_ok c a s s' e : create_entity_with_archetype c a s = ROk s' e →
  ∃ s1, register_new_entity c s = ROk s1 e ∧ ids_part s' = ids_part s1.
Proof.
  intros H. unfold create_entity_with_archetype in H. apply bind_ok in H as (s1 & e' & H1 & H).
  assert (keeps ids_part (l ← on_ac (ac_add_entity c (e_id e') a); _ ← set_location (e_id e') l; mret e')) as Hk.
  { unfold_ops. keeps. }
  pose proof (keeps_ok _ _ _ _ _ Hk H) as Heq. inv1 H. eauto.
Qed.

(** Which of the id-related parts each call changes, and how. *)
Lemma destroy_ok c e s s' u : destroy_entity c e s = ROk s' u →
  ec_destroy (c_mode c) e (st_ec s) = ROk (st_ec s') () ∧
  tags_remove_all (e_id e) (st_tags s) = ROk (st_tags s') () ∧
  orders_remove_all (e_id e) (st_orders s) = ROk (st_orders s') ().
Proof.
  destruct u. intros H. unfold destroy_entity, on_ec, on_tags, on_orders in H.
  apply bind_ok in H as (s1 & x & [-> ->]%get_ok & H).
  apply bind_ok in H as (s1 & has & [Hhas ->]%lift_ok & H).
  apply bind_ok in H as (s1 & [] & H1 & H).
  assert (keeps ids_part (if (has : bool) then l ← lift (get_eia s (e_id e)); swap_remove_internal l else mret tt)) as Hk.
  { unfold_ops. keeps. }
  pose proof (keeps_ok _ _ _ _ _ Hk H1) as Heq. unfold ids_part in Heq. injection Heq as He Ht Ho.
  inv1 H. simpl in *. destruct a, a0. rewrite <- He, <- Ht, <- Ho. done.
Qed.

(** One step, seen from the entities container. *)
Inductive ec_step (md : mode) (s : ec) : op → option entity → ec → Prop :=
| ec_step_create o cr s' : o = OCreate ∨ (∃ a, o = OCreateWith a) →
    ec_create md s = ROk s' cr → ec_step md s o (Some (cr_entity cr)) s'
| ec_step_destroy e s' : ec_destroy md e s = ROk s' () → ec_step md s (ODestroy e) None s'
| ec_step_other o : o ≠ OCreate → (∀ a, o ≠ OCreateWith a) → (∀ e, o ≠ ODestroy e) → ec_step md s o None s.

Lemma step_ec c o s s' r : step c o s = ROk s' r → ec_step (c_mode c) (st_ec s) o r (st_ec s').
Proof.
  destruct o; simpl; intros H; try (apply no_out_ok in H as [H ->]).
  - apply bind_ok in H as (s1 & e & H & [-> ->]%ret_ok).
    apply create_ok in H as (s2 & H & Hi & _). injection Hi as -> _ _.
    apply register_ok in H as (cr & H & -> & _). econstructor; [by left|done].
  - apply bind_ok in H as (s1 & e & H & [-> ->]%ret_ok).
    apply create_with_ok in H as (s2 & H & Hi). injection Hi as -> _ _.
    apply register_ok in H as (cr & H & -> & _). econstructor; [by eauto|done].
  - apply destroy_ok in H as (H & _). by constructor.
  - apply (keeps_ok ids_part) in H; [|apply add_components_keeps]. injection H as -> _ _. by constructor.
  - apply (keeps_ok ids_part) in H; [|apply remove_components_keeps]. injection H as -> _ _. by constructor.
  - apply (keeps_ok ids_part) in H; [|apply set_components_keeps]. injection H as -> _ _. by constructor.
  - apply (keeps_ok ids_part) in H; [|apply query_write_keeps]. injection H as -> _ _. by constructor.
  - apply (keeps_ok but_tags) in H; [|apply tag_keeps]. injection H as -> _ _ _ _. by constructor.
  - apply (keeps_ok but_tags) in H; [|apply tag_keeps]. injection H as -> _ _ _ _. by constructor.
  - apply (keeps_ok but_orders) in H; [|apply (order_keeps c g e e)]. injection H as -> _ _ _ _. by constructor.
  - apply (keeps_ok but_orders) in H; [|apply order_keeps]. injection H as -> _ _ _ _. by constructor.
  - apply (keeps_ok but_orders) in H; [|apply order_keeps]. injection H as -> _ _ _ _. by constructor.
  - apply (keeps_ok but_orders) in H; [|apply (order_keeps c g e e)]. injection H as -> _ _ _ _. by constructor.
Qed.

(** Capacity changes exactly when the other containers are grown. *)
Lemma register_caps c s s' e : register_new_entity c s = ROk s' e →
  (ec_cap (st_ec s') = ec_cap (st_ec s) ∧ st_tags s' = st_tags s ∧ st_orders s' = st_orders s ∧
   st_page s' = st_page s ∧ st_idx s' = st_idx s ∧ st_has s' = st_has s) ∨
  grown (c_mode c) (ec_cap (st_ec s)) s s'.
Proof.
  intros (cr & Hc & _ & _ & H)%register_ok. apply ec_create_caps in Hc as [Hb Ha].
  unfold container_was_grow in H. rewrite Hb, Ha in H.
  destruct (N.eqb_spec (ec_cap (st_ec s')) (ec_cap (st_ec s))); simpl in H; [left|right]; naive_solver.
Qed.

(** One step, seen from the tags. *)
Inductive tags_step (c : cfg) (s : store) (s' : store) : op → Prop :=
| tags_step_create o : o = OCreate ∨ (∃ a, o = OCreateWith a) →
    (ec_cap (st_ec s') = ec_cap (st_ec s) ∧ st_tags s' = st_tags s) ∨
    tags_grow (ec_cap (st_ec s')) (st_tags s) = ROk (st_tags s') () →
    tags_step c s s' o
| tags_step_destroy e : ec_cap (st_ec s') = ec_cap (st_ec s) →
    tags_remove_all (e_id e) (st_tags s) = ROk (st_tags s') () → tags_step c s s' (ODestroy e)
| tags_step_add t e : ec_cap (st_ec s') = ec_cap (st_ec s) →
    tags_add c t (e_id e) (st_tags s) = ROk (st_tags s') () → tags_step c s s' (OTagAdd t e)
| tags_step_del t e : ec_cap (st_ec s') = ec_cap (st_ec s) →
    tags_remove c t (e_id e) (st_tags s) = ROk (st_tags s') () → tags_step c s s' (OTagDel t e)
| tags_step_other o : (∀ e, o ≠ ODestroy e) → (∀ t e, o ≠ OTagAdd t e) → (∀ t e, o ≠ OTagDel t e) →
    ec_cap (st_ec s') = ec_cap (st_ec s) → st_tags s' = st_tags s → tags_step c s s' o.

Lemma step_tags c o s s' r : step c o s = ROk s' r → tags_step c s s' o.
Proof.
  destruct o; simpl; intros H; try (apply no_out_ok in H as [H ->]).
  - apply bind_ok in H as (s1 & e & H & [-> ->]%ret_ok).
    apply create_ok in H as (s2 & H & Hi & _). injection Hi as Hec Htg _.
    constructor; [by left|]. rewrite Hec, Htg. apply register_caps in H as [?|H]; [naive_solver|]. right. apply H.
  - apply bind_ok in H as (s1 & e & H & [-> ->]%ret_ok).
    apply create_with_ok in H as (s2 & H & Hi). injection Hi as Hec Htg _.
    constructor; [by eauto|]. rewrite Hec, Htg. apply register_caps in H as [?|H]; [naive_solver|]. right. apply H.
  - apply destroy_ok in H as (H & Ht & _). apply ec_destroy_cap in H. by constructor.
  - apply (keeps_ok ids_part) in H; [|apply add_components_keeps]. injection H as Hec Htg _.
    by constructor; rewrite ?Hec.
  - apply (keeps_ok ids_part) in H; [|apply remove_components_keeps]. injection H as Hec Htg _.
    by constructor; rewrite ?Hec.
  - apply (keeps_ok ids_part) in H; [|apply set_components_keeps]. injection H as Hec Htg _.
    by constructor; rewrite ?Hec.
  - apply (keeps_ok ids_part) in H; [|apply query_write_keeps]. injection H as Hec Htg _.
    by constructor; rewrite ?Hec.
  - pose proof H as H'. apply (keeps_ok but_tags) in H; [|apply tag_keeps]. injection H as Hec _ _ _ _.
    apply zoom_ok in H' as (t' & H' & ->). by constructor.
  - pose proof H as H'. apply (keeps_ok but_tags) in H; [|apply tag_keeps]. injection H as Hec _ _ _ _.
    apply zoom_ok in H' as (t' & H' & ->). by constructor.
  - apply (keeps_ok but_orders) in H; [|apply (order_keeps c g e e)]. injection H as Hec _ Htg _ _.
    by constructor; rewrite ?Hec.
  - apply (keeps_ok but_orders) in H; [|apply order_keeps]. injection H as Hec _ Htg _ _. by constructor; rewrite ?Hec.
  - apply (keeps_ok but_orders) in H; [|apply order_keeps]. injection H as Hec _ Htg _ _. by constructor; rewrite ?Hec.
  - apply (keeps_ok but_orders) in H; [|apply (order_keeps c g e e)]. injection H as Hec _ Htg _ _.
    by constructor; rewrite ?Hec.
Qed.

(** One step, seen from the order groups. *)
Definition is_order_op (o : op) : bool :=
  match o with ODestroy _ | OOrdAdd _ _ | OOrdNext _ _ _ | OOrdPrev _ _ _ | OOrdDel _ _ => true | _ => false end.
Inductive orders_step (c : cfg) (s : store) (s' : store) : op → Prop :=
| orders_step_create o : o = OCreate ∨ (∃ a, o = OCreateWith a) →
    (ec_cap (st_ec s') = ec_cap (st_ec s) ∧ st_orders s' = st_orders s) ∨
    orders_grow (c_mode c) (ec_cap (st_ec s')) (st_orders s) = ROk (st_orders s') () →
    orders_step c s s' o
| orders_step_destroy e : ec_cap (st_ec s') = ec_cap (st_ec s) →
    orders_remove_all (e_id e) (st_orders s) = ROk (st_orders s') () → orders_step c s s' (ODestroy e)
| orders_step_add g e : ec_cap (st_ec s') = ec_cap (st_ec s) →
    orders_add c g (e_id e) (st_orders s) = ROk (st_orders s') () → orders_step c s s' (OOrdAdd g e)
| orders_step_next g e to : ec_cap (st_ec s') = ec_cap (st_ec s) →
    orders_add_next c g (e_id e) (e_id to) (st_orders s) = ROk (st_orders s') () → orders_step c s s' (OOrdNext g e to)
| orders_step_prev g e to : ec_cap (st_ec s') = ec_cap (st_ec s) →
    orders_add_prev c g (e_id e) (e_id to) (st_orders s) = ROk (st_orders s') () → orders_step c s s' (OOrdPrev g e to)
| orders_step_del g e : ec_cap (st_ec s') = ec_cap (st_ec s) →
    orders_remove c g (e_id e) (st_orders s) = ROk (st_orders s') () → orders_step c s s' (OOrdDel g e)
| orders_step_other o : is_order_op o = false →
    ec_cap (st_ec s') = ec_cap (st_ec s) → st_orders s' = st_orders s → orders_step c s s' o.

Lemma step_orders c o s s' r : step c o s = ROk s' r → orders_step c s s' o.
Proof.
  destruct o; simpl; intros H; try (apply no_out_ok in H as [H ->]).
  - apply bind_ok in H as (s1 & e & H & [-> ->]%ret_ok).
    apply create_ok in H as (s2 & H & Hi & _). injection Hi as Hec _ Hog.
    constructor; [by left|]. rewrite Hec, Hog. apply register_caps in H as [?|H]; [naive_solver|]. right. apply H.
  - apply bind_ok in H as (s1 & e & H & [-> ->]%ret_ok).
    apply create_with_ok in H as (s2 & H & Hi). injection Hi as Hec _ Hog.
    constructor; [by eauto|]. rewrite Hec, Hog. apply register_caps in H as [?|H]; [naive_solver|]. right. apply H.
  - apply destroy_ok in H as (H & _ & Ht). apply ec_destroy_cap in H. by constructor.
  - apply (keeps_ok ids_part) in H; [|apply add_components_keeps]. injection H as Hec _ Hog.
    by constructor; rewrite ?Hec.
  - apply (keeps_ok ids_part) in H; [|apply remove_components_keeps]. injection H as Hec _ Hog.
    by constructor; rewrite ?Hec.
  - apply (keeps_ok ids_part) in H; [|apply set_components_keeps]. injection H as Hec _ Hog.
    by constructor; rewrite ?Hec.
  - apply (keeps_ok ids_part) in H; [|apply query_write_keeps]. injection H as Hec _ Hog.
    by constructor; rewrite ?Hec.
  - apply (keeps_ok but_tags) in H; [|apply tag_keeps]. injection H as Hec _ Hog _ _. by constructor; rewrite ?Hec.
  - apply (keeps_ok but_tags) in H; [|apply tag_keeps]. injection H as Hec _ Hog _ _. by constructor; rewrite ?Hec.
  - pose proof H as H'. apply (keeps_ok but_orders) in H; [|apply (order_keeps c g e e)]. injection H as Hec _ _ _ _.
    apply zoom_ok in H' as (t' & H' & ->). by constructor.
  - pose proof H as H'. apply (keeps_ok but_orders) in H; [|apply order_keeps]. injection H as Hec _ _ _ _.
    apply zoom_ok in H' as (t' & H' & ->). by constructor.
  - pose proof H as H'. apply (keeps_ok but_orders) in H; [|apply order_keeps]. injection H as Hec _ _ _ _.
    apply zoom_ok in H' as (t' & H' & ->). by constructor.
  - pose proof H as H'. apply (keeps_ok but_orders) in H; [|apply (order_keeps c g e e)]. injection H as Hec _ _ _ _.
    apply zoom_ok in H' as (t' & H' & ->). by constructor.
Qed.
