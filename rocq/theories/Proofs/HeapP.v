(** HeapP.v — the calls made to the allocator. *)
From stdpp Require Import gmultiset.
From Verif.Model Require Export Heap.
From Verif.Spec Require Export Heap.
From Verif.Proofs Require Import UsageP.
Local Open Scope N_scope.

Global Instance lay_countable : Countable lay.
Proof. apply (inj_countable' (λ l, (la_size l, la_align l)) (λ x, Lay x.1 x.2)). by intros []. Qed.

(** ** Ownership of blocks *)
Notation blk := (N * lay)%type (only parsing).
Notation blks := (gmultiset (N * lay)) (only parsing).

(** Names are given out in order. *)
Fixpoint named (h : list ev) : Prop :=
  match h with
  | [] => True
  | EAlloc p _ :: r => p = N.of_nat (S (length r)) ∧ named r
  | EFree _ _ :: r => named r
  end.
(** The blocks in use are those of [B]. *)
Definition owns (h : list ev) (B : blks) : Prop :=
  named h ∧ ∃ m, in_use h = Some m ∧ (∀ p l, multiplicity (p, l) B = if bool_decide (m !! p = Some l) then 1%nat else 0%nat).

Lemma in_use_bound h : named h → ∀ m p l, in_use h = Some m → m !! p = Some l → p ≤ N.of_nat (length h).
Proof.
  induction h as [|[q l'|q l'] r IH]; simpl; intros Hn m p l Hm Hp.
  - injection Hm as <-. by rewrite lookup_empty in Hp.
  - destruct Hn as [-> Hn]. destruct (in_use r) as [m0|]; [|done]. simpl in Hm. case_bool_decide; [|done]. injection Hm as <-.
    destruct (decide (N.of_nat (S (length r)) = p)) as [<-|Hne]; [lia|]. rewrite lookup_insert_ne in Hp by done. specialize (IH Hn _ _ _ eq_refl Hp). lia.
  - destruct (in_use r) as [m0|]; [|done]. simpl in Hm. case_bool_decide; [|done]. injection Hm as <-.
    apply lookup_delete_Some in Hp as [_ Hp]. specialize (IH Hn _ _ _ eq_refl Hp). lia.
Qed.
Lemma owns_nil : owns [] ∅.
Proof. split; [done|]. exists ∅. split; [done|]. intros p l. rewrite multiplicity_empty, bool_decide_eq_false_2; [done|]. by rewrite lookup_empty. Qed.
Lemma owns_alloc h B l : owns h B → la_size l ≠ 0 →
  owns (EAlloc (N.of_nat (S (length h))) l :: h) ({[+ (N.of_nat (S (length h)), l) +]} ⊎ B).
Proof.
  intros (Hn & m & Hm & HB) Hl. split; [done|]. set (q := N.of_nat (S (length h))).
  assert (m !! q = None) as Hq. { destruct (m !! q) as [l'|] eqn:E; [|done]. pose proof (in_use_bound _ Hn _ _ _ Hm E). lia. }
  exists (<[q := l]> m). simpl. fold q. rewrite Hm. simpl. rewrite bool_decide_eq_true_2 by (split_and!; [done|lia|done]). split; [done|].
  intros p l'. rewrite multiplicity_disj_union, HB. destruct (decide (p = q)) as [->|Hne].
  - rewrite lookup_insert, Hq, (bool_decide_eq_false_2 (None = Some l')) by done. destruct (decide (l' = l)) as [->|Hne].
    + by rewrite multiplicity_singleton, bool_decide_eq_true_2.
    + rewrite multiplicity_singleton_ne, bool_decide_eq_false_2; [done|congruence..].
  - rewrite multiplicity_singleton_ne, lookup_insert_ne by congruence. done.
Qed.
Lemma owns_free h B p l : owns h ({[+ (p, l) +]} ⊎ B) → owns (EFree p l :: h) B.
Proof.
  intros (Hn & m & Hm & HB). split; [done|].
  assert (m !! p = Some l) as Hp.
  { specialize (HB p l). rewrite multiplicity_disj_union, multiplicity_singleton in HB. case_bool_decide; [done|lia]. }
  exists (delete p m). simpl. rewrite Hm. simpl. rewrite bool_decide_eq_true_2 by done. split; [done|]. intros q l'. specialize (HB q l').
  rewrite multiplicity_disj_union in HB. destruct (decide (q = p)) as [->|Hne].
  - rewrite lookup_delete, bool_decide_eq_false_2 by done. destruct (decide (l' = l)) as [->|Hne].
    + rewrite multiplicity_singleton, bool_decide_eq_true_2 in HB by done. lia.
    + rewrite multiplicity_singleton_ne, bool_decide_eq_false_2 in HB by congruence. lia.
  - rewrite multiplicity_singleton_ne in HB by congruence. rewrite lookup_delete_ne by done. lia.
Qed.
Lemma owns_allowed h B : owns h B → allowed h.
Proof. intros (_ & m & Hm & _). by exists m. Qed.
Lemma owns_in_use h m B : in_use h = Some m → owns h B → ∀ p l, m !! p = Some l ↔ (p, l) ∈ B.
Proof.
  intros Hm (_ & m' & Hm' & HB) p l. rewrite Hm in Hm'. injection Hm' as <-. rewrite elem_of_multiplicity, HB.
  case_bool_decide; split; try done; lia.
Qed.
Lemma owns_empty h : owns h ∅ → all_freed h.
Proof.
  intros Ho. pose proof Ho as (_ & m & Hm & _). unfold all_freed. rewrite Hm. f_equal. apply map_eq. intros p. rewrite lookup_empty.
  destruct (m !! p) as [l|] eqn:E; [|done]. apply (owns_in_use _ _ _ Hm Ho) in E. multiset_solver.
Qed.

(** Unions of blocks, up to associativity, commutativity and unit: both sides are turned into sorted lists of atoms. *)
Inductive uex := UAtom (n : nat) | UEmp | UUnion (x y : uex).
Fixpoint uflat (e : uex) : list nat := match e with UAtom n => [n] | UEmp => [] | UUnion x y => uflat x ++ uflat y end.
Fixpoint ueval (env : list blks) (e : uex) : blks :=
  match e with UAtom n => default ∅ (env !! n) | UEmp => ∅ | UUnion x y => ueval env x ⊎ ueval env y end.
Fixpoint uins (n : nat) (l : list nat) : list nat :=
  match l with [] => [n] | m :: r => if Nat.leb n m then n :: l else m :: uins n r end.
Definition usort (l : list nat) : list nat := foldr uins [] l.
Definition usum (env : list blks) (l : list nat) : blks := foldr (λ n B, default ∅ (env !! n) ⊎ B) ∅ l.
Lemma usum_app env l k : usum env (l ++ k) = usum env l ⊎ usum env k.
Proof. induction l as [|n l IH]; simpl; [multiset_solver|]. rewrite IH. multiset_solver. Qed.
Lemma ueval_flat env e : ueval env e = usum env (uflat e).
Proof. induction e as [n| |x IHx y IHy]; simpl; [multiset_solver|done|]. by rewrite usum_app, IHx, IHy. Qed.
Lemma usum_ins env n l : usum env (uins n l) = default ∅ (env !! n) ⊎ usum env l.
Proof. induction l as [|m l IH]; simpl; [done|]. destruct (Nat.leb n m); simpl; [done|]. rewrite IH. multiset_solver. Qed.
Lemma usum_sort env l : usum env (usort l) = usum env l.
Proof. induction l as [|n l IH]; simpl; [done|]. by rewrite usum_ins, IH. Qed.
Lemma ueval_eq env x y : usort (uflat x) = usort (uflat y) → ueval env x = ueval env y.
Proof. intros H. by rewrite !ueval_flat, <- (usum_sort env (uflat x)), H, usum_sort. Qed.
Ltac upos x env :=
  lazymatch env with
  | x :: _ => constr:(O)
  | _ :: ?r => let n := upos x r in constr:(S n)
  end.
Ltac umem x env := lazymatch env with [] => constr:(false) | x :: _ => constr:(true) | _ :: ?r => umem x r end.
Ltac uatoms e env :=
  lazymatch e with
  | ?x ⊎ ?y => let env := uatoms x env in uatoms y env
  | ∅ => env
  | _ => lazymatch umem e env with true => env | false => constr:(e :: env) end
  end.
Ltac ureify e env :=
  lazymatch e with
  | ?x ⊎ ?y => let a := ureify x env in let b := ureify y env in constr:(UUnion a b)
  | ∅ => constr:(UEmp)
  | _ => let n := upos e env in constr:(UAtom n)
  end.
Ltac ms :=
  cbv beta;
  lazymatch goal with |- ?x = ?y =>
    let env := uatoms x constr:(@nil blks) in let env := uatoms y env in
    let a := ureify x env in let b := ureify y env in
    change (ueval env a = ueval env b); apply ueval_eq; vm_compute; reflexivity
  end.

(** ** A program logic *)
Definition does {A : Type} (B : blks) (m : M (list ev) A) (B' : A → blks) (Q : A → Prop) : Prop :=
  ∀ F h, owns h (B ⊎ F) → ∃ h' a, m h = ROk h' a ∧ Q a ∧ owns h' (B' a ⊎ F).

Lemma does_ret {A : Type} (a : A) B B' (Q : A → Prop) : Q a → B = B' a → does B (mret a) B' Q.
Proof. intros HQ -> F h Ho. by exists h, a. Qed.
Lemma does_step {A C : Type} B1 R B (m : M (list ev) A) B1' Q1 (f : A → M (list ev) C) B' Q :
  does B1 m B1' Q1 → B = B1 ⊎ R → (∀ a, Q1 a → does (B1' a ⊎ R) (f a) B' Q) → does B (m ≫= f) B' Q.
Proof.
  intros Hm -> Hf F h Ho. destruct (Hm (R ⊎ F) h) as (h1 & a & Hrun & HQ & Ho1). { by rewrite gmultiset_disj_union_assoc. }
  destruct (Hf a HQ F h1) as (h2 & b & Hrun2 & HQ2 & Ho2). { by rewrite <- gmultiset_disj_union_assoc. }
  exists h2, b. split; [|done]. unfold mbind, M_bind. by rewrite Hrun.
Qed.
Lemma does_frame {A : Type} B1 R B (m : M (list ev) A) B1' Q B' :
  does B1 m B1' Q → B = B1 ⊎ R → (∀ a, Q a → B' a = B1' a ⊎ R) → does B m B' Q.
Proof.
  intros Hm -> HB F h Ho. destruct (Hm (R ⊎ F) h) as (h1 & a & Hrun & HQ & Ho1). { by rewrite gmultiset_disj_union_assoc. }
  exists h1, a. rewrite HB by done. by rewrite <- gmultiset_disj_union_assoc.
Qed.
Lemma does_conseq {A : Type} B (m : M (list ev) A) B1 B' (Q1 Q : A → Prop) :
  does B m B1 Q1 → (∀ a, Q1 a → Q a ∧ B' a = B1 a) → does B m B' Q.
Proof. intros Hm HB F h Ho. destruct (Hm F h Ho) as (h1 & a & Hrun & HQ & Ho1). exists h1, a. destruct (HB a HQ) as [? ->]. done. Qed.
Lemma does_lift {A C : Type} (p : pres A) a B (f : A → M (list ev) C) B' Q : p = POk a → does B (f a) B' Q → does B (lift p ≫= f) B' Q.
Proof. intros -> Hf F h Ho. destruct (Hf F h Ho) as (h1 & b & ? & ?). by exists h1, b. Qed.

Lemma does_alloc t n : t_size t * n ≠ 0 → does ∅ (mem_alloc t n) (λ p, {[+ (p, layout_of t n) +]}) (λ _, True).
Proof.
  intros Hn F h Ho. rewrite gmultiset_disj_union_left_id in Ho. eexists _, _. split; [reflexivity|]. split; [done|]. by apply owns_alloc.
Qed.
Lemma does_free t p n : does {[+ (p, layout_of t n) +]} (mem_dealloc t p n) (λ _, ∅) (λ _, True).
Proof.
  intros F h Ho. eexists _, _. split; [reflexivity|]. split; [done|]. rewrite gmultiset_disj_union_left_id. by apply owns_free.
Qed.
Lemma does_replace t p old new : t_size t * new ≠ 0 →
  does {[+ (p, layout_of t old) +]} (q ← mem_alloc t new; _ ← mem_dealloc t p old; mret q) (λ q, {[+ (q, layout_of t new) +]}) (λ _, True).
Proof.
  intros Hn. apply (does_step ∅ {[+ (p, layout_of t old) +]} _ _ _ _ _ _ _ (does_alloc t new Hn)); [ms|]. intros q _.
  apply (does_step _ {[+ (q, layout_of t new) +]} _ _ _ _ _ _ _ (does_free t p old)); [ms|]. intros [] _.
  apply does_ret; [done|]. ms.
Qed.
Lemma does_realloc t p old new : t_size t * new ≠ 0 →
  does {[+ (p, layout_of t old) +]} (mem_realloc t p old new) (λ q, {[+ (q, layout_of t new) +]}) (λ _, True).
Proof. intros Hn. unfold mem_realloc. destruct (N.eqb_spec old new) as [->|]; [by apply does_ret|]. by apply does_replace. Qed.
Definition bits (n : N) : lay := layout_of u32_t (bv_len n).
Lemma bits_pos n : t_size u32_t * bv_len n ≠ 0.
Proof. unfold bv_len, u32_t. cbn [t_size]. generalize (n / 32). lia. Qed.
Lemma size_pos t n : 0 < t_size t → 0 < n → t_size t * n ≠ 0.
Proof. lia. Qed.
Lemma does_bits_realloc p old new : does {[+ (p, bits old) +]} (bits_realloc p old new) (λ q, {[+ (q, bits new) +]}) (λ _, True).
Proof.
  unfold bits_realloc, bits. destruct (N.eqb_spec (bv_len old) (bv_len new)) as [->|]; [by apply does_ret|]. apply does_replace, bits_pos.
Qed.

(** unions over lists *)
Fixpoint bsum {A : Type} (f : A → blks) (l : list A) : blks := match l with [] => ∅ | x :: r => f x ⊎ bsum f r end.
Lemma bsum_app {A : Type} (f : A → blks) l k : bsum f (l ++ k) = bsum f l ⊎ bsum f k.
Proof. induction l as [|x l IH]; simpl; [ms|]. rewrite IH. ms. Qed.
Lemma bsum_split {A : Type} (f : A → blks) j l : bsum f l = bsum f (take j l) ⊎ bsum f (drop j l).
Proof. by rewrite <- bsum_app, take_drop. Qed.
Lemma does_each_replaced (f : N → M (list ev) N) (b b' : N → blks) ps : (∀ p, does (b p) (f p) b' (λ _, True)) →
  does (bsum b ps) (each_replaced f ps) (bsum b') (λ qs, length qs = length ps).
Proof.
  intros Hf. induction ps as [|p ps IH]; simpl; [by apply does_ret|].
  apply (does_step _ (bsum b ps) _ _ _ _ _ _ _ (Hf p)); [done|]. intros q _.
  apply (does_step _ (b' q) _ _ _ _ _ _ _ IH); [ms|]. intros qs Hl.
  apply does_ret; [simpl; by rewrite Hl|]. simpl. ms.
Qed.
Lemma does_each {A : Type} (f : A → M (list ev) unit) (b : A → blks) l : (∀ x, does (b x) (f x) (λ _, ∅) (λ _, True)) →
  does (bsum b l) (each f l) (λ _, ∅) (λ _, True).
Proof.
  intros Hf. induction l as [|x l IH]; simpl; [by apply does_ret|].
  apply (does_step _ (bsum b l) _ _ _ _ _ _ _ (Hf x)); [done|]. intros [] _.
  apply (does_frame _ ∅ _ _ _ _ _ IH); [ms|]. intros; ms.
Qed.

(** ** The blocks of each container *)
Definition ec_blk (cap : N) (k : ecp) : blks := {[+ (pe_ver k, layout_of u32_t cap) +]} ⊎ {[+ (pe_alive k, bits cap) +]}.
Definition tags_blk (cap : N) (ps : list N) : blks := bsum (λ p, {[+ (p, bits cap) +]}) ps.
Definition links_blk (cap : N) (ps : list N) : blks := bsum (λ p, {[+ (p, layout_of u32_t cap) +]}) ps.
Definition og_blk (cap : N) (k : ogp) : blks := links_blk cap (po_fwd k) ⊎ links_blk cap (po_bwd k).
Definition arch_blk (n : N) (k : archp) : blks :=
  {[+ (pa_ids k, layout_of tid_t n) +]} ⊎ {[+ (pa_sizes k, layout_of usize_t n) +]} ⊎
  {[+ (pa_aligns k, layout_of usize_t n) +]} ⊎ {[+ (pa_names k, layout_of str_t n) +]}.
Definition archs_blk (l : list archetype) (ks : list archp) : blks := bsum (λ x, arch_blk (arch_count x.1) x.2) (zip l ks).
Definition lay_blk (x : layout * N) : blks := {[+ (x.2, layout_of usize_t (layout_count x.1)) +]}.
Definition pages_blk (ps : list N) : blks := bsum (λ p, {[+ (p, layout_of u8_t PAGE) +]}) ps.
Definition ac_blk (s : ac) (k : acp) : blks :=
  archs_blk (ac_archs s) (pc_archs k) ⊎ bsum lay_blk (zip (ac_layouts s) (pc_layouts k)) ⊎ pages_blk (pc_pages k).
Definition st_blk (s : store) (k : stp) : blks :=
  ec_blk (ec_cap (st_ec s)) (ps_ec k) ⊎ ac_blk (st_ac s) (ps_ac k) ⊎ tags_blk (tg_cap (st_tags s)) (ps_tags k) ⊎
  og_blk (og_cap (st_orders s)) (ps_orders k) ⊎ {[+ (ps_page k, layout_of u32_t (ec_cap (st_ec s))) +]} ⊎
  {[+ (ps_idx k, layout_of u32_t (ec_cap (st_ec s))) +]} ⊎ {[+ (ps_has k, bits (ec_cap (st_ec s))) +]}.

(** entities *)
Lemma does_ec_new cap : 0 < cap → does ∅ (m_ec_new cap) (ec_blk cap) (λ _, True).
Proof.
  intros Hc. apply (does_step ∅ ∅ _ _ _ _ _ _ _ (does_alloc u32_t cap (size_pos u32_t cap eq_refl Hc))); [ms|]. intros v _.
  apply (does_step ∅ {[+ (v, layout_of u32_t cap) +]} _ _ _ _ _ _ _ (does_alloc u32_t (bv_len cap) (bits_pos cap))); [ms|]. intros a _.
  apply does_ret; [done|]. unfold ec_blk, bits. simpl. ms.
Qed.
Lemma does_ec_grow s new k : does (ec_blk (ec_cap s) k) (m_ec_grow s new k) (ec_blk (N.max new (ec_cap s))) (λ _, True).
Proof.
  unfold m_ec_grow. destruct (N.leb_spec new (ec_cap s)) as [Hle|Hlt].
  - apply does_ret; [done|]. by rewrite N.max_r.
  - rewrite N.max_l by lia. unfold mem_realloc_zeroing.
    apply (does_step _ {[+ (pe_alive k, bits (ec_cap s)) +]} _ _ _ _ _ _ _ (does_replace u32_t (pe_ver k) (ec_cap s) new (size_pos u32_t new eq_refl ltac:(lia)))); [done|]. intros v _.
    apply (does_step _ {[+ (v, layout_of u32_t new) +]} _ _ _ _ _ _ _ (does_bits_realloc (pe_alive k) (ec_cap s) new)); [ms|]. intros a _.
    apply does_ret; [done|]. unfold ec_blk. simpl. ms.
Qed.
Lemma ec_grow_cap new s s' u : ec_grow new s = ROk s' u → ec_cap s' = N.max new (ec_cap s).
Proof.
  unfold ec_grow. intros H. apply bind_ok in H as (s0 & x & [-> ->]%get_ok & H). destruct (N.leb_spec new (ec_cap s)) as [Hle|Hlt].
  - inv1 H. by rewrite N.max_r.
  - inv1 H. simpl. by rewrite N.max_l by lia.
Qed.
Lemma does_ec_create md s s1 cr k : ec_create md s = ROk s1 cr →
  cr_before cr = ec_cap s ∧ cr_after cr = ec_cap s1 ∧ ec_cap s ≤ ec_cap s1 ∧
  does (ec_blk (ec_cap s) k) (m_ec_create s k) (ec_blk (ec_cap s1)) (λ _, True).
Proof.
  unfold ec_create, m_ec_create. intros H. apply bind_ok in H as (s0 & x & [-> ->]%get_ok & H).
  apply bind_ok in H as (s2 & id & Hid & H). inv1 H. cbn [cr_before cr_after ec_cap ec_set_ver ec_set_alive]. 
  destruct (last (ec_gaps s)) as [g|].
  - inv1 Hid. simpl. split_and!; try done. by apply does_ret.
  - apply bind_ok in Hid as (s3 & nf & [_ ->]%lift_ok & Hid). apply bind_ok in Hid as (s3 & [] & ->%mod_ok & Hid).
    apply bind_ok in Hid as (s3 & [] & Hg & Hid). inv1 Hid. destruct (will_grow_with_id s (ec_next s)).
    + apply ec_grow_cap in Hg. simpl in Hg. rewrite Hg. split_and!; try done; [lia|]. apply does_ec_grow.
    + inv1 Hg. simpl. split_and!; try done. by apply does_ret.
Qed.
Lemma does_ec_drop s k : does (ec_blk (ec_cap s) k) (m_ec_drop s k) (λ _, ∅) (λ _, True).
Proof.
  apply (does_step _ {[+ (pe_ver k, layout_of u32_t (ec_cap s)) +]} _ _ _ _ _ _ _ (does_free u32_t (pe_alive k) (bv_len (ec_cap s)))).
  - unfold ec_blk, bits. ms.
  - intros [] _. apply (does_frame _ ∅ _ _ _ _ _ (does_free u32_t (pe_ver k) (ec_cap s))); [ms|]. intros; ms.
Qed.

(** tags *)
Lemma does_tags_add c s t id s' ps : tags_add c t id s = ROk s' tt → length ps = length (tg_bvs s) →
  tg_cap s' = tg_cap s ∧
  does (tags_blk (tg_cap s) ps) (m_tags_add c s t ps) (tags_blk (tg_cap s)) (λ ps', length ps' = length (tg_bvs s')).
Proof.
  unfold tags_add, m_tags_add. intros H Hl. apply bind_ok in H as (s0 & x & [-> ->]%get_ok & H). apply bind_ok in H as (s1 & i & Hi & H).
  inv1 H. cbn [tg_cap tg_bvs]. rewrite insert_length. destruct (c_bs c (tg_ids s) t) as [j|j].
  - inv1 Hi. split; [done|]. by apply does_ret.
  - inv1 Hi. cbn [tg_cap tg_bvs] in *. split; [done|].
    match goal with E : vinsert (tg_bvs s) _ _ = _ |- _ => unfold vinsert in E; case_match eqn:Hle; [|done]; injection E as <- end.
    rewrite app_length, take_length, cons_length, drop_length. apply Nat.leb_le in Hle.
    eapply (does_step ∅ (tags_blk (tg_cap s) ps) _ _ _ _ _ _ _ (does_alloc u32_t (bv_len (tg_cap s)) (bits_pos _))); [ms|]. intros p _.
    intros F h Ho. unfold vinsert. rewrite Hl, (proj2 (Nat.leb_le _ _) Hle). eexists _, _. split; [reflexivity|]. split.
    + rewrite app_length, take_length, cons_length, drop_length. lia.
    + unfold tags_blk in *. rewrite bsum_app. simpl. rewrite (bsum_split _ j ps) in Ho. fold (bits (tg_cap s)) in Ho.
      match goal with Ho : owns _ ?X |- owns _ ?Y => replace Y with X; [exact Ho|] end. ms.
Qed.
Lemma does_tags_grow s new ps :
  does (tags_blk (tg_cap s) ps) (m_tags_grow s new ps) (tags_blk new) (λ qs, length qs = length ps).
Proof. apply does_each_replaced. intros p. apply does_bits_realloc. Qed.
Lemma does_tags_drop s ps : does (tags_blk (tg_cap s) ps) (m_tags_drop s ps) (λ _, ∅) (λ _, True).
Proof. apply does_each. intros p. apply does_free. Qed.

(** orders *)
Definition og_fits (s : orders) (k : ogp) : Prop := length (po_fwd k) = length (og_fwd s) ∧ length (po_bwd k) = length (po_fwd k).
Lemma does_reserve_group c s t s' i k : reserve_group c t s = ROk s' i → og_fits s k → 0 < og_cap s →
  og_cap s' = og_cap s ∧
  does (og_blk (og_cap s) k) (m_reserve_group c s t k) (og_blk (og_cap s)) (og_fits s').
Proof.
  unfold reserve_group, m_reserve_group. intros H [Hf Hb] Hc. apply bind_ok in H as (s0 & x & [-> ->]%get_ok & H).
  destruct (c_bs c (og_ids s) t) as [j|j].
  - inv1 H. split; [done|]. by apply does_ret.
  - inv1 H. cbn [og_cap]. split; [done|].
    match goal with E : vinsert (og_fwd s) _ _ = _ |- _ => unfold vinsert in E; case_match eqn:Hle; [|done]; injection E as <- end.
    apply Nat.leb_le in Hle.
    eapply (does_step ∅ (og_blk (og_cap s) k) _ _ _ _ _ _ _ (does_alloc u32_t (og_cap s) (size_pos u32_t _ eq_refl Hc))); [ms|]. intros f _.
    eapply (does_step ∅ ({[+ (f, layout_of u32_t (og_cap s)) +]} ⊎ og_blk (og_cap s) k) _ _ _ _ _ _ _ (does_alloc u32_t (og_cap s) (size_pos u32_t _ eq_refl Hc))); [ms|]. intros b _.
    eapply does_lift. { unfold vinsert. by rewrite Hf, (proj2 (Nat.leb_le _ _) Hle). }
    eapply does_lift. { unfold vinsert. by rewrite Hb, Hf, (proj2 (Nat.leb_le _ _) Hle). }
    apply does_ret.
    + unfold og_fits. cbn [po_fwd po_bwd og_fwd]. rewrite !app_length, !take_length, !cons_length, !drop_length. lia.
    + unfold og_blk, links_blk. cbn [po_fwd po_bwd]. rewrite !bsum_app. simpl.
      rewrite (bsum_split _ j (po_fwd k)), (bsum_split _ j (po_bwd k)). ms.
Qed.
Lemma does_orders_grow s new k : og_fits s k → 0 < new →
  does (og_blk (og_cap s) k) (m_orders_grow s new k) (og_blk new) (og_fits s).
Proof.
  intros [Hf Hb] Hn. unfold m_orders_grow.
  assert (does (og_blk (og_cap s) k) (m_orders_grow_loop (og_cap s) new (po_bwd k) (po_fwd k)) (λ r, og_blk new (OGP r.2 r.1))
    (λ r, length r.2 = length (po_fwd k) ∧ length r.1 = length (po_fwd k))) as Hl.
  { destruct k as [fs bs]. cbn [po_fwd po_bwd] in *. clear Hf. revert bs Hb. induction fs as [|f fs IH]; intros [|b bs] Hb; try done; simpl.
    { by apply does_ret. }
    injection Hb as Hb. specialize (IH _ Hb).
    apply (does_step _ ({[+ (f, layout_of u32_t (og_cap s)) +]} ⊎ og_blk (og_cap s) (OGP fs bs)) _ _ _ _ _ _ _ (does_realloc u32_t b (og_cap s) new (size_pos u32_t _ eq_refl Hn))).
    { unfold og_blk, links_blk. simpl. ms. }
    intros b' _.
    apply (does_step _ ({[+ (b', layout_of u32_t new) +]} ⊎ og_blk (og_cap s) (OGP fs bs)) _ _ _ _ _ _ _ (does_realloc u32_t f (og_cap s) new (size_pos u32_t _ eq_refl Hn))); [ms|].
    intros f' _.
    apply (does_step _ ({[+ (b', layout_of u32_t new) +]} ⊎ {[+ (f', layout_of u32_t new) +]}) _ _ _ _ _ _ _ IH); [ms|].
    intros [x y] [Hx Hy]. simpl in *. apply does_ret; simpl; [lia|]. unfold og_blk, links_blk. simpl. ms. }
  apply (does_step _ ∅ _ _ _ _ _ _ _ Hl); [ms|]. intros [x y] [Hx Hy]. simpl in *.
  apply does_ret; [|ms]. unfold og_fits. simpl. lia.
Qed.
Lemma links_zip cap bs : ∀ fs, length bs = length fs →
  links_blk cap fs ⊎ links_blk cap bs = bsum (λ x, {[+ (x.1, layout_of u32_t cap) +]} ⊎ {[+ (x.2, layout_of u32_t cap) +]}) (zip bs fs).
Proof.
  induction bs as [|b bs IH]; intros [|f fs] Hl; try done; simpl; [unfold links_blk; simpl; ms|]. rewrite <- IH by (simpl in *; lia).
  unfold links_blk. simpl. ms.
Qed.
Lemma does_orders_drop s k : length (po_bwd k) = length (po_fwd k) → does (og_blk (og_cap s) k) (m_orders_drop s k) (λ _, ∅) (λ _, True).
Proof.
  intros Hl. unfold og_blk. rewrite links_zip by done. apply does_each. intros [b f]. simpl.
  apply (does_step _ {[+ (f, layout_of u32_t (og_cap s)) +]} _ _ _ _ _ _ _ (does_free u32_t b (og_cap s))); [done|]. intros [] _.
  apply (does_frame _ ∅ _ _ _ _ _ (does_free u32_t f (og_cap s))); [ms|]. intros; ms.
Qed.

(** archetypes, layouts, pages *)
Lemma does_arch_new n : 0 < n → does ∅ (m_arch_new n) (arch_blk n) (λ _, True).
Proof.
  intros Hn.
  apply (does_step ∅ ∅ _ _ _ _ _ _ _ (does_alloc tid_t n (size_pos tid_t n eq_refl Hn))); [ms|]. intros a _.
  apply (does_step ∅ {[+ (a, layout_of tid_t n) +]} _ _ _ _ _ _ _ (does_alloc usize_t n (size_pos usize_t n eq_refl Hn))); [ms|]. intros b _.
  apply (does_step ∅ ({[+ (a, layout_of tid_t n) +]} ⊎ {[+ (b, layout_of usize_t n) +]}) _ _ _ _ _ _ _ (does_alloc usize_t n (size_pos usize_t n eq_refl Hn))); [ms|]. intros d _.
  apply (does_step ∅ ({[+ (a, layout_of tid_t n) +]} ⊎ {[+ (b, layout_of usize_t n) +]} ⊎ {[+ (d, layout_of usize_t n) +]}) _ _ _ _ _ _ _ (does_alloc str_t n (size_pos str_t n eq_refl Hn))); [ms|]. intros e _.
  apply does_ret; [done|]. unfold arch_blk. simpl. ms.
Qed.
Lemma does_arch_drop n k : does (arch_blk n k) (m_arch_drop k n) (λ _, ∅) (λ _, True).
Proof.
  unfold arch_blk. destruct k as [a b d e]. cbn [pa_ids pa_sizes pa_aligns pa_names]. unfold m_arch_drop.
  eapply (does_step _ ({[+ (b, layout_of usize_t n) +]} ⊎ {[+ (d, layout_of usize_t n) +]} ⊎ {[+ (e, layout_of str_t n) +]}) _ _ _ _ _ _ _ (does_free tid_t a n)); [ms|]. intros _ _.
  eapply (does_step _ ({[+ (d, layout_of usize_t n) +]} ⊎ {[+ (e, layout_of str_t n) +]}) _ _ _ _ _ _ _ (does_free usize_t b n)); [ms|]. intros _ _.
  eapply (does_step _ {[+ (e, layout_of str_t n) +]} _ _ _ _ _ _ _ (does_free usize_t d n)); [ms|]. intros _ _.
  apply (does_frame _ ∅ _ _ _ _ _ (does_free str_t e n)); [ms|]. intros; ms.
Qed.
Lemma does_page_new : does ∅ m_page_new (λ p, pages_blk [p]) (λ _, True).
Proof.
  eapply does_conseq; [apply (does_alloc u8_t PAGE); by vm_compute|]. intros p _. split; [done|]. unfold pages_blk. simpl. ms.
Qed.

Lemma bsum_lookup {A : Type} (f : A → blks) l i x : l !! i = Some x →
  ∃ R, bsum f l = f x ⊎ R ∧ ∀ y, bsum f (<[i := y]> l) = f y ⊎ R.
Proof.
  intros Hi. exists (bsum f (take i l) ⊎ bsum f (drop (S i) l)). split.
  - rewrite <- (take_drop_middle l i x Hi) at 1. rewrite bsum_app. simpl. ms.
  - intros y. rewrite insert_take_drop by (by eapply lookup_lt_Some). rewrite bsum_app. simpl. ms.
Qed.
Lemma zip_lookup {A B : Type} (l : list A) (k : list B) i x y : l !! i = Some x → k !! i = Some y → zip l k !! i = Some (x, y).
Proof. intros Hx Hy. rewrite lookup_zip_with, Hx. simpl. by rewrite Hy. Qed.
Lemma zip_snoc {A B : Type} (l : list A) (k : list B) x y : length l = length k → zip (l ++ [x]) (k ++ [y]) = zip l k ++ [(x, y)].
Proof. intros Hl. by rewrite zip_with_app. Qed.

Definition ac_fits (s : ac) (k : acp) : Prop :=
  length (pc_archs k) = length (ac_archs s) ∧ length (pc_layouts k) = length (ac_layouts s).
(** what the blocks depend on *)
Definition afoot (s : ac) := (ac_archs s, ac_layouts s).
Lemma ac_blk_foot s s' k : afoot s' = afoot s → ac_blk s' k = ac_blk s k.
Proof. intros [= H1 H2]. unfold ac_blk. by rewrite H1, H2. Qed.
Lemma ac_fits_foot s s' k : afoot s' = afoot s → ac_fits s k → ac_fits s' k.
Proof. intros [= H1 H2]. unfold ac_fits. by rewrite H1, H2. Qed.

Lemma offsets_length a cap : ∀ o os e, calc_offsets_loop a cap o = (os, e) → length os = length a.
Proof.
  induction a as [|x a IH]; intros o os e; simpl; [by intros [= <- <-]|]. destruct (calc_offsets_loop a cap _) as [os' e'] eqn:E.
  intros [= <- <-]. simpl. f_equal. by eapply IH.
Qed.
Lemma layout_new_count md a ly : layout_new md a = POk ly → 0 < arch_count a ∧ layout_count ly = arch_count a.
Proof.
  intros (Hc & e & He & _)%layout_new_inv. unfold layout_count, arch_count. rewrite (offsets_length _ _ _ _ _ He). split; [|done].
  destruct a; [by unfold calc_capacity in Hc|simpl; lia].
Qed.
Lemma does_reserve_archetype c a s s1 ai k : reserve_archetype c a s = ROk s1 ai → ac_fits s k →
  does (ac_blk s k) (m_reserve_archetype a s k) (ac_blk s1) (ac_fits s1).
Proof.
  unfold reserve_archetype, m_reserve_archetype. intros H [Ha Hl]. apply bind_ok in H as (s0 & x & [-> ->]%get_ok & H).
  destruct (find_arch (ac_archs s) 0 a) as [j|].
  { assert (afoot s1 = afoot s) as Hf. { destruct (c_bs c _ _); by inv1 H. } apply does_ret; [by apply (ac_fits_foot s)|by rewrite (ac_blk_foot _ _ _ Hf)]. }
  apply bind_ok in H as (s2 & ly & [Hly ->]%lift_ok & H). apply layout_new_count in Hly as [Hn Hc].
  apply (does_step ∅ (ac_blk s k) _ _ _ _ _ _ _ (does_alloc usize_t (arch_count a) (size_pos usize_t _ eq_refl Hn))); [ms|]. intros l _.
  apply (does_step ∅ ({[+ (l, layout_of usize_t (arch_count a)) +]} ⊎ ac_blk s k) _ _ _ _ _ _ _ (does_arch_new _ Hn)); [ms|]. intros n _.
  destruct (last (ac_free_archs s)) as [i|].
  - apply bind_ok in H as (s2 & [] & ->%mod_ok & H). apply bind_ok in H as (s2 & ar & [[Hk ->]%vset_inv ->]%lift_ok & H).
    apply bind_ok in H as (s2 & [] & ->%mod_ok & H). apply bind_ok in H as (s2 & ls & [[Hk' ->]%vset_inv ->]%lift_ok & H).
    apply bind_ok in H as (s2 & [] & ->%mod_ok & H). apply ret_ok in H as [-> ->].
    destruct (lookup_lt_is_Some_2 _ _ Hk) as [old Hold]. destruct (lookup_lt_is_Some_2 _ _ Hk') as [oldl Holdl].
    destruct (lookup_lt_is_Some_2 (pc_archs k) i) as [oldp Holdp]; [lia|]. destruct (lookup_lt_is_Some_2 (pc_layouts k) i) as [oldlp Holdlp]; [lia|].
    eapply does_lift. { unfold vidx. by rewrite Hold. } eapply does_lift. { unfold vidx. by rewrite Holdp. }
    destruct (bsum_lookup (λ x, arch_blk (arch_count x.1) x.2) _ _ _ (zip_lookup _ _ _ _ _ Hold Holdp)) as (R1 & HR1 & HR1').
    destruct (bsum_lookup lay_blk _ _ _ (zip_lookup _ _ _ _ _ Holdl Holdlp)) as (R2 & HR2 & HR2').
    eapply (does_step _ (arch_blk (arch_count a) n ⊎ {[+ (l, layout_of usize_t (arch_count a)) +]} ⊎ R1 ⊎
      bsum lay_blk (zip (ac_layouts s) (pc_layouts k)) ⊎ pages_blk (pc_pages k)) _ _ _ _ _ _ _ (does_arch_drop (arch_count old) oldp)).
    { unfold ac_blk, archs_blk. rewrite HR1. simpl. ms. }
    intros [] _. eapply does_lift. { unfold vidx. simpl. by rewrite Holdl. } eapply does_lift. { unfold vidx. by rewrite Holdlp. }
    eapply (does_step _ (arch_blk (arch_count a) n ⊎ {[+ (l, layout_of usize_t (arch_count a)) +]} ⊎ R1 ⊎ R2 ⊎ pages_blk (pc_pages k)) _ _ _ _ _ _ _ (does_free usize_t oldlp (layout_count oldl))).
    { rewrite HR2. unfold lay_blk. simpl. ms. }
    intros [] _. apply does_ret. { split; simpl; by rewrite !insert_length. }
    unfold ac_blk, archs_blk. cbn [ac_archs ac_layouts ac_set_archs ac_set_layouts ac_set_free_archs pc_archs pc_layouts pc_pages].
    rewrite <- !insert_zip_with, HR1', HR2'. unfold lay_blk. cbn [fst snd]. rewrite Hc. ms.
  - inv1 H. apply does_ret. { split; simpl; rewrite !app_length; simpl; lia. }
    unfold ac_blk, archs_blk. cbn [ac_archs ac_layouts ac_set_archs ac_set_layouts ac_set_pages_of pc_archs pc_layouts pc_pages].
    rewrite !zip_snoc, !bsum_app by done. simpl. unfold lay_blk at 3. cbn [fst snd]. rewrite Hc. ms.
Qed.

Lemma free_page_keeps p : keeps afoot (free_page p).
Proof. unfold free_page. keeps. Qed.
Lemma ac_page_add_keeps c p id : keeps afoot (ac_page_add c p id).
Proof. unfold ac_page_add. keeps. Qed.
Lemma ac_swap_remove_keeps l : keeps afoot (ac_swap_remove l).
Proof. unfold ac_swap_remove. keeps. all: first [apply free_page_keeps|idtac]. Qed.
Lemma does_reserve_page c id ai s s' l k : reserve_page c id ai s = ROk s' l → ac_fits s k →
  does (ac_blk s k) (m_reserve_page ai s k) (ac_blk s') (ac_fits s').
Proof.
  unfold reserve_page, m_reserve_page. intros H Hk. apply bind_ok in H as (s0 & x & [-> ->]%get_ok & H).
  apply bind_ok in H as (s2 & ps & [Hps ->]%lift_ok & H). apply bind_ok in H as (s2 & room & [Hroom ->]%lift_ok & H).
  eapply does_lift; [done|]. eapply does_lift; [done|]. destruct room as [pi|].
  { apply (keeps_ok afoot) in H; [|apply ac_page_add_keeps]. apply does_ret; [by apply (ac_fits_foot s)|by rewrite (ac_blk_foot _ _ _ H)]. }
  assert (afoot s' = afoot s) as Hf.
  { apply bind_ok in H as (s2 & pi & Hpi & H). assert (afoot s2 = afoot s) as <-. { destruct (last (ac_free_pages s)); by inv1 Hpi. }
    revert H. apply keeps_ok. keeps. }
  destruct (last (ac_free_pages s)).
  - apply does_ret; [by apply (ac_fits_foot s)|by rewrite (ac_blk_foot _ _ _ Hf)].
  - apply (does_step ∅ (ac_blk s k) _ _ _ _ _ _ _ does_page_new); [ms|]. intros p _. apply does_ret.
    + by apply (ac_fits_foot s).
    + rewrite (ac_blk_foot _ _ _ Hf). unfold ac_blk, pages_blk. simpl. rewrite bsum_app. simpl. ms.
Qed.
Lemma does_add_entity c a id s s1 ai s2 l k : reserve_archetype c a s = ROk s1 ai → reserve_page c id ai s1 = ROk s2 l → ac_fits s k →
  does (ac_blk s k) (m_add_entity c a s k) (ac_blk s2) (ac_fits s2).
Proof.
  intros H1 H2 Hk. unfold m_add_entity. rewrite H1.
  apply (does_step _ ∅ _ _ _ _ _ _ _ (does_reserve_archetype _ _ _ _ _ _ H1 Hk)); [ms|]. intros k1 Hk1.
  apply (does_frame _ ∅ _ _ _ _ _ (does_reserve_page _ _ _ _ _ _ _ H2 Hk1)); [ms|]. intros; ms.
Qed.
Lemma does_ac_new : does ∅ m_ac_new (ac_blk ac_new) (ac_fits ac_new).
Proof.
  apply (does_step ∅ ∅ _ _ _ _ _ _ _ does_page_new); [ms|]. intros a _.
  apply (does_step ∅ (pages_blk [a]) _ _ _ _ _ _ _ does_page_new); [ms|]. intros b _.
  apply (does_step ∅ (pages_blk [a] ⊎ pages_blk [b]) _ _ _ _ _ _ _ does_page_new); [ms|]. intros d _.
  apply (does_step ∅ (pages_blk [a] ⊎ pages_blk [b] ⊎ pages_blk [d]) _ _ _ _ _ _ _ does_page_new); [ms|]. intros e _.
  apply (does_step ∅ (pages_blk [a] ⊎ pages_blk [b] ⊎ pages_blk [d] ⊎ pages_blk [e]) _ _ _ _ _ _ _ does_page_new); [ms|]. intros f _.
  apply does_ret; [done|]. unfold ac_blk, archs_blk, pages_blk. simpl. ms.
Qed.
Lemma does_ac_drop s k : does (ac_blk s k) (m_ac_drop s k) (λ _, ∅) (λ _, True).
Proof.
  eapply (does_step _ (bsum lay_blk (zip (ac_layouts s) (pc_layouts k)) ⊎ pages_blk (pc_pages k))).
  { apply (does_each _ (λ x : archetype * archp, arch_blk (arch_count x.1) x.2)). intros x. apply does_arch_drop. }
  { unfold ac_blk, archs_blk. ms. }
  intros [] _. eapply (does_step _ (pages_blk (pc_pages k))).
  { apply (does_each _ lay_blk). intros x. apply does_free. }
  { ms. }
  intros [] _. eapply (does_frame _ ∅).
  { apply (does_each _ (λ p, {[+ (p, layout_of u8_t PAGE) +]})). intros x. apply does_free. }
  { unfold pages_blk. ms. }
  intros; ms.
Qed.

(** ** The store *)
Definition st_fits (s : store) (k : stp) : Prop :=
  0 < ec_cap (st_ec s) ∧ 0 < og_cap (st_orders s) ∧ ac_fits (st_ac s) (ps_ac k) ∧
  length (ps_tags k) = length (tg_bvs (st_tags s)) ∧ og_fits (st_orders s) (ps_orders k).
(** what the blocks depend on *)
Definition tfoot (s : tags) := (tg_cap s, length (tg_bvs s)).
Definition ofoot (s : orders) := (og_cap s, length (og_fwd s)).
Definition foot (s : store) := (ec_cap (st_ec s), afoot (st_ac s), tfoot (st_tags s), ofoot (st_orders s)).
Lemma st_same s s' k : foot s' = foot s → st_fits s k → st_fits s' k ∧ st_blk s' k = st_blk s k.
Proof.
  intros Hf. unfold foot, afoot, tfoot, ofoot in Hf. injection Hf as H1 H2 H3 H4 H5 H6 H7.
  unfold st_fits, st_blk, ac_fits, ac_blk, og_fits. by rewrite H1, H2, H3, H4, H5, H6, H7.
Qed.
Lemma keeps_part {S T X Y A} (π : S → X) (ρ : T → Y) (get : S → T) put (m : M T A) :
  keeps ρ m → (∀ t s, ρ t = ρ (get s) → π (put t s) = π s) → keeps π (zoom get put m).
Proof. intros Hm Hp s. unfold zoom. specialize (Hm (get s)). destruct (m (get s)); simpl in *; auto. Qed.
Lemma on_ac_keeps {A} (m : M ac A) : keeps afoot m → keeps foot (on_ac m).
Proof. intros Hm. apply (keeps_part _ afoot); [done|]. intros t s Ht. unfold foot. simpl. by rewrite Ht. Qed.
Lemma set_page_foot id p : keeps foot (set_page_index id p).
Proof. unfold set_page_index. keeps. Qed.
Lemma set_idx_foot id p : keeps foot (set_index_in_page id p).
Proof. unfold set_index_in_page. keeps. Qed.
Lemma disable_foot id : keeps foot (disable_archetype id).
Proof. unfold disable_archetype. keeps. Qed.
Lemma set_location_foot id l : keeps foot (set_location id l).
Proof. unfold set_location, set_page_index, set_index_in_page, enable_archetype. keeps. Qed.
Lemma swap_remove_foot l : keeps foot (swap_remove_internal l).
Proof.
  unfold swap_remove_internal. apply keeps_bind; [apply on_ac_keeps, ac_swap_remove_keeps|]. intros [id|]; [apply set_idx_foot|apply keeps_ret].
Qed.

Lemma bvs_map_length f l : ∀ l', bvs_map f l = POk l' → length l' = length l.
Proof. induction l as [|v l IH]; intros l'; simpl; [by intros [= <-]|]. intros (v' & _ & H)%pbind_ok. apply pbind_ok in H as (r & Hr & [= <-]). simpl. f_equal. by apply IH. Qed.
Lemma links_grow_length l old new : ∀ l', links_grow_all l old new = POk l' → length l' = length l.
Proof. induction l as [|v l IH]; intros l'; simpl; [by intros [= <-]|]. intros (v' & _ & H)%pbind_ok. apply pbind_ok in H as (r & Hr & [= <-]). simpl. f_equal. by apply IH. Qed.
Lemma grp_keeps {A} i (m : M grp A) : keeps ofoot (with_grp i m).
Proof.
  intros s. unfold with_grp, zoom. destruct (grp_at s i) as [g|]; [|done]. unfold ofoot, grp_put. destruct (m g); simpl; by rewrite ?insert_length.
Qed.
Lemma orders_remove_all_keeps id : keeps ofoot (orders_remove_all id).
Proof.
  unfold orders_remove_all. apply keeps_bind_get. intros s0. generalize (seq 0 (length (og_ids s0))). intros is.
  induction is as [|i is IH]; simpl; [apply keeps_ret|]. apply keeps_bind; [apply grp_keeps|done].
Qed.
Lemma tags_remove_all_foot id s s' u : tags_remove_all id s = ROk s' u → tfoot s' = tfoot s.
Proof. unfold tags_remove_all. intros H. inv1 H. unfold tfoot. simpl. by erewrite bvs_map_length. Qed.
Lemma tags_remove_foot c t id s s' u : tags_remove c t id s = ROk s' u → tfoot s' = tfoot s.
Proof.
  unfold tags_remove. intros H. apply bind_ok in H as (s0 & x & [-> ->]%get_ok & H). destruct (c_bs c _ _); inv1 H; [|done].
  unfold tfoot. simpl. by rewrite insert_length.
Qed.
Lemma ec_destroy_cap md e s s' u : ec_destroy md e s = ROk s' u → ec_cap s' = ec_cap s.
Proof.
  unfold ec_destroy. intros H. apply (keeps_ok ec_cap) in H; [done|]. keeps.
Qed.
Lemma destroy_foot c e s s' u : destroy_entity c e s = ROk s' u → foot s' = foot s.
Proof.
  unfold destroy_entity. intros H. apply bind_ok in H as (s0 & x & [-> ->]%get_ok & H). apply bind_ok in H as (s1 & has & [_ ->]%lift_ok & H).
  apply bind_ok in H as (s1 & [] & H1 & H). apply bind_ok in H as (s2 & [] & H2 & H). apply bind_ok in H as (s3 & [] & H3 & H4).
  transitivity (foot s1).
  - apply zoom_ok in H2 as (t2 & H2%ec_destroy_cap & ->). apply zoom_ok in H3 as (t3 & H3%tags_remove_all_foot & ->). apply zoom_ok in H4 as (t4 & H4 & ->).
    apply (keeps_ok ofoot) in H4; [|apply orders_remove_all_keeps].
    unfold foot. simpl in *. congruence.
  - destruct has; [|by inv1 H1]. apply bind_ok in H1 as (s4 & l & [_ ->]%lift_ok & H1). by apply (keeps_ok foot) in H1; [|apply swap_remove_foot].
Qed.

Lemma does_register c s s1 e k : register_new_entity c s = ROk s1 e → st_fits s k →
  does (st_blk s k) (m_register c s k) (st_blk s1) (st_fits s1).
Proof.
  intros H (Hc & Ho & Ha & Ht & Hg). unfold register_new_entity in H. apply bind_ok in H as (s2 & cr & (t & Hcr & ->)%zoom_ok & H).
  apply bind_ok in H as (s3 & [] & Hgr & H). apply ret_ok in H as [-> ->].
  unfold m_register. rewrite Hcr. destruct (does_ec_create _ _ _ _ (ps_ec k) Hcr) as (Hb & Haf & Hle & Hd). rewrite Hb.
  apply (does_step _ (ac_blk (st_ac s) (ps_ac k) ⊎ tags_blk (tg_cap (st_tags s)) (ps_tags k) ⊎ og_blk (og_cap (st_orders s)) (ps_orders k) ⊎
    {[+ (ps_page k, layout_of u32_t (ec_cap (st_ec s))) +]} ⊎ {[+ (ps_idx k, layout_of u32_t (ec_cap (st_ec s))) +]} ⊎
    {[+ (ps_has k, bits (ec_cap (st_ec s))) +]}) _ _ _ _ _ _ _ Hd).
  { unfold st_blk. ms. }
  intros e1 _. unfold container_was_grow in *. rewrite Haf, Hb in *. destruct (N.eqb_spec (ec_cap t) (ec_cap (st_ec s))) as [Heq|Hne]; simpl in *.
  - inv1 Hgr. apply does_ret.
    + unfold st_fits. simpl. by rewrite Heq.
    + unfold st_blk. simpl. rewrite Heq. ms.
  - assert (0 < ec_cap t) as Hc' by lia. unfold grow_entities in Hgr. apply bind_ok in Hgr as (s0 & x & [-> ->]%get_ok & Hgr).
    assert (ec_cap (st_ec s3) = ec_cap t ∧ st_ac s3 = st_ac s ∧ tg_cap (st_tags s3) = ec_cap t ∧ length (tg_bvs (st_tags s3)) = length (tg_bvs (st_tags s)) ∧
      og_cap (st_orders s3) = ec_cap t ∧ length (og_fwd (st_orders s3)) = length (og_fwd (st_orders s))) as (E1 & E2 & E3 & E4 & E5 & E6).
    { do 3 (apply bind_ok in Hgr as (s4 & ? & [_ ->]%lift_ok & Hgr); apply bind_ok in Hgr as (s4 & [] & ->%mod_ok & Hgr)).
      apply bind_ok in Hgr as (s4 & [] & (tg' & Htg & ->)%zoom_ok & Hgr). apply zoom_ok in Hgr as (og' & Hog & ->).
      unfold tags_grow in Htg. apply bind_ok in Htg as (s4 & ? & [-> ->]%get_ok & Htg). apply bind_ok in Htg as (s4 & ? & [Hb1%bvs_map_length ->]%lift_ok & ->%put_ok).
      unfold orders_grow in Hog. apply bind_ok in Hog as (s4 & ? & [-> ->]%get_ok & Hog). apply bind_ok in Hog as (s4 & ? & [_ ->]%lift_ok & Hog).
      apply bind_ok in Hog as (s4 & ? & [_ ->]%lift_ok & Hog). apply bind_ok in Hog as (s4 & ? & [Hb2%links_grow_length ->]%lift_ok & ->%put_ok).
      by split_and!. }
    set (old := ec_cap (st_ec s)) in *. set (new := ec_cap t) in *.
    apply (does_step _ (ec_blk new e1 ⊎ ac_blk (st_ac s) (ps_ac k) ⊎ tags_blk (tg_cap (st_tags s)) (ps_tags k) ⊎ og_blk (og_cap (st_orders s)) (ps_orders k) ⊎
      {[+ (ps_idx k, layout_of u32_t old) +]} ⊎ {[+ (ps_has k, bits old) +]}) _ _ _ _ _ _ _ (does_realloc u32_t (ps_page k) old new (size_pos u32_t _ eq_refl Hc'))); [ms|].
    intros p _.
    apply (does_step _ (ec_blk new e1 ⊎ ac_blk (st_ac s) (ps_ac k) ⊎ tags_blk (tg_cap (st_tags s)) (ps_tags k) ⊎ og_blk (og_cap (st_orders s)) (ps_orders k) ⊎
      {[+ (p, layout_of u32_t new) +]} ⊎ {[+ (ps_has k, bits old) +]}) _ _ _ _ _ _ _ (does_realloc u32_t (ps_idx k) old new (size_pos u32_t _ eq_refl Hc'))); [ms|].
    intros i _.
    apply (does_step _ (ec_blk new e1 ⊎ ac_blk (st_ac s) (ps_ac k) ⊎ tags_blk (tg_cap (st_tags s)) (ps_tags k) ⊎ og_blk (og_cap (st_orders s)) (ps_orders k) ⊎
      {[+ (p, layout_of u32_t new) +]} ⊎ {[+ (i, layout_of u32_t new) +]}) _ _ _ _ _ _ _ (does_bits_realloc (ps_has k) old new)); [ms|].
    intros h _.
    apply (does_step _ (ec_blk new e1 ⊎ ac_blk (st_ac s) (ps_ac k) ⊎ og_blk (og_cap (st_orders s)) (ps_orders k) ⊎
      {[+ (p, layout_of u32_t new) +]} ⊎ {[+ (i, layout_of u32_t new) +]} ⊎ {[+ (h, bits new) +]}) _ _ _ _ _ _ _ (does_tags_grow (st_tags s) new (ps_tags k))); [ms|].
    intros tg Htg.
    apply (does_step _ (ec_blk new e1 ⊎ ac_blk (st_ac s) (ps_ac k) ⊎ tags_blk new tg ⊎
      {[+ (p, layout_of u32_t new) +]} ⊎ {[+ (i, layout_of u32_t new) +]} ⊎ {[+ (h, bits new) +]}) _ _ _ _ _ _ _ (does_orders_grow (st_orders s) new (ps_orders k) Hg Hc')); [ms|].
    intros og [Hog1 Hog2]. apply does_ret.
    + unfold st_fits, og_fits. cbn [ps_ac ps_tags ps_orders]. rewrite E1, E2, E4, E5, E6. split_and!; try done. by rewrite Htg.
    + unfold st_blk. cbn [ps_ec ps_ac ps_tags ps_orders ps_page ps_idx ps_has]. rewrite E1, E2, E3, E5. ms.
Qed.

(** the part of a store outside the archetypes *)
Definition rest_blk (s : store) (k : stp) : blks :=
  ec_blk (ec_cap (st_ec s)) (ps_ec k) ⊎ tags_blk (tg_cap (st_tags s)) (ps_tags k) ⊎
  og_blk (og_cap (st_orders s)) (ps_orders k) ⊎ {[+ (ps_page k, layout_of u32_t (ec_cap (st_ec s))) +]} ⊎
  {[+ (ps_idx k, layout_of u32_t (ec_cap (st_ec s))) +]} ⊎ {[+ (ps_has k, bits (ec_cap (st_ec s))) +]}.
Lemma st_blk_split s k : st_blk s k = ac_blk (st_ac s) (ps_ac k) ⊎ rest_blk s k.
Proof. unfold st_blk, rest_blk. ms. Qed.
Lemma does_on_ac (m : acp → M (list ev) acp) s a' k : st_fits s k →
  does (ac_blk (st_ac s) (ps_ac k)) (m (ps_ac k)) (ac_blk a') (ac_fits a') →
  does (st_blk s k) (m_on_ac m k) (st_blk (st_set_ac a' s)) (st_fits (st_set_ac a' s)).
Proof.
  intros (Hc & Ho & Ha & Ht & Hg) Hm. unfold m_on_ac. apply (does_step _ (rest_blk s k) _ _ _ _ _ _ _ Hm); [apply st_blk_split|].
  intros k1 Hk1. apply does_ret; [by split_and!|]. rewrite st_blk_split. unfold rest_blk. simpl. done.
Qed.
Lemma does_same {A : Type} s s' B (m : M (list ev) A) (pk : A → stp) : foot s' = foot s →
  does B m (λ a, st_blk s (pk a)) (λ a, st_fits s (pk a)) → does B m (λ a, st_blk s' (pk a)) (λ a, st_fits s' (pk a)).
Proof. intros Hf Hm. eapply does_conseq; [apply Hm|]. intros a Ha. exact (st_same s s' (pk a) Hf Ha). Qed.
Lemma does_temporary c a s s1 ai l id k ac' : reserve_archetype c a (st_ac s) = ROk s1 ai → reserve_page c id ai s1 = ROk ac' l → a ≠ [] → st_fits s k →
  does (st_blk s k) (m_with_temporary c a s k) (st_blk (st_set_ac ac' s)) (st_fits (st_set_ac ac' s)).
Proof.
  intros H1 H2 Hne Hk. assert (0 < arch_count a) as Hn. { destruct a; [done|]. unfold arch_count. simpl. lia. } unfold m_with_temporary.
  apply (does_step ∅ (st_blk s k) _ _ _ _ _ _ _ (does_arch_new _ Hn)); [ms|]. intros t _.
  eapply (does_step _ (arch_blk (arch_count a) t)).
  { apply does_on_ac; [done|]. eapply (does_add_entity c a); [done..|]. apply Hk. }
  { ms. }
  intros k1 Hk1. apply (does_step _ (st_blk (st_set_ac ac' s) k1) _ _ _ _ _ _ _ (does_arch_drop (arch_count a) t)); [ms|]. intros [] _.
  apply does_ret; [done|]. ms.
Qed.
Lemma arch_new_ne cs a : arch_new cs = POk a → a ≠ [].
Proof. by intros [? ->]%arch_new_ok. Qed.
Lemma with_components_ne c T a : with_components c T = POk a → a ≠ [].
Proof. unfold with_components. apply arch_new_ne. Qed.
Lemma move_entity_parts c e a s s' l : move_entity c e a s = ROk s' l →
  ∃ ac1 ai ac2 l2, reserve_archetype c a (st_ac s) = ROk ac1 ai ∧ reserve_page c (e_id e) ai ac1 = ROk ac2 l2 ∧ foot s' = foot (st_set_ac ac2 s).
Proof.
  unfold move_entity. intros H. apply bind_ok in H as (s0 & x & [-> ->]%get_ok & H). apply bind_ok in H as (s0 & prev & [_ ->]%lift_ok & H).
  apply bind_ok in H as (s0 & pai & [_ ->]%lift_ok & H). apply bind_ok in H as (s0 & l1 & (t & Hm & ->)%zoom_ok & H).
  unfold ac_move_entity in Hm. apply bind_ok in Hm as (ac1 & ai & H1 & Hm). apply bind_ok in Hm as (ac2 & l2 & H2 & Hm).
  exists ac1, ai, ac2, l2. split_and!; [done..|].
  assert (afoot t = afoot ac2) as Ht. { revert Hm. apply keeps_ok. keeps. }
  transitivity (foot (st_set_ac t s)); [|unfold foot; simpl; by rewrite Ht].
  revert H. apply keeps_ok. apply keeps_bind; [apply set_page_foot|]. intros _. apply keeps_bind; [apply set_idx_foot|]. intros _.
  apply keeps_bind; [apply swap_remove_foot|]. intros _. apply keeps_ret.
Qed.
Lemma does_ensure c e T s s' l k : ensure_types c e T s = ROk s' l → st_fits s k →
  does (st_blk s k) (m_ensure_types c e T s k) (st_blk s') (st_fits s').
Proof.
  unfold ensure_types, m_ensure_types. intros H Hk. apply bind_ok in H as (s0 & x & [-> ->]%get_ok & H).
  apply bind_ok in H as (s0 & has & [Hhas ->]%lift_ok & H). eapply does_lift; [done|]. destruct has.
  - apply bind_ok in H as (s0 & l0 & [Hl0 ->]%lift_ok & H). apply bind_ok in H as (s0 & ai & [Hai ->]%lift_ok & H).
    apply bind_ok in H as (s0 & a & [Ha ->]%lift_ok & H). eapply does_lift; [done|]. eapply does_lift; [done|]. eapply does_lift; [done|].
    destruct (is_include_ids c a T).
    + apply ret_ok in H as [-> ->]. by apply does_ret.
    + apply bind_ok in H as (s0 & na & [Hna ->]%lift_ok & H). eapply does_lift; [done|].
      apply move_entity_parts in H as (ac1 & ai' & ac2 & l2 & H1 & H2 & Hf). apply (does_same _ _ _ _ id Hf).
      eapply does_temporary; [done..|by eapply arch_new_ne|done].
  - apply bind_ok in H as (s0 & a & [Ha ->]%lift_ok & H). eapply does_lift; [done|].
    apply bind_ok in H as (s0 & l1 & (t & Hm & ->)%zoom_ok & H). unfold ac_add_entity in Hm. apply bind_ok in Hm as (ac1 & ai & H1 & H2).
    assert (foot s' = foot (st_set_ac t s)) as Hf. { revert H. apply keeps_ok. apply keeps_bind; [apply set_location_foot|]. intros _. apply keeps_ret. }
    apply (does_same _ _ _ _ id Hf). eapply does_temporary; [done..|by eapply with_components_ne|done].
Qed.

Lemma does_order c g i s t0 t' k : reserve_group c g (st_orders s) = ROk t0 i → ofoot t' = ofoot t0 → st_fits s k →
  does (st_blk s k) (o ← m_reserve_group c (st_orders s) g (ps_orders k); mret (ps_set_orders o k))
       (st_blk (st_set_orders t' s)) (st_fits (st_set_orders t' s)).
Proof.
  intros H Hf (Hc & Ho & Ha & Ht & Hg). injection Hf as Hf1 Hf2. destruct (does_reserve_group _ _ _ _ _ _ H Hg Ho) as [Hcap Hd].
  apply (does_step _ (ec_blk (ec_cap (st_ec s)) (ps_ec k) ⊎ ac_blk (st_ac s) (ps_ac k) ⊎
      tags_blk (tg_cap (st_tags s)) (ps_tags k) ⊎ {[+ (ps_page k, layout_of u32_t (ec_cap (st_ec s))) +]} ⊎
      {[+ (ps_idx k, layout_of u32_t (ec_cap (st_ec s))) +]} ⊎ {[+ (ps_has k, bits (ec_cap (st_ec s))) +]}) _ _ _ _ _ _ _ Hd).
  { unfold st_blk. ms. }
  intros o [Hf3 Hf4]. apply does_ret.
  - unfold st_fits, og_fits. simpl. rewrite Hf1, Hf2, Hcap. by split_and!.
  - unfold st_blk. simpl. rewrite Hf1, Hcap. ms.
Qed.
Lemma does_m_step c o s s' r k : step c o s = ROk s' r → st_fits s k →
  does (st_blk s k) (m_step c o s k) (st_blk s') (st_fits s').
Proof.
  intros H Hk. assert (foot s' = foot s → does (st_blk s k) (mret k) (st_blk s') (st_fits s')) as Hsame.
  { intros Hf. apply (does_same _ _ _ _ id Hf). by apply does_ret. }
  assert (∀ (m : M store unit), no_out m s = ROk s' r → m s = ROk s' tt) as Hno.
  { intros m Hm. unfold no_out in Hm. apply bind_ok in Hm as (s1 & [] & Hm & [_ ->]%ret_ok). done. }
  destruct o as [|a|e|e vals|e T|e vals|q f|t e|t e|g e|g e to|g e to|g e]; cbn [step m_step] in *.
  - apply bind_ok in H as (s1 & e & H & [-> ->]%ret_ok). unfold create_entity in H. apply bind_ok in H as (s2 & e2 & H & H').
    apply (does_same s2 s1 _ _ id).
    + revert H'. apply keeps_ok. apply keeps_bind; [apply disable_foot|]. intros _. apply keeps_ret.
    + by eapply does_register.
  - apply bind_ok in H as (s1 & e & H & [-> ->]%ret_ok). unfold create_entity_with_archetype in H. apply bind_ok in H as (s2 & e2 & H & H').
    apply bind_ok in H' as (s3 & l & (t & Hm & ->)%zoom_ok & H'). unfold ac_add_entity in Hm. apply bind_ok in Hm as (ac1 & ai & H1 & H2).
    unfold m_create_with. rewrite H. apply (does_step _ ∅ _ _ _ _ _ _ _ (does_register _ _ _ _ _ H Hk)); [ms|]. intros k1 Hk1.
    apply (does_same (st_set_ac t s2) s1 _ _ id).
    { revert H'. apply keeps_ok. apply keeps_bind; [apply set_location_foot|]. intros _. apply keeps_ret. }
    eapply (does_frame _ ∅).
    { apply (does_on_ac _ s2 t k1 Hk1). eapply (does_add_entity c a); [done..|]. apply Hk1. }
    { ms. }
    intros; cbn; ms.
  - apply Hsame. by eapply destroy_foot, Hno.
  - apply Hno in H. unfold add_components in H. unfold m_add_components. apply bind_ok in H as (s0 & x & [-> ->]%get_ok & H).
    apply bind_ok in H as (s0 & alive & [Hal ->]%lift_ok & H). eapply does_lift; [done|]. destruct alive; simpl in *.
    + apply bind_ok in H as (s1 & l & H & H'). apply (does_same s1 s' _ _ id).
      * revert H'. apply keeps_ok. keeps.
      * by eapply does_ensure.
    + inv1 H. by apply Hsame.
  - apply Hno in H. unfold remove_components in H. unfold m_remove_components. apply bind_ok in H as (s0 & x & [-> ->]%get_ok & H).
    apply bind_ok in H as (s0 & ok & [Hok ->]%lift_ok & H). eapply does_lift; [done|]. destruct ok; simpl in *.
    + apply bind_ok in H as (s0 & l0 & [Hl0 ->]%lift_ok & H). apply bind_ok in H as (s0 & ai & [Hai ->]%lift_ok & H).
      apply bind_ok in H as (s0 & a & [Ha ->]%lift_ok & H). eapply does_lift; [done|]. eapply does_lift; [done|]. eapply does_lift; [done|].
      apply bind_ok in H as (s0 & na & [Hna ->]%lift_ok & H). eapply does_lift; [done|].
      apply bind_ok in H as (s0 & l & H & [_ ->]%ret_ok).
      apply move_entity_parts in H as (ac1 & ai' & ac2 & l2 & H1 & H2 & Hf). apply (does_same _ _ _ _ id Hf).
      eapply does_temporary; [done..|by eapply arch_new_ne|done].
    + inv1 H. by apply Hsame.
  - apply Hsame. apply Hno in H. unfold set_components in H. apply bind_ok in H as (s0 & x & [-> ->]%get_ok & H).
    apply bind_ok in H as (s0 & rs & [_ ->]%lift_ok & H). destruct rs; by inv1 H.
  - apply Hsame. apply Hno in H. unfold query_write in H. apply bind_ok in H as (s0 & x & [-> ->]%get_ok & H).
    apply bind_ok in H as (s0 & it & [_ ->]%lift_ok & H). apply bind_ok in H as (s0 & ps & [_ ->]%lift_ok & H). by inv1 H.
  - apply Hno in H. unfold add_tag, on_tags in H. apply zoom_ok in H as (t' & H & ->). destruct Hk as (Hc & Ho & Ha & Ht & Hg).
    destruct (does_tags_add _ _ _ _ _ _ H Ht) as [Hcap Hd].
    apply (does_step _ (ec_blk (ec_cap (st_ec s)) (ps_ec k) ⊎ ac_blk (st_ac s) (ps_ac k) ⊎
      og_blk (og_cap (st_orders s)) (ps_orders k) ⊎ {[+ (ps_page k, layout_of u32_t (ec_cap (st_ec s))) +]} ⊎
      {[+ (ps_idx k, layout_of u32_t (ec_cap (st_ec s))) +]} ⊎ {[+ (ps_has k, bits (ec_cap (st_ec s))) +]}) _ _ _ _ _ _ _ Hd).
    { unfold st_blk. ms. }
    intros ps Hps. apply does_ret; [by split_and!|]. unfold st_blk. simpl. rewrite Hcap. ms.
  - apply Hsame. apply Hno in H. unfold remove_tag, on_tags in H. apply zoom_ok in H as (t' & H & ->). apply tags_remove_foot in H.
    unfold foot. simpl. by rewrite H.
  - apply Hno in H. unfold add_order, on_orders in H. apply zoom_ok in H as (t' & H & ->). unfold orders_add in H.
    apply bind_ok in H as (t0 & i & H0 & H). eapply does_order; [done| |done]. by apply (keeps_ok ofoot) in H; [|apply grp_keeps].
  - apply Hno in H. unfold add_order_next, on_orders in H. apply zoom_ok in H as (t' & H & ->). unfold orders_add_next in H.
    apply bind_ok in H as (t0 & i & H0 & H). eapply does_order; [done| |done]. by apply (keeps_ok ofoot) in H; [|apply grp_keeps].
  - apply Hno in H. unfold add_order_prev, on_orders in H. apply zoom_ok in H as (t' & H & ->). unfold orders_add_prev in H.
    apply bind_ok in H as (t0 & i & H0 & H). eapply does_order; [done| |done]. by apply (keeps_ok ofoot) in H; [|apply grp_keeps].
  - apply Hsame. apply Hno in H. unfold remove_order, on_orders in H. apply zoom_ok in H as (t' & H & ->). unfold foot. simpl.
    replace (ofoot t') with (ofoot (st_orders s)); [done|]. symmetry. revert H. apply keeps_ok. unfold orders_remove. apply keeps_bind_get. intros s1.
    destruct (get_group_index c s1 g); [apply grp_keeps|apply keeps_ret].
Qed.

Lemma does_store_new md cap s : store_with_capacity md cap = POk s → 0 < cap → does ∅ (m_store_new cap) (st_blk s) (st_fits s).
Proof.
  unfold store_with_capacity. intros (u & _ & [= <-])%pbind_ok Hc. unfold m_store_new.
  apply (does_step ∅ ∅ _ _ _ _ _ _ _ (does_ec_new cap Hc)); [ms|]. intros e _.
  apply (does_step ∅ (ec_blk cap e) _ _ _ _ _ _ _ does_ac_new); [ms|]. intros a Ha.
  apply (does_step ∅ (ec_blk cap e ⊎ ac_blk ac_new a) _ _ _ _ _ _ _ (does_alloc u32_t (bv_len cap) (bits_pos cap))); [ms|]. intros h _.
  apply (does_step ∅ (ec_blk cap e ⊎ ac_blk ac_new a ⊎ {[+ (h, layout_of u32_t (bv_len cap)) +]}) _ _ _ _ _ _ _ (does_alloc u32_t cap (size_pos u32_t _ eq_refl Hc))); [ms|]. intros i _.
  apply (does_step ∅ (ec_blk cap e ⊎ ac_blk ac_new a ⊎ {[+ (h, layout_of u32_t (bv_len cap)) +]} ⊎ {[+ (i, layout_of u32_t cap) +]}) _ _ _ _ _ _ _ (does_alloc u32_t cap (size_pos u32_t _ eq_refl Hc))); [ms|]. intros p _.
  apply does_ret; [by split_and!|].
  unfold st_blk, bits, tags_blk, og_blk, links_blk. cbn [ps_ec ps_ac ps_tags ps_orders ps_page ps_idx ps_has st_ec st_ac st_tags st_orders ec_new ec_cap po_fwd po_bwd bsum tags_new tg_cap orders_new og_cap].
  ms.
Qed.
Lemma does_store_drop s k : st_fits s k → does (st_blk s k) (m_store_drop s k) (λ _, ∅) (λ _, True).
Proof.
  intros (Hc & Ho & Ha & Ht & Hg). unfold m_store_drop, st_blk.
  generalize (does_ec_drop (st_ec s) (ps_ec k)), (does_ac_drop (st_ac s) (ps_ac k)), (does_tags_drop (st_tags s) (ps_tags k)), (does_orders_drop (st_orders s) (ps_orders k) (proj2 Hg)).
  generalize (ec_blk (ec_cap (st_ec s)) (ps_ec k)), (ac_blk (st_ac s) (ps_ac k)), (tags_blk (tg_cap (st_tags s)) (ps_tags k)), (og_blk (og_cap (st_orders s)) (ps_orders k)).
  intros B1 B2 B3 B4 D1 D2 D3 D4.
  eapply (does_step _ (B1 ⊎ B2 ⊎ B3 ⊎ B4 ⊎ {[+ (ps_page k, layout_of u32_t (ec_cap (st_ec s))) +]} ⊎ {[+ (ps_has k, bits (ec_cap (st_ec s))) +]}) _ _ _ _ _ _ _ (does_free u32_t (ps_idx k) (ec_cap (st_ec s)))); [ms|]. intros [] _.
  eapply (does_step _ (B1 ⊎ B2 ⊎ B3 ⊎ B4 ⊎ {[+ (ps_has k, bits (ec_cap (st_ec s))) +]}) _ _ _ _ _ _ _ (does_free u32_t (ps_page k) (ec_cap (st_ec s)))); [ms|]. intros [] _.
  eapply (does_step _ (B1 ⊎ B2 ⊎ B3 ⊎ B4) _ _ _ _ _ _ _ (does_free u32_t (ps_has k) (bv_len (ec_cap (st_ec s))))); [unfold bits; ms|]. intros [] _.
  eapply (does_step _ (B2 ⊎ B3 ⊎ B4) _ _ _ _ _ _ _ D1); [ms|]. intros [] _.
  eapply (does_step _ (B3 ⊎ B4) _ _ _ _ _ _ _ D2); [ms|]. intros [] _.
  eapply (does_step _ B4 _ _ _ _ _ _ _ D3); [ms|]. intros [] _.
  apply (does_frame _ ∅ _ _ _ _ _ D4); [ms|]. intros; ms.
Qed.

(** ** Histories *)
Lemma does_run {A : Type} B (m : M (list ev) A) B' Q h : does B m B' Q → owns h B → ∃ h' a, m h = ROk h' a ∧ Q a ∧ owns h' (B' a).
Proof.
  intros Hm Ho. destruct (Hm ∅ h) as (h' & a & Hr & HQ & Ho'). { replace (B ⊎ ∅) with B by ms. done. }
  exists h', a. split_and!; [done..|]. replace (B' a) with (B' a ⊎ ∅) by ms. done.
Qed.
Lemma does_ran {A : Type} B (m : M (list ev) A) B' Q h h' a : does B m B' Q → owns h B → m h = ROk h' a → Q a ∧ owns h' (B' a).
Proof. intros Hm Ho Hr. destruct (does_run _ _ _ _ _ Hm Ho) as (h2 & a2 & Hr2 & HQ & Ho2). rewrite Hr in Hr2. by injection Hr2 as <- <-. Qed.
Lemma mrun_owns c cap tr s k h : 0 < cap → mrun c cap tr s k h → st_fits s k ∧ owns h (st_blk s k).
Proof.
  intros Hc. induction 1 as [s k h Hs Hm|tr s k h o s' r k' h' Hrun [Hf Ho] Hs Hm].
  - eapply does_ran; [by eapply does_store_new|apply owns_nil|done].
  - eapply does_ran; [by eapply does_m_step|done|done].
Qed.
Lemma run_mrun c cap tr s : 0 < cap → run c cap tr s → ∃ k h, mrun c cap tr s k h.
Proof.
  intros Hc. induction 1 as [s Hs|tr s o s' r Hrun (k & h & Hm) Hs].
  - destruct (does_run _ _ _ _ _ (does_store_new _ _ _ Hs Hc) owns_nil) as (h & k & Hr & _ & _). exists k, h. by apply mrun_init.
  - destruct (mrun_owns _ _ _ _ _ _ Hc Hm) as [Hf Ho]. destruct (does_run _ _ _ _ _ (does_m_step _ _ _ _ _ _ Hs Hf) Ho) as (h' & k' & Hr & _ & _).
    exists k', h'. by eapply mrun_step.
Qed.

(** events on a block *)
Lemma named_events h m p l : named h → in_use h = Some m → EAlloc p l ∈ h ∨ EFree p l ∈ h → p ≤ N.of_nat (length h).
Proof.
  revert m. induction h as [|[q l'|q l'] r IH]; simpl; intros m Hn Hm Hin; [set_solver|..].
  - destruct Hn as [-> Hn]. destruct (in_use r) as [m0|]; [|done]. destruct Hin as [Hin|Hin]; apply elem_of_cons in Hin as [Hin|Hin]; try done.
    + injection Hin as -> ->. lia.
    + specialize (IH _ Hn eq_refl (or_introl Hin)). lia.
    + specialize (IH _ Hn eq_refl (or_intror Hin)). lia.
  - destruct (in_use r) as [m0|] eqn:Er; [|done]. simpl in Hm. case_bool_decide as Hq; [|done].
    destruct Hin as [Hin|Hin]; apply elem_of_cons in Hin as [Hin|Hin]; try done.
    + specialize (IH _ Hn eq_refl (or_introl Hin)). lia.
    + injection Hin as -> ->. pose proof (in_use_bound _ Hn _ _ _ Er Hq). lia.
    + specialize (IH _ Hn eq_refl (or_intror Hin)). lia.
Qed.
Lemma block_story h m p l : named h → in_use h = Some m → EAlloc p l ∈ h →
  (m !! p = Some l ∧ ∃ h1 h2, h = h2 ++ EAlloc p l :: h1 ∧ ∀ l', EFree p l' ∉ h1 ++ h2 ∧ EAlloc p l' ∉ h1 ++ h2) ∨
  (m !! p = None ∧ freed_once h p l).
Proof.
  revert m. induction h as [|[q l0|q l0] r IH]; simpl; intros m Hn Hm Hin; [set_solver|..].
  - destruct Hn as [-> Hn]. destruct (in_use r) as [m0|] eqn:Er; [|done]. simpl in Hm. case_bool_decide as Hq; [|done]. injection Hm as <-.
    apply elem_of_cons in Hin as [[= -> ->]|Hin].
    + left. rewrite lookup_insert. split; [done|]. exists r, []. split; [done|]. rewrite app_nil_r. intros l'.
      split; intros Hx; eapply named_events in Er; eauto; lia.
    + assert (p ≤ N.of_nat (length r)) as Hp by (eapply named_events; eauto). assert (N.of_nat (S (length r)) ≠ p) as Hne by lia.
      rewrite lookup_insert_ne by done. destruct (IH _ Hn eq_refl Hin) as [(Hm & h1 & h2 & -> & Hno)|(Hm & h1 & h2 & h3 & -> & Hno)].
      * left. split; [done|]. eexists h1, (EAlloc _ l0 :: h2). split; [done|]. intros l'. specialize (Hno l').
        rewrite !elem_of_app, !elem_of_cons in *. split; [|intros [?|[[= ? ?]|?]]]; naive_solver.
      * right. split; [done|]. eexists h1, h2, (EAlloc _ l0 :: h3). split; [done|]. intros l'. specialize (Hno l').
        rewrite !elem_of_app, !elem_of_cons in *. split; [|intros [?|[?|[[= ? ?]|?]]]]; naive_solver.
  - destruct (in_use r) as [m0|] eqn:Er; [|done]. simpl in Hm. case_bool_decide as Hq; [|done]. injection Hm as <-.
    apply elem_of_cons in Hin as [?|Hin]; [done|]. destruct (IH _ Hn eq_refl Hin) as [(Hm & h1 & h2 & -> & Hno)|(Hm & h1 & h2 & h3 & -> & Hno)].
    + destruct (decide (q = p)) as [->|Hne].
      * right. rewrite Hm in Hq. injection Hq as ->. rewrite lookup_delete. split; [done|]. exists h1, h2, []. split; [done|]. by rewrite app_nil_r.
      * left. rewrite lookup_delete_ne by done. split; [done|]. exists h1, (EFree q l0 :: h2). split; [done|]. intros l'. specialize (Hno l').
        rewrite !elem_of_app, !elem_of_cons in *. split; [intros [?|[[= ? ?]|?]]|]; naive_solver.
    + destruct (decide (q = p)) as [->|Hne]; [congruence|]. right. rewrite lookup_delete_ne by done. split; [done|].
      exists h1, h2, (EFree q l0 :: h3). split; [done|]. intros l'. specialize (Hno l').
      rewrite !elem_of_app, !elem_of_cons in *. split; [intros [?|[?|[[= ? ?]|?]]]|]; naive_solver.
Qed.
Lemma all_freed_once h p l : named h → all_freed h → EAlloc p l ∈ h → freed_once h p l.
Proof. intros Hn Hf Hin. destruct (block_story _ _ _ _ Hn Hf Hin) as [[Hm _]|[_ Hx]]; [|done]. by rewrite lookup_empty in Hm. Qed.

Lemma store_blocks c cap tr s : run c cap tr s → 0 < cap →
  (∃ k h, mrun c cap tr s k h) ∧
  ∀ k h, mrun c cap tr s k h →
    allowed h ∧ ∃ h', m_store_drop s k h = ROk h' tt ∧ all_freed h' ∧ ∀ p l, EAlloc p l ∈ h' → freed_once h' p l.
Proof.
  intros Hrun Hc. split; [by apply run_mrun|]. intros k h Hm. destruct (mrun_owns _ _ _ _ _ _ Hc Hm) as [Hf Ho]. split; [by eapply owns_allowed|].
  destruct (does_run _ _ _ _ _ (does_store_drop _ _ Hf) Ho) as (h' & [] & Hr & _ & Ho'). exists h'. pose proof (owns_empty _ Ho') as Hall.
  split_and!; [done..|]. intros p l Hin. apply all_freed_once; [apply Ho'|done|done].
Qed.

(** ** Resources *)
Section resources.
Context {T : Type} (t : ety) (md : mode).
Definition rs_blk (s : rs T) (k : rsp) : blks := {[+ (pr_elems k, layout_of t (ec_cap (rs_ec s))) +]} ⊎ ec_blk (ec_cap (rs_ec s)) (pr_ec k).
Definition rs_fits (s : rs T) (k : rsp) : Prop := 0 < ec_cap (rs_ec s).
Lemma does_rs_new cap : 0 < t_size t → 0 < cap → does ∅ (m_rs_with_capacity t cap) (rs_blk (rs_with_capacity cap)) (rs_fits (rs_with_capacity cap)).
Proof.
  intros Ht Hc. apply (does_step ∅ ∅ _ _ _ _ _ _ _ (does_alloc t cap (size_pos t cap Ht Hc))); [ms|]. intros p _.
  apply (does_step ∅ {[+ (p, layout_of t cap) +]} _ _ _ _ _ _ _ (does_ec_new cap Hc)); [ms|]. intros e _. apply does_ret; [done|].
  unfold rs_blk. simpl. ms.
Qed.
Lemma rs_create_ec v (s s' : rs T) e : rs_create md v s = ROk s' e → ∃ cr, ec_create md (rs_ec s) = ROk (rs_ec s') cr.
Proof.
  unfold rs_create. intros H. apply bind_ok in H as (s0 & x & [-> ->]%get_ok & H). apply bind_ok in H as (s1 & cr & (t1 & Hcr & ->)%zoom_ok & H).
  exists cr. assert (rs_ec s' = t1) as ->; [|done].
  change t1 with (rs_ec (rs_set_ec t1 s)). revert H. generalize (rs_set_ec t1 s). intros s1 H. revert H. apply keeps_ok. keeps.
Qed.
Lemma does_rstep (o : rop T) (s s' : rs T) r k : 0 < t_size t → rstep md o s = ROk s' r → rs_fits s k →
  does (rs_blk s k) (m_rstep t md o s k) (rs_blk s') (rs_fits s').
Proof.
  intros Ht H Hk. unfold rs_fits in *. destruct o as [v|e|e v]; simpl in *.
  - apply bind_ok in H as (s1 & e & H & [-> ->]%ret_ok). apply rs_create_ec in H as [cr Hcr]. unfold m_rs_create. rewrite Hcr.
    destruct (does_ec_create _ _ _ _ (pr_ec k) Hcr) as (Hb & Haf & Hle & Hd).
    apply (does_step _ {[+ (pr_elems k, layout_of t (ec_cap (rs_ec s))) +]} _ _ _ _ _ _ _ Hd); [unfold rs_blk; ms|]. intros e1 _.
    unfold container_was_grow. rewrite Haf, Hb. destruct (N.eqb_spec (ec_cap (rs_ec s1)) (ec_cap (rs_ec s))) as [Heq|Hne]; simpl.
    + apply does_ret; [lia|]. unfold rs_blk. simpl. rewrite Heq. ms.
    + apply (does_step _ (ec_blk (ec_cap (rs_ec s1)) e1) _ _ _ _ _ _ _ (does_realloc t (pr_elems k) (ec_cap (rs_ec s)) (ec_cap (rs_ec s1)) (size_pos t (ec_cap (rs_ec s1)) Ht (N.lt_le_trans _ _ _ Hk Hle)))); [ms|].
      intros p _. apply does_ret; [lia|]. done.
  - apply bind_ok in H as (s1 & v & H & [-> ->]%ret_ok). unfold rs_release in H. apply bind_ok in H as (s0 & x & [-> ->]%get_ok & H).
    apply bind_ok in H as (s0 & u & [_ ->]%lift_ok & H). apply bind_ok in H as (s0 & [] & (t1 & Hd%ec_destroy_cap & ->)%zoom_ok & H). apply lift_ok in H as [_ ->].
    apply does_ret; simpl; [by rewrite Hd|]. unfold rs_blk. simpl. by rewrite Hd.
  - apply bind_ok in H as (s1 & v' & H & [-> ->]%ret_ok). assert (rs_ec s1 = rs_ec s) as Heq.
    { revert H. apply keeps_ok. unfold rs_assign. keeps. }
    apply does_ret; simpl; [by rewrite Heq|]. unfold rs_blk. by rewrite Heq.
Qed.
Lemma mrrun_owns cap tr (s : rs T) k h : 0 < t_size t → 0 < cap → mrrun t md (rs_with_capacity cap) (m_rs_with_capacity t cap) tr s k h → rs_fits s k ∧ owns h (rs_blk s k).
Proof.
  intros Ht Hc. induction 1 as [k h Hm|tr s k h o s' r k' h' Hrun [Hf Ho] Hs Hm].
  - eapply does_ran; [by apply does_rs_new|apply owns_nil|done].
  - eapply does_ran; [by eapply does_rstep|done|done].
Qed.
Lemma rrun_mrrun cap tr (s : rs T) : 0 < t_size t → 0 < cap → rrun md (rs_with_capacity cap) tr s →
  ∃ k h, mrrun t md (rs_with_capacity cap) (m_rs_with_capacity t cap) tr s k h.
Proof.
  intros Ht Hc. induction 1 as [|tr s o s' r Hrun (k & h & Hm) Hs].
  - destruct (does_run _ _ _ _ _ (does_rs_new cap Ht Hc) owns_nil) as (h & k & Hr & _ & _). exists k, h. by apply mrrun_init.
  - destruct (mrrun_owns _ _ _ _ _ Ht Hc Hm) as [Hf Ho]. destruct (does_run _ _ _ _ _ (does_rstep _ _ _ _ _ Ht Hs Hf) Ho) as (h' & k' & Hr & _ & _).
    exists k', h'. by eapply mrrun_step.
Qed.
Lemma resource_blocks cap tr (s : rs T) : rrun md (rs_with_capacity cap) tr s → 0 < cap → 0 < t_size t →
  (∃ k h, mrrun t md (rs_with_capacity cap) (m_rs_with_capacity t cap) tr s k h) ∧
  ∀ k h, mrrun t md (rs_with_capacity cap) (m_rs_with_capacity t cap) tr s k h →
    allowed h ∧ ∃ h', m_rs_drop s k h = ROk h' tt ∧ in_use h' = Some {[pr_elems k := layout_of t (ec_cap (rs_ec s))]}.
Proof.
  intros Hrun Hc Ht. split; [by apply rrun_mrrun|]. intros k h Hm. destruct (mrrun_owns _ _ _ _ _ Ht Hc Hm) as [Hf Ho]. split; [by eapply owns_allowed|].
  assert (does (rs_blk s k) (m_rs_drop s k) (λ _, {[+ (pr_elems k, layout_of t (ec_cap (rs_ec s))) +]}) (λ _, True)) as Hd.
  { apply (does_frame _ {[+ (pr_elems k, layout_of t (ec_cap (rs_ec s))) +]} _ _ _ _ _ (does_ec_drop (rs_ec s) (pr_ec k))); [unfold rs_blk; ms|]. intros; ms. }
  destruct (does_run _ _ _ _ _ Hd Ho) as (h' & [] & Hr & _ & Ho'). exists h'. split; [done|]. pose proof Ho' as (_ & m & Hm' & _). rewrite Hm'. f_equal.
  apply map_eq. intros p. apply option_eq. intros l. rewrite (owns_in_use _ _ _ Hm' Ho'), lookup_singleton_Some, gmultiset_elem_of_singleton. naive_solver.
Qed.
End resources.

(** ** Witnesses and examples *)
Lemma empty_store_refuted : ¬ ∀ c cap tr s k h, cfg_ok c → run c cap tr s → mrun c cap tr s k h → allowed h.
Proof.
  intros H.
  destruct (m_store_new 0 []) as [h0 k0| |] eqn:E; [|by vm_compute in E..].
  assert (store_with_capacity Release 0 = POk (Store (ec_new 0) ac_new (tags_new 0) (orders_new 0) [] [] (bv_alloc 0))) as Hs by reflexivity.
  destruct (H (ex_cfg Release) 0 [] _ k0 h0 (ex_cfg_ok Release) (run_init (ex_cfg Release) 0 _ Hs) (mrun_init (ex_cfg Release) 0 _ _ _ Hs E)) as [m Hm].
  vm_compute in E. injection E as <- <-. vm_compute in Hm. discriminate Hm.
Qed.
Lemma resources_refuted : ¬ ∀ (t : ety) (cap : N), 0 < cap → 0 < t_size t →
  ∀ k h h', m_rs_with_capacity t cap [] = ROk h k → m_rs_drop (rs_with_capacity cap : rs N) k h = ROk h' tt → all_freed h'.
Proof.
  intros H. destruct (m_rs_with_capacity u32_t 1 []) as [h0 k0| |] eqn:E; [|by vm_compute in E..].
  destruct (m_rs_drop (rs_with_capacity 1 : rs N) k0 h0) as [h' []| |] eqn:E'.
  - specialize (H u32_t 1 eq_refl eq_refl k0 h0 h' E E'). vm_compute in E. injection E as <- <-. vm_compute in E'. injection E' as <-. vm_compute in H. discriminate H.
  - vm_compute in E. injection E as <- <-. by vm_compute in E'.
  - vm_compute in E. injection E as <- <-. by vm_compute in E'.
Qed.
Lemma resources_new_refuted : ¬ ∀ h k, m_rs_new [] = ROk h k → allowed h.
Proof.
  intros H. destruct (m_rs_new []) as [h k| |] eqn:E; [|by vm_compute in E..]. destruct (H h k eq_refl) as [m Hm].
  vm_compute in E. injection E as <- <-. vm_compute in Hm. discriminate Hm.
Qed.
Lemma resources_zst_refuted : ¬ ∀ t cap h k, 0 < cap → m_rs_with_capacity t cap [] = ROk h k → allowed h.
Proof.
  intros H. destruct (m_rs_with_capacity (Ety 0 1) 1 []) as [h k| |] eqn:E; [|by vm_compute in E..]. destruct (H (Ety 0 1) 1 h k eq_refl E) as [m Hm].
  vm_compute in E. injection E as <- <-. vm_compute in Hm. discriminate Hm.
Qed.
Definition ex_heap : list (list entity → op) :=
  [ λ _, OCreate; λ hs, OAdd (h 0 hs) [(1, [1; 2; 3; 4])]; λ hs, OTagAdd 7 (h 0 hs); λ hs, OOrdAdd 9 (h 0 hs); λ _, OCreate;
    λ _, OCreateWith (ex_arch [8]); λ hs, ODestroy (h 2 hs); λ hs, OAdd (h 1 hs) [(9, [5; 6; 7; 8])] ].
Definition is_alloc (e : ev) : bool := match e with EAlloc _ _ => true | EFree _ _ => false end.
