(** CompP.v — the components of the entities: what each call does to them. *)
From Verif.Spec Require Export Components.
From Verif.Proofs Require Export HandlesP QueryP.
Local Open Scope N_scope.

(** Where the store looks for the components of an id. *)
Definition linked (s : store) (id : N) (p k : nat) : Prop :=
  bit (st_has s) id = true ∧ st_page s !! N.to_nat id = Some (Some p) ∧ st_idx s !! N.to_nat id = Some (Some k).

(** [comp_inv c s X D]: the rows of the pages (leaving out the location [X]) are the components [D] gives to each
    live id, each one where the store looks for it. *)
Record comp_inv (c : cfg) (s : store) (X : option (nat * nat)) (D : gmap N (gmap tid (list cell))) : Prop := CompInv {
  ci_ac : ac_inv c (st_ac s);
  ci_page : length (st_page s) = N.to_nat (ec_cap (st_ec s));
  ci_idx : length (st_idx s) = N.to_nat (ec_cap (st_ec s));
  ci_has : bv_sized (ec_cap (st_ec s)) (st_has s);
  ci_lt : ∀ id m, D !! id = Some m → id < ec_cap (st_ec s);
  ci_rows : ∀ p k id m, loc (st_ac s) p k = Some (id, m) → X ≠ Some (p, k) → D !! id = Some m ∧ linked s id p k;
  ci_data : ∀ id m, D !! id = Some m →
    (∃ p k, X ≠ Some (p, k) ∧ linked s id p k ∧ loc (st_ac s) p k = Some (id, m)) ∨ (bit (st_has s) id = false ∧ m = ∅);
}.

Lemma linked_eia s id p k : linked s id p k → get_eia s id = POk (Eia p k).
Proof.
  intros (_ & Hp & Hk). unfold get_eia, get_page_index, get_index_in_page.
  rewrite (aget_lookup _ _ _ Hp). simpl. by rewrite (aget_lookup _ _ _ Hk).
Qed.
Lemma linked_fun s id p k p' k' : linked s id p k → linked s id p' k' → p = p' ∧ k = k'.
Proof. unfold linked. naive_solver. Qed.
Lemma linked_page s id p k : linked s id p k → get_page_index s id = POk p ∧ get_index_in_page s id = POk k.
Proof. intros (_ & Hp & Hk). split; by apply aget_lookup. Qed.
Lemma has_archetype_spec c s X D id : comp_inv c s X D → id < ec_cap (st_ec s) → has_archetype s id = POk (bit (st_has s) id).
Proof. intros Hi Hlt. apply bv_get_lt. eapply bv_sized_lt; [|done]. apply Hi. Qed.

(** Changes of the entity-indexed arrays. *)
Definition set_loc (id : N) (p k : nat) (s : store) : store :=
  st_set_idx (<[N.to_nat id := Some k]> (st_idx s)) (st_set_page (<[N.to_nat id := Some p]> (st_page s)) s).

Section comp.
Context (c : cfg) (Hc : cfg_ok c).

Lemma swap_remove_wp s p k D id m U P : comp_inv c s (Some (p, k)) D → loc (st_ac s) p k = Some (id, m) →
  sat U (swap_remove_internal (Eia p k) s) (λ s' _, comp_inv c s' None D ∧ ids_part s' = ids_part s ∧
    ∀ p' k', p' ≠ p → loc (st_ac s') p' k' = loc (st_ac s) p' k') P.
Proof.
  intros Hi Hl. unfold swap_remove_internal, on_ac. do 2 wp1.
  eapply sat_mono; [eapply ac_swap_remove_wp; [apply Hi|done]| |].
  2:{ instantiate (1 := λ _, False). done. }
  intros a r Hr. cbv beta. pose proof (rm_inv _ _ _ _ _ _ Hr) as Hai. pose proof (rm_other _ _ _ _ _ _ Hr) as Hoth.
  destruct (rm_page _ _ _ _ _ _ Hr) as (n & idn & mn & Hn & Hkn & -> & Hj & Hafter).
  destruct Hi as [_ Hp Hx Hh Hlt Hrows Hdata]. destruct (decide (k < n)%nat) as [Hlt'|Hge].
  - destruct (Hrows _ _ _ _ Hn) as [HD Hlk]; [intros [= ->]; lia|]. pose proof (Hlt _ _ HD) as Hidn.
    unfold set_index_in_page. wp. simpl. rewrite aset_lt by (simpl; lia). simpl. split; [|done].
    split; simpl; rewrite ?insert_length; try done.
    + intros p' k' id' m' Hloc _. destruct (decide (p' = p)) as [->|Hpp].
      * rewrite Hj in Hloc. destruct (decide (k' < n)%nat) as [Hk'|]; [|done]. destruct (decide (k' = k)) as [->|Hkk].
        -- injection Hloc as <- <-. split; [done|]. destruct Hlk as (? & ? & ?). split_and!; simpl; try done.
           apply list_lookup_insert. rewrite Hx. lia.
        -- destruct (Hrows _ _ _ _ Hloc) as [HD' Hl']; [by intros [= ->]|]. split; [done|].
           assert (id' ≠ idn). { intros ->. destruct (linked_fun _ _ _ _ _ _ Hlk Hl'). lia. }
           destruct Hl' as (? & ? & ?). split_and!; simpl; try done. rewrite list_lookup_insert_ne by lia. done.
      * rewrite Hoth in Hloc by done. destruct (Hrows _ _ _ _ Hloc) as [HD' Hl']; [congruence|]. split; [done|].
        assert (id' ≠ idn). { intros ->. destruct (linked_fun _ _ _ _ _ _ Hlk Hl'). congruence. }
        destruct Hl' as (? & ? & ?). split_and!; simpl; try done. rewrite list_lookup_insert_ne by lia. done.
    + intros id' m' HD'. destruct (decide (id' = idn)) as [->|Hne].
      * left. exists p, k. split; [done|]. destruct Hlk as (? & ? & ?). split; [split_and!; simpl; try done|].
        { apply list_lookup_insert. rewrite Hx. lia. }
        rewrite Hj. rewrite decide_True by done. rewrite decide_True by done. congruence.
      * destruct (Hdata _ _ HD') as [(p' & k' & Hne' & Hl' & Hloc)|?]; [left|by right]. exists p', k'. split; [done|].
        split.
        { destruct Hl' as (? & ? & ?). split_and!; simpl; try done. rewrite list_lookup_insert_ne by lia. done. }
        destruct (decide (p' = p)) as [->|Hpp]; [|by rewrite Hoth]. rewrite Hj.
        destruct (decide (k' < n)%nat) as [Hk'|Hk'].
        -- rewrite decide_False by congruence. done.
        -- destruct (decide (k' = n)) as [->|]; [congruence|]. rewrite Hafter in Hloc by lia. done.
  - assert (k = n) as <- by lia. wp. split; [|done]. split; simpl; try done.
    + intros p' k' id' m' Hloc _. assert (loc (st_ac s) p' k' = Some (id', m') ∧ (p', k') ≠ (p, k)) as [Hloc' Hne].
      { destruct (decide (p' = p)) as [->|Hpp]; [|rewrite Hoth in Hloc by done; split; [done|congruence]].
        rewrite Hj in Hloc. destruct (decide (k' < k)%nat); [|done]. rewrite decide_False in Hloc by lia. split; [done|]. intros [=]. lia. }
      destruct (Hrows _ _ _ _ Hloc') as [? ?]; [congruence|]. done.
    + intros id' m' HD'. destruct (Hdata _ _ HD') as [(p' & k' & Hne' & Hl' & Hloc)|?]; [left|by right].
      exists p', k'. split; [done|]. split; [done|]. destruct (decide (p' = p)) as [->|Hpp]; [|by rewrite Hoth]. rewrite Hj.
      assert (k' ≠ k) by congruence. destruct (decide (k' < k)%nat); [by rewrite decide_False by lia|]. rewrite Hafter in Hloc by lia. done.
Qed.

(** Linking a new row. *)
Lemma set_location_wp s p k D id m U P : comp_inv c s (Some (p, k)) D → loc (st_ac s) p k = Some (id, m) →
  id < ec_cap (st_ec s) → (D !! id = None ∨ bit (st_has s) id = false) →
  sat U (set_location id (Eia p k) s) (λ s' _, comp_inv c s' None (<[id := m]> D) ∧ ids_part s' = ids_part s ∧ st_ac s' = st_ac s) P.
Proof.
  intros Hi Hl Hid Hno. pose proof Hi as [Ha Hp Hx Hh Hlt Hrows Hdata].
  unfold set_location, set_page_index, set_index_in_page, enable_archetype. simpl. wp. rewrite aset_lt by (simpl; lia). simpl. wp.
  rewrite aset_lt by (simpl; lia). simpl. wp.
  destruct (bv_upd_lt (λ w, N.lor w (bv_mask id)) (st_has s) id) as [v Hv]; [by eapply bv_sized_lt|].
  change (bv_upd _ _ _) with (bv_on (st_has s) id) in Hv. simpl. rewrite Hv. simpl. apply bv_on_ok in Hv as [Hlv Hb].
  assert (∀ p' k' m', loc (st_ac s) p' k' = Some (id, m') → (p', k') = (p, k)) as Huniq.
  { intros p' k' m' Hl'. destruct (decide ((p', k') = (p, k))) as [|Hne]; [done|].
    destruct (Hrows _ _ _ _ Hl') as [HD (Hbit & _)]; [congruence|]. destruct Hno; congruence. }
  split; [|done]. split; simpl; rewrite ?insert_length; try done.
  - unfold bv_sized in *. congruence.
  - intros id' m'. destruct (decide (id' = id)) as [->|Hne]; [done|]. rewrite lookup_insert_ne by done. apply Hlt.
  - intros p' k' id' m' Hloc _. destruct (decide (id' = id)) as [->|Hne].
    + pose proof (Huniq _ _ _ Hloc) as [= -> ->]. rewrite lookup_insert. split; [congruence|].
      split_and!; simpl; [by rewrite Hb, bool_decide_true| |]; apply list_lookup_insert; lia.
    + rewrite lookup_insert_ne by done. destruct (Hrows _ _ _ _ Hloc) as [HD (H1 & H2 & H3)]; [congruence|]. split; [done|].
      split_and!; simpl; [by rewrite Hb, H1, orb_true_r| |]; rewrite list_lookup_insert_ne by lia; done.
  - intros id' m' HD. destruct (decide (id' = id)) as [->|Hne].
    + rewrite lookup_insert in HD. injection HD as <-. left. exists p, k. split; [done|]. split; [|done].
      split_and!; simpl; [by rewrite Hb, bool_decide_true| |]; apply list_lookup_insert; lia.
    + rewrite lookup_insert_ne in HD by done. destruct (Hdata _ _ HD) as [(p' & k' & Hne' & (H1 & H2 & H3) & Hloc)|[Hf ->]].
      * left. exists p', k'. split; [done|]. split; [|done].
        split_and!; simpl; [by rewrite Hb, H1, orb_true_r| |]; rewrite list_lookup_insert_ne by lia; done.
      * right. split; [|done]. by rewrite Hb, bool_decide_false.
Qed.

(** Placing an id without a row. *)
Lemma place_wp s D id a U P : comp_inv c s None D → healthy_for c (st_ac s) (list_to_set (arch_ids a)) → arch_wf c a → fits c a →
  id < ec_cap (st_ec s) → (D !! id = None ∨ bit (st_has s) id = false) →
  sat U ((l ← on_ac (ac_add_entity c id a); _ ← set_location id l; mret l) s)
    (λ s' l, ∃ m, comp_inv c s' None (<[id := m]> D) ∧ (∀ t, is_Some (m !! t) ↔ t ∈ arch_ids a) ∧
      ids_part s' = ids_part s ∧ loc (st_ac s') (ea_page l) (ea_idx l) = Some (id, m)) P.
Proof.
  intros Hi Hh Hwf Hfit Hid Hno. unfold on_ac. do 2 wp1.
  eapply sat_mono; [eapply ac_add_entity_wp; [done|apply Hi|done|done|done]| |]. 2:{ instantiate (1 := λ _, False). done. }
  intros a' [p k] Hadd. simpl in Hadd. cbv beta. destruct (ad_new _ _ _ _ _ _ _ Hadd) as (m & Hnew & Hdom).
  wp1. eapply sat_mono; [eapply (set_location_wp _ p k D)| |]; simpl; try done.
  - destruct Hi as [Ha Hp Hx Hh' Hlt Hrows Hdata]. split; simpl; try done; [apply Hadd| |].
    + intros p' k' id' m' Hloc Hne. rewrite (ad_loc _ _ _ _ _ _ _ Hadd) in Hloc by congruence.
      destruct (Hrows _ _ _ _ Hloc); done.
    + intros id' m' HD. destruct (Hdata _ _ HD) as [(p' & k' & _ & Hl & Hloc)|?]; [left|by right].
      assert ((p', k') ≠ (p, k)). { intros [= -> ->]. rewrite (ad_fresh _ _ _ _ _ _ _ Hadd) in Hloc. done. }
      exists p', k'. split; [congruence|]. split; [done|]. by rewrite (ad_loc _ _ _ _ _ _ _ Hadd).
  - intros s' [] (Hi' & Hids & Hac). exists m. split_and!; try done. by rewrite Hac.
Qed.

(** Moving an id to another archetype. *)
Lemma move_wp s D e a m p k U P : comp_inv c s None D → healthy_for c (st_ac s) (list_to_set (arch_ids a)) → arch_wf c a → fits c a →
  linked s (e_id e) p k → loc (st_ac s) p k = Some (e_id e, m) →
  sat U (move_entity c e a s)
    (λ s' l, ∃ m', comp_inv c s' None (<[e_id e := m']> D) ∧ (∀ t, is_Some (m' !! t) ↔ t ∈ arch_ids a) ∧
      (∀ t v, m !! t = Some v → t ∈ arch_ids a → m' !! t = Some v) ∧ ids_part s' = ids_part s ∧
      (¬ (∀ t, is_Some (m !! t) ↔ t ∈ arch_ids a) → loc (st_ac s') (ea_page l) (ea_idx l) = Some (e_id e, m'))) P.
Proof.
  intros Hi Hh Hwf Hfit Hlk Hl. unfold move_entity, on_ac. do 4 wp1. rewrite (linked_eia _ _ _ _ Hlk). unfold psat.
  destruct (loc_page _ _ _ _ _ _ (ci_ac _ _ _ _ Hi) Hl) as (pg & i & a0 & ly & Hpg & Hp2a & Ha0 & Hly & _ & _ & _ & _ & Hid0 & _).
  do 2 wp1. simpl. unfold arch_index_by_page, vidx. rewrite Hp2a. unfold psat. do 2 wp1.
  eapply sat_mono; [eapply ac_move_entity_wp; [done|apply Hi|done|done|done|done|done]| |]. 2:{ instantiate (1 := λ _, False). done. }
  intros a' [p' k'] Hm. simpl in Hm. cbv beta. destruct (mv_new _ _ _ _ _ _ _ _ Hm) as (m' & Hnew & Hdom & Hkeep). simpl.
  destruct Hi as [Ha Hp Hx Hh' Hlt Hrows Hdata]. set (id := e_id e) in *.
  destruct (Hrows _ _ _ _ Hl) as [HD _]; [done|]. pose proof (Hlt _ _ HD) as Hid.
  unfold set_page_index, set_index_in_page. wp. simpl. rewrite aset_lt by (simpl; lia). simpl. wp. simpl.
  rewrite aset_lt by (simpl; lia). simpl. wp. simpl.
  assert ((p', k') ≠ (p, k)) as Hne. { intros [= -> ->]. rewrite (mv_fresh _ _ _ _ _ _ _ _ Hm) in Hl. done. }
  assert (loc a' p k = Some (id, m)) as Hl' by by rewrite (mv_loc _ _ _ _ _ _ _ _ Hm).
  eapply sat_mono; [eapply (swap_remove_wp _ p k (<[id := m']> D))| |]; simpl; try done.
  - assert (bit (st_has s) id = true) as Hbit by apply Hlk.
    split; simpl; rewrite ?insert_length; try done; [apply Hm| | |].
    + intros id' m1. destruct (decide (id' = id)) as [->|Hn]; [done|]. rewrite lookup_insert_ne by done. apply Hlt.
    + intros p1 k1 id' m1 Hloc Hne1. destruct (decide ((p1, k1) = (p', k'))) as [[= -> ->]|Hn].
      * rewrite Hnew in Hloc. injection Hloc as <- <-. rewrite lookup_insert. split; [done|].
        split_and!; simpl; [done| |]; apply list_lookup_insert; lia.
      * rewrite (mv_loc _ _ _ _ _ _ _ _ Hm) in Hloc by done. destruct (Hrows _ _ _ _ Hloc) as [HD1 (H1 & H2 & H3)]; [done|].
        assert (id' ≠ id). { intros ->. destruct (linked_fun s id p k p1 k1 Hlk ltac:(done)). congruence. }
        rewrite lookup_insert_ne by done. split; [done|]. split_and!; simpl; [done| |]; rewrite list_lookup_insert_ne by lia; done.
    + intros id' m1 HD1. destruct (decide (id' = id)) as [->|Hn].
      * rewrite lookup_insert in HD1. injection HD1 as <-. left. exists p', k'. split; [congruence|]. split; [|done].
        split_and!; simpl; [done| |]; apply list_lookup_insert; lia.
      * rewrite lookup_insert_ne in HD1 by done. destruct (Hdata _ _ HD1) as [(p1 & k1 & _ & (H1 & H2 & H3) & Hloc)|?]; [left|by right].
        exists p1, k1. split; [|split].
        -- intros [= <- <-]. congruence.
        -- split_and!; simpl; [done| |]; rewrite list_lookup_insert_ne by lia; done.
        -- rewrite (mv_loc _ _ _ _ _ _ _ _ Hm); [done|]. intros [= -> ->]. rewrite (mv_fresh _ _ _ _ _ _ _ _ Hm) in Hloc. done.
  - intros s' [] (Hi' & Hids & Hoth). exists m'. split_and!; try done. simpl. intros Hdiff. rewrite Hoth; [done|].
    intros ->. apply Hdiff. destruct (mv_p2a _ _ _ _ _ _ _ _ Hm) as (i' & Hi1 & Hi2). 
    assert (page_arch a' p = page_arch (st_ac s) p) as Hu.
    { apply (mv_used _ _ _ _ _ _ _ _ Hm _ _ Hpg). intros Hn. by rewrite Hn in Hid0. }
    unfold page_arch in Hu. rewrite Hi1, Hi2, Hp2a, Ha0, Hly in Hu.
    destruct (ac_layouts a' !! i'); [|done]. injection Hu as -> _. eapply loc_dom; eauto.
Qed.

(** Rewriting a row in place. *)
Lemma rewrite_inv s D id m m' p k a : comp_inv c s None D → linked s id p k →
  loc (st_ac s) p k = Some (id, m) → rewritten c (st_ac s) p k id m' a → comp_inv c (st_set_ac a s) None (<[id := m']> D).
Proof using.
  intros Hi Hlk Hl Hw. destruct Hi as [Ha Hp Hx Hh' Hlt Hrows Hdata]. split; simpl; try done; [apply Hw| | |].
  - intros id' m1. destruct (decide (id' = id)) as [->|Hn]; [|by rewrite lookup_insert_ne by done; apply Hlt].
    intros _. eapply Hlt. eapply (Hrows _ _ _ _ Hl). done.
  - intros p1 k1 id' m1 Hloc _. destruct (decide ((p1, k1) = (p, k))) as [[= -> ->]|Hn].
    + rewrite (rw_same _ _ _ _ _ _ _ Hw) in Hloc. injection Hloc as <- <-. by rewrite lookup_insert.
    + rewrite (rw_loc _ _ _ _ _ _ _ Hw) in Hloc by done. destruct (Hrows _ _ _ _ Hloc) as [HD1 H1]; [done|].
      rewrite lookup_insert_ne; [done|]. intros <-. destruct (linked_fun _ _ _ _ _ _ Hlk H1). congruence.
  - intros id' m1 HD1. destruct (decide (id' = id)) as [->|Hn].
    + rewrite lookup_insert in HD1. injection HD1 as <-. left. exists p, k. split_and!; [done|done|apply Hw].
    + rewrite lookup_insert_ne in HD1 by done. destruct (Hdata _ _ HD1) as [(p1 & k1 & _ & H1 & Hloc)|?]; [left|by right].
      exists p1, k1. split_and!; [done|done|]. rewrite (rw_loc _ _ _ _ _ _ _ Hw); [done|]. congruence.
Qed.
Lemma put_ext vals : ∀ m m' : gmap tid (list cell), (∀ t, t ∉ vals.*1 → m !! t = m' !! t) → put vals m = put vals m'.
Proof using.
  unfold put. induction vals as [|[t v] vals IH]; intros m m' H; simpl in *.
  - apply map_eq. intros t. apply H, not_elem_of_nil.
  - apply IH. intros t' Ht'. destruct (decide (t' = t)) as [->|Hn]; [by rewrite !lookup_insert|].
    rewrite !lookup_insert_ne by done. apply H. rewrite elem_of_cons. naive_solver.
Qed.

(** ** Archetypes of the moves *)
Lemma arch_wf_intro a : NoDup (arch_ids a) → a ≠ [] → (∀ x, x ∈ a → x = ctype_of c (ct_id x)) → arch_wf c (sort_cts a).
Proof using.
  intros Hnd Hne Hx. split; [by apply sort_cts_incr|]. split.
  - intros Hn. apply Hne. apply Permutation_nil_r. rewrite <- (sort_cts_perm a). by rewrite Hn.
  - assert (∀ l, (∀ x, x ∈ l → x = ctype_of c (ct_id x)) → l = ctype_of c <$> arch_ids l) as Hgen.
    { induction l as [|x l IH]; [done|]. intros H. simpl. f_equal; [apply H; by left|apply IH; intros; apply H; by right]. }
    apply Hgen. intros x. rewrite sort_cts_elem. apply Hx.
Qed.
Lemma arch_wf_elem a x : arch_wf c a → x ∈ a → x = ctype_of c (ct_id x).
Proof using.
  intros (_ & _ & Heq) Hx. rewrite Heq in Hx. apply elem_of_list_fmap in Hx as (t & -> & _). done.
Qed.
Lemma include_arch a T : arch_wf c a → let b := bld_include (bld_include bld_new a) (ctype_of c <$> T) in
  arch_new (sort_cts b) = POk (sort_cts b) ∧ arch_wf c (sort_cts b) ∧
  ∀ t, t ∈ arch_ids (sort_cts b) ↔ t ∈ arch_ids a ∨ t ∈ T.
Proof using.
  intros Hwf b. destruct (bld_include_spec bld_new a) as (Hnd1 & Hin1 & Hel1); [constructor|].
  destruct (bld_include_spec (bld_include bld_new a) (ctype_of c <$> T) Hnd1) as (Hnd & Hin & Hel). fold b in Hnd, Hin, Hel.
  assert (∀ t, t ∈ arch_ids b ↔ t ∈ arch_ids a ∨ t ∈ T) as Hids.
  { intros t. rewrite Hin, Hin1, ctype_of_ids. split; [intros [[?%elem_of_nil|?]|?]; [done|auto..]|intros [?|?]; auto]. }
  assert (b ≠ []) as Hne.
  { intros Hb. destruct Hwf as (_ & Hne & _). destruct a as [|x a]; [done|]. specialize (Hids (ct_id x)). rewrite Hb in Hids.
    simpl in Hids. destruct Hids as [_ Hx]. apply (not_elem_of_nil (ct_id x)), Hx. left. by left. }
  assert (arch_wf c (sort_cts b)) as Hw.
  { apply arch_wf_intro; [done|done|]. intros x [[Hx%elem_of_nil|Hx]%Hel1|Hx]%Hel; [done|by eapply arch_wf_elem|].
    by apply elem_of_list_fmap in Hx as (t & -> & _). }
  split_and!; [|done|intros t; by rewrite sort_cts_ids]. apply arch_new_ok. split; [apply Hw|done].
Qed.
Lemma exclude_arch a T : arch_wf c a → let b := bld_exclude (bld_include bld_new a) (ctype_of c <$> T) in
  (∀ t, t ∈ arch_ids (sort_cts b) ↔ t ∈ arch_ids a ∧ t ∉ T) ∧
  (((∃ t, t ∈ arch_ids a ∧ t ∉ T) ∧ arch_new (sort_cts b) = POk (sort_cts b) ∧ arch_wf c (sort_cts b)) ∨
   ((∀ t, t ∈ arch_ids a → t ∈ T) ∧ arch_new (sort_cts b) = PPanic)).
Proof using.
  intros Hwf b. destruct (bld_include_spec bld_new a) as (Hnd1 & Hin1 & Hel1); [constructor|].
  destruct (bld_exclude_spec (bld_include bld_new a) (ctype_of c <$> T) Hnd1) as (Hnd & Hel). fold b in Hnd, Hel.
  pose proof (λ t, bld_exclude_ids (bld_include bld_new a) (ctype_of c <$> T) t Hnd1) as Hin. fold b in Hin.
  assert (∀ t, t ∈ arch_ids b ↔ t ∈ arch_ids a ∧ t ∉ T) as Hids.
  { intros t. rewrite Hin, Hin1, ctype_of_ids. split; [intros [[?%elem_of_nil|?] ?]; [done|auto]|intros [? ?]; auto]. }
  split; [intros t; by rewrite sort_cts_ids|].
  destruct (decide (b = [])) as [Hb|Hne].
  - right. split; [|by rewrite Hb]. intros t Ht. destruct (decide (t ∈ T)) as [|Hn]; [done|].
    assert (t ∈ arch_ids b) as Hx by by apply Hids. rewrite Hb in Hx. by apply elem_of_nil in Hx.
  - left. assert (arch_wf c (sort_cts b)) as Hw.
    { apply arch_wf_intro; [done|done|]. intros x [[Hx%elem_of_nil|Hx]%Hel1 _]%Hel; [done|]. by eapply arch_wf_elem. }
    split_and!; [|apply arch_new_ok; split; [apply Hw|done]|done].
    assert (∃ x, x ∈ b) as [x Hx] by (destruct b as [|x b']; [done|]; exists x; by left). exists (ct_id x). apply Hids. by apply elem_of_list_fmap_1.
Qed.
Lemma with_arch T : T ≠ [] → NoDup T → ∃ a, with_components c T = POk a ∧ arch_wf c a ∧ ∀ t, t ∈ arch_ids a ↔ t ∈ T.
Proof using.
  intros Hne Hnd. exists (sort_cts (ctype_of c <$> T)). split; [by apply with_components_ok|].
  assert (arch_wf c (sort_cts (ctype_of c <$> T))) as Hw.
  { apply arch_wf_intro; [by rewrite ctype_of_ids|by destruct T|]. by intros x (t & -> & _)%elem_of_list_fmap. }
  split; [done|]. intros t. by rewrite sort_cts_ids, ctype_of_ids.
Qed.

(** ** The state of a store as seen from its components *)
Record comp_state (s : store) (I : list entity) (L : gset entity) (D : gmap N (gmap tid (list cell))) : Prop := CompState {
  cs_ec : ec_inv (st_ec s) I L;
  cs_inv : comp_inv c s None D;
  cs_dom : ∀ id, is_Some (D !! id) ↔ ∃ e, e ∈ L ∧ e_id e = id;
}.
Lemma cs_alive s I L D e : comp_state s I L D → e_id e < ec_cap (st_ec s) → is_alive c s e = POk (bool_decide (e ∈ L)).
Proof using. intros Hi Hlt. by apply (ec_is_alive_spec _ _ I), Hlt; apply Hi. Qed.
(** A live id either has its row or has never been given components. *)
Lemma cs_row s I L D e : comp_state s I L D → e ∈ L → ∃ m, D !! e_id e = Some m ∧ e_id e < ec_cap (st_ec s) ∧
  ((∃ p k, linked s (e_id e) p k ∧ loc (st_ac s) p k = Some (e_id e, m) ∧ has_archetype s (e_id e) = POk true ∧ m ≠ ∅) ∨
   (bit (st_has s) (e_id e) = false ∧ has_archetype s (e_id e) = POk false ∧ m = ∅)).
Proof using.
  intros Hs HL. destruct (proj2 (cs_dom _ _ _ _ Hs (e_id e))) as [m Hm]; [by exists e|].
  pose proof (cs_inv _ _ _ _ Hs) as Hi. pose proof (ci_lt _ _ _ _ Hi _ _ Hm) as Hlt. exists m. split; [done|]. split; [done|].
  rewrite (has_archetype_spec c s None D) by done.
  destruct (ci_data _ _ _ _ Hi _ _ Hm) as [(p & k & _ & Hl & Hloc)|[Hf ->]]; [left|right; by rewrite Hf].
  exists p, k. split_and!; [done|done|by rewrite (proj1 Hl)|].
  destruct (loc_page _ _ _ _ _ _ (ci_ac _ _ _ _ Hi) Hloc) as (pg & i & a & ly & _ & H1 & Ha & _ & _ & Hwf & _).
  pose proof (loc_dom _ _ _ _ _ _ _ _ (ci_ac _ _ _ _ Hi) Hloc H1 Ha) as Hdom. intros ->.
  destruct Hwf as (_ & Hne & _). destruct a as [|x a]; [done|]. destruct (proj2 (Hdom (ct_id x))) as [? Hx]; [by left|]. by rewrite lookup_empty in Hx.
Qed.

Lemma same_set (l : list tid) (S : gset tid) : (∀ t, t ∈ l ↔ t ∈ S) → list_to_set l = S.
Proof using. intros H. apply set_eq. intros t. by rewrite elem_of_list_to_set. Qed.
Lemma add_components_wp s I L D e vals U P : comp_state s I L D →
  (∀ m, e ∈ L → D !! e_id e = Some m → healthy_for c (st_ac s) (dom m ∪ list_to_set vals.*1)) → e_id e < ec_cap (st_ec s) →
  vals ≠ [] → NoDup vals.*1 → vals_ok c vals →
  (∀ m, e ∈ L → D !! e_id e = Some m → fits_types c (dom m ∪ list_to_set vals.*1)) →
  sat U (add_components c e vals s)
    (λ s' _, ids_part s' = ids_part s ∧
      if decide (e ∈ L) then ∃ m, D !! e_id e = Some m ∧ comp_inv c s' None (<[e_id e := put vals m]> D) else s' = s) P.
Proof using Hc.
  intros Hs Hh Hlt Hne Hnd Hok Hfit. pose proof (cs_inv _ _ _ _ Hs) as Hi. pose proof Hc as [Hbs _ _].
  unfold add_components. do 4 wp1. rewrite (cs_alive _ _ _ _ _ Hs Hlt). unfold psat.
  destruct (decide (e ∈ L)) as [HL|HL]; [rewrite bool_decide_true by done|rewrite bool_decide_false by done; by wp].
  simpl. destruct (cs_row _ _ _ _ _ Hs HL) as (m & HD & _ & Hrow). specialize (Hfit m HL HD). specialize (Hh m HL HD).
  (* the last step, from the state in which the types are there *)
  assert (∀ s1 l D1 m1, comp_inv c s1 None D1 → ids_part s1 = ids_part s → D1 = <[e_id e := m1]> D →
    loc (st_ac s1) (ea_page l) (ea_idx l) = Some (e_id e, m1) → (∀ t, t ∈ vals.*1 → is_Some (m1 !! t)) →
    (∀ t, t ∉ vals.*1 → m1 !! t = m !! t) →
    sat U ((s ← getS; v ← lift (page_view_unchecked (st_ac s) (ea_page l));
      rs ← lift (view_refs_unchecked c v (ea_idx l) vals.*1);
      modS (λ s, st_set_ac (ac_set_pages (assign_to_refs (ac_pages (st_ac s)) rs vals.*2) (st_ac s)) s)) s1)
    (λ s' _, ids_part s' = ids_part s ∧ ∃ m, D !! e_id e = Some m ∧ comp_inv c s' None (<[e_id e := put vals m]> D)) P) as Hfin.
  { intros s1 [p k] D1 m1 Hi1 Hids -> Hl Hall Hrest. simpl in Hl. do 2 wp1.
    destruct (view_refs_spec c (st_ac s1) p k (e_id e) m1 vals.*1 Hbs) as (v & Hv & Hvr & _); [apply Hi1|done|].
    destruct (Hvr Hall) as (rs & _ & Hrs & Hat). do 2 wp1. simpl. rewrite Hv. unfold psat. do 2 wp1. rewrite Hrs. unfold psat. wp1.
    split; [done|]. exists m. split; [done|].
    destruct (ci_rows _ _ _ _ Hi1 _ _ _ _ Hl) as [_ Hlk]; [done|].
    replace (<[e_id e := put vals m]> D) with (<[e_id e := put vals m1]> (<[e_id e := m1]> D)).
    2:{ rewrite insert_insert. by rewrite (put_ext vals m1 m). }
    eapply rewrite_inv; [done|done|done|]. rewrite <- (zip_fst_snd vals) at 1. apply assign_spec; try done; [apply Hi1| |].
    - by rewrite !fmap_length.
    - by rewrite zip_fst_snd. }
  wp1. unfold ensure_types. do 4 wp1. destruct Hrow as [(p & k & Hlk & Hl & Hhas & _)|(Hbit & Hhas & ->)]; rewrite Hhas; unfold psat.
  - destruct (loc_page _ _ _ _ _ _ (ci_ac _ _ _ _ Hi) Hl) as (pg & i & a & ly & _ & Hp2a & Ha & _ & _ & Hwf & _).
    pose proof (loc_dom _ _ _ _ _ _ _ _ (ci_ac _ _ _ _ Hi) Hl Hp2a Ha) as Hdom.
    do 2 wp1. rewrite (linked_eia _ _ _ _ Hlk). unfold psat. do 2 wp1. simpl. unfold arch_index_by_page, vidx. rewrite Hp2a. unfold psat.
    do 2 wp1. unfold vget_unchecked. rewrite Ha. unfold psat.
    destruct (is_include_ids c a vals.*1) eqn:E.
    + rewrite is_include_ids_spec in E by first [done|apply Hwf]. wp1. eapply (Hfin _ _ D m); try done.
      * symmetry. by apply insert_id.
      * intros t Ht. apply Hdom. auto.
    + destruct (include_arch a vals.*1 Hwf) as (Hnew & Hwf' & Hids'). do 2 wp1. rewrite Hnew. unfold psat.
      set (b := sort_cts _) in *. clearbody b.
      assert (∀ t, t ∈ arch_ids b ↔ t ∈ dom m ∪ list_to_set vals.*1) as Hb.
      { intros t. rewrite Hids', <- Hdom, elem_of_union, elem_of_dom, elem_of_list_to_set. done. }
      eapply sat_mono; [eapply (move_wp _ D e b m p k)| |]; try done; [by rewrite (same_set _ _ Hb)|by apply Hfit|].
      intros s1 l (m' & Hi1 & Hd1 & Hk1 & Hids1 & Hl1). cbv beta.
      eapply (Hfin _ _ _ m'); try done.
      * apply Hl1. intros Hsame. assert (∀ t, t ∈ vals.*1 → t ∈ arch_ids a) as Hin.
        { intros t Ht. apply Hdom, Hsame, Hids'. auto. }
        apply (is_include_ids_spec c Hbs a _ (proj1 Hwf) Hnd) in Hin. congruence.
      * intros t Ht. apply Hd1, Hids'. auto.
      * intros t Ht. destruct (m !! t) as [v|] eqn:Em.
        -- apply Hk1; [done|]. apply Hids'. left. apply Hdom. by rewrite Em.
        -- apply eq_None_not_Some. intros [Hta|Hta]%Hd1%Hids'; [|done]. apply Hdom in Hta. by rewrite Em in Hta; destruct Hta.
  - destruct (with_arch vals.*1) as (a & Ha & Hwf & Hids'); [by destruct vals|done|]. do 2 wp1. rewrite Ha. unfold psat.
    assert (∀ t, t ∈ arch_ids a ↔ t ∈ dom (∅ : gmap tid (list cell)) ∪ list_to_set vals.*1) as Hb.
    { intros t. rewrite Hids', elem_of_union, dom_empty_L, elem_of_list_to_set. clear. set_solver. }
    eapply sat_mono; [eapply (place_wp s D (e_id e) a)| |]; try done; [by rewrite (same_set _ _ Hb)|by apply Hfit|by right|].
    intros s1 l (m' & Hi1 & Hd1 & Hids1 & Hl1). cbv beta. eapply (Hfin _ _ _ m'); try done.
    + intros t Ht. apply Hd1, Hids'. auto.
    + intros t Ht. rewrite lookup_empty. apply eq_None_not_Some. by intros ?%Hd1%Hids'.
Qed.

Lemma forget_eq T (m m' : gmap tid (list cell)) :
  (∀ t, is_Some (m' !! t) ↔ is_Some (m !! t) ∧ t ∉ T) → (∀ t v, m !! t = Some v → t ∉ T → m' !! t = Some v) → m' = forget T m.
Proof using.
  intros H1 H2. apply map_eq. intros t. apply option_eq. intros v. unfold forget. rewrite map_filter_lookup_Some. simpl. split.
  - intros Hv. destruct (proj1 (H1 t)) as [[w Hw] Hn]; [by rewrite Hv|]. split; [|done]. specialize (H2 _ _ Hw Hn). congruence.
  - intros [Hv Hn]. by apply H2.
Qed.
Lemma remove_components_wp s I L D e T U (P : store → Prop) : comp_state s I L D → e_id e < ec_cap (st_ec s) →
  (∀ m, e ∈ L → D !! e_id e = Some m → ¬ (dom m ⊆ list_to_set T) →
    healthy_for c (st_ac s) (dom m ∖ list_to_set T) ∧ fits_types c (dom m ∖ list_to_set T)) →
  (∀ m, e ∈ L → D !! e_id e = Some m → m ≠ ∅ → dom m ⊆ list_to_set T → P s) →
  sat U (remove_components c e T s)
    (λ s' _, ids_part s' = ids_part s ∧
      if decide (e ∈ L) then ∃ m, D !! e_id e = Some m ∧ (m = ∅ ∨ ¬ (dom m ⊆ list_to_set T)) ∧ comp_inv c s' None (<[e_id e := forget T m]> D)
      else s' = s) P.
Proof using Hc.
  intros Hs Hlt Hfit HP. pose proof (cs_inv _ _ _ _ Hs) as Hi. pose proof Hc as [Hbs _ _].
  unfold remove_components, is_valid_with_archetype. do 5 wp1. rewrite (cs_alive _ _ _ _ _ Hs Hlt). unfold psat.
  destruct (decide (e ∈ L)) as [HL|HL]; [rewrite bool_decide_true by done|rewrite bool_decide_false by done; by wp].
  destruct (cs_row _ _ _ _ _ Hs HL) as (m & HD & _ & Hrow). specialize (Hfit m HL HD). specialize (HP m HL HD).
  destruct Hrow as [(p & k & Hlk & Hl & Hhas & Hne)|(Hbit & Hhas & ->)]; rewrite Hhas; simpl.
  - destruct (loc_page _ _ _ _ _ _ (ci_ac _ _ _ _ Hi) Hl) as (pg & i & a & ly & _ & Hp2a & Ha & _ & _ & Hwf & _).
    pose proof (loc_dom _ _ _ _ _ _ _ _ (ci_ac _ _ _ _ Hi) Hl Hp2a Ha) as Hdom.
    do 2 wp1. rewrite (linked_eia _ _ _ _ Hlk). unfold psat. do 2 wp1. simpl. unfold arch_index_by_page, vidx. rewrite Hp2a. unfold psat.
    do 2 wp1. unfold vget_unchecked. rewrite Ha. unfold psat. do 2 wp1.
    destruct (exclude_arch a T Hwf) as (Hids' & [((t0 & Ht0 & Hn0) & Hnew & Hwf')|[Hall Hnew]]); rewrite Hnew; unfold psat; cycle 1.
    { apply HP; [done|]. intros t Ht%elem_of_dom%Hdom. apply elem_of_list_to_set. auto. }
    set (b := sort_cts _) in *. clearbody b. wp1.
    assert (¬ (dom m ⊆ list_to_set T)) as Hnsub.
    { intros Hsub. apply Hn0. apply (elem_of_list_to_set (C := gset N)). apply Hsub, elem_of_dom. by apply Hdom. }
    destruct (Hfit Hnsub) as [Hh Hfit'].
    assert (∀ t, t ∈ arch_ids b ↔ t ∈ dom m ∖ list_to_set T) as Hb.
    { intros t. rewrite Hids', <- Hdom, elem_of_difference, elem_of_dom, elem_of_list_to_set. done. }
    eapply sat_mono; [eapply (move_wp _ D e b m p k)| |]; try done; [by rewrite (same_set _ _ Hb)|by apply Hfit'|].
    intros s1 l (m' & Hi1 & Hd1 & Hk1 & Hids1 & _). wp1. split; [done|]. exists m. split; [done|]. split; [by right|].
    rewrite <- (forget_eq T m m'); [done| |].
    + intros t. by rewrite Hd1, Hids', Hdom.
    + intros t v Hv Ht. apply Hk1; [done|]. apply Hids'. split; [|done]. apply Hdom. by rewrite Hv.
  - split; [done|]. exists ∅. split; [done|]. split; [by left|]. unfold forget. rewrite map_filter_empty. rewrite insert_id; done.
Qed.

Lemma values_Forall2 (m : gmap tid (list cell)) T vs : Forall2 (λ t v, m !! t = Some v) T vs → vs = values m T.
Proof using. induction 1 as [|t v T vs Hv _ IH]; simpl; [done|]. f_equal; [by rewrite Hv|done]. Qed.

(** References to the components of an entity. *)
Lemma get_refs_wp s I L D e T : comp_state s I L D → e_id e < ec_cap (st_ec s) → T ≠ [] →
  if decide (e ∈ L) then ∃ m, D !! e_id e = Some m ∧
    if has_all m T then ∃ p k rs, linked s (e_id e) p k ∧ loc (st_ac s) p k = Some (e_id e, m) ∧
      get_components_refs c s e T = POk (Some rs) ∧ at_loc c (st_ac s) p k T rs
    else get_components_refs c s e T = POk None
  else get_components_refs c s e T = POk None.
Proof using Hc.
  intros Hs Hlt HT. pose proof (cs_inv _ _ _ _ Hs) as Hi. pose proof Hc as [Hbs _ _].
  unfold get_components_refs, is_valid_with_archetype. rewrite (cs_alive _ _ _ _ _ Hs Hlt). simpl.
  destruct (decide (e ∈ L)) as [HL|HL]; [rewrite bool_decide_true by done|by rewrite bool_decide_false by done].
  destruct (cs_row _ _ _ _ _ Hs HL) as (m & HD & _ & Hrow). exists m. split; [done|].
  destruct Hrow as [(p & k & Hlk & Hl & Hhas & _)|(Hbit & Hhas & ->)]; rewrite Hhas; simpl.
  - destruct (linked_page _ _ _ _ Hlk) as [-> ->]. simpl.
    destruct (view_refs_spec c (st_ac s) p k (e_id e) m T Hbs) as (v & -> & Hv1 & Hv2); [apply Hi|done|]. simpl.
    destruct (has_all m T) eqn:E.
    + rewrite has_all_spec in E. destruct (Hv1 E) as (rs & Hrs & _ & Hat). exists p, k, rs. done.
    + apply Hv2. intros H. apply has_all_spec in H. congruence.
  - destruct (has_all ∅ T) eqn:E; [|done]. rewrite has_all_spec in E. destruct T as [|t T]; [done|].
    destruct (E t) as [? Hx]; [by left|]. by rewrite lookup_empty in Hx.
Qed.
Lemma read_components_wp s I L D e T : comp_state s I L D → e_id e < ec_cap (st_ec s) → T ≠ [] →
  if decide (e ∈ L) then ∃ m, D !! e_id e = Some m ∧ read_components c s e T = POk (expected (Some m) T)
  else read_components c s e T = POk None.
Proof using Hc.
  intros Hs Hlt HT. pose proof (get_refs_wp s I L D e T Hs Hlt HT) as H. unfold read_components.
  destruct (decide (e ∈ L)) as [HL|HL]; [|by rewrite H]. destruct H as (m & HD & H). exists m. split; [done|]. simpl.
  destruct (has_all m T); [|by rewrite H]. destruct H as (p & k & rs & _ & Hl & -> & Hat). simpl.
  rewrite <- (values_Forall2 m T (read_ref (ac_pages (st_ac s)) <$> rs)); [done|]. eapply read_refs_spec; [apply Hs|done|done].
Qed.
Lemma set_components_wp s I L D e vals U P : comp_state s I L D → e_id e < ec_cap (st_ec s) → vals ≠ [] → vals_ok c vals →
  sat U (set_components c e vals s)
    (λ s' _, ids_part s' = ids_part s ∧
      if decide (e ∈ L) then ∃ m, D !! e_id e = Some m ∧
        comp_inv c s' None (<[e_id e := if has_all m vals.*1 then put vals m else m]> D) ∧ (has_all m vals.*1 = false → s' = s)
      else s' = s) P.
Proof using Hc.
  intros Hs Hlt Hne Hok. pose proof (cs_inv _ _ _ _ Hs) as Hi.
  pose proof (get_refs_wp s I L D e vals.*1 Hs Hlt) as H. unfold set_components. do 4 wp1.
  destruct (decide (e ∈ L)) as [HL|HL]; [|rewrite H by (by destruct vals); simpl; by wp].
  destruct H as (m & HD & H); [by destruct vals|]. destruct (has_all m vals.*1) eqn:E.
  - destruct H as (p & k & rs & Hlk & Hl & -> & Hat). simpl. wp. split; [done|]. exists m. rewrite E. split_and!; [done| |done].
    eapply rewrite_inv; [done|done|done|]. rewrite <- (zip_fst_snd vals) at 1. apply assign_spec; try done; [apply Hi| |].
    + by rewrite !fmap_length.
    + by rewrite zip_fst_snd.
  - rewrite H. simpl. wp. split; [done|]. exists m. rewrite E. split_and!; [done| |done]. by rewrite insert_id.
Qed.

(** The archetype of an entity. *)
Lemma get_archetype_wp s I L D e : comp_state s I L D → e_id e < ec_cap (st_ec s) →
  if decide (e ∈ L) then ∃ m, D !! e_id e = Some m ∧
    if decide (m = ∅) then get_entity_archetype c s e = POk None
    else ∃ a, get_entity_archetype c s e = POk (Some a) ∧ arch_wf c a ∧ ∀ t, t ∈ arch_ids a ↔ is_Some (m !! t)
  else get_entity_archetype c s e = POk None.
Proof using.
  intros Hs Hlt. pose proof (cs_inv _ _ _ _ Hs) as Hi.
  unfold get_entity_archetype, is_valid_with_archetype. rewrite (cs_alive _ _ _ _ _ Hs Hlt). simpl.
  destruct (decide (e ∈ L)) as [HL|HL]; [rewrite bool_decide_true by done|by rewrite bool_decide_false by done].
  destruct (cs_row _ _ _ _ _ Hs HL) as (m & HD & _ & Hrow). exists m. split; [done|].
  destruct Hrow as [(p & k & Hlk & Hl & Hhas & Hne)|(Hbit & Hhas & ->)]; rewrite Hhas; simpl; [|done].
  rewrite decide_False by done.
  destruct (loc_page _ _ _ _ _ _ (ci_ac _ _ _ _ Hi) Hl) as (pg & i & a & ly & _ & Hp2a & Ha & _ & _ & Hwf & _).
  pose proof (loc_dom _ _ _ _ _ _ _ _ (ci_ac _ _ _ _ Hi) Hl Hp2a Ha) as Hdom.
  destruct Hlk as (_ & Hp & _). rewrite (aget_lookup _ _ _ Hp). simpl. unfold arch_by_page, vidx. rewrite Hp2a. simpl. rewrite Ha. simpl.
  exists a. split_and!; [done|done|]. intros t. by rewrite Hdom.
Qed.

(** Taking the row of an entity away. *)
Lemma destroy_row_wp s I L D e U P : comp_state s I L D → e ∈ L →
  sat U ((has ← lift (has_archetype s (e_id e));
    if (has : bool) then l ← lift (get_eia s (e_id e)); swap_remove_internal l else mret tt) s)
    (λ s' _, comp_inv c s' None (delete (e_id e) D) ∧ ids_part s' = ids_part s) P.
Proof using.
  intros Hs HL. pose proof (cs_inv _ _ _ _ Hs) as Hi. destruct (cs_row _ _ _ _ _ Hs HL) as (m & HD & Hlt & Hrow). do 2 wp1.
  destruct Hrow as [(p & k & Hlk & Hl & Hhas & Hne)|(Hbit & Hhas & ->)]; rewrite Hhas; unfold psat.
  - do 2 wp1. rewrite (linked_eia _ _ _ _ Hlk). unfold psat.
    eapply sat_mono; [eapply (swap_remove_wp s p k (delete (e_id e) D)); [|done]| |]; cycle 1.
    { intros s' [] (H1 & H2 & _). done. } { instantiate (1 := λ _, False). done. }
    destruct Hi as [Ha Hp Hx Hh' Hlt' Hrows Hdata]. split; try done.
    + intros id' m' [_ HD']%lookup_delete_Some. by eapply Hlt'.
    + intros p' k' id' m' Hloc Hn. destruct (Hrows _ _ _ _ Hloc) as [HD' Hlk']; [done|]. split; [|done].
      apply lookup_delete_Some. split; [|done]. intros <-. destruct (linked_fun _ _ _ _ _ _ Hlk Hlk'). congruence.
    + intros id' m' [Hn HD']%lookup_delete_Some. destruct (Hdata _ _ HD') as [(p' & k' & _ & Hl' & Hloc)|?]; [left|by right].
      exists p', k'. split; [|done]. intros [= <- <-]. congruence.
  - wp1. split; [|done]. destruct Hi as [Ha Hp Hx Hh' Hlt' Hrows Hdata]. split; try done.
    + intros id' m' [_ HD']%lookup_delete_Some. by eapply Hlt'.
    + intros p' k' id' m' Hloc Hn. destruct (Hrows _ _ _ _ Hloc) as [HD' Hlk']; [done|]. split; [|done].
      apply lookup_delete_Some. split; [|done]. intros <-. destruct Hlk' as [Hb _]. congruence.
    + intros id' m' [Hn HD']%lookup_delete_Some. by apply Hdata.
Qed.

(** Growing. *)
Lemma comp_grown s s' D : comp_inv c s None D → st_ac s' = st_ac s → ec_cap (st_ec s) ≤ ec_cap (st_ec s') →
  ((ec_cap (st_ec s') = ec_cap (st_ec s) ∧ st_page s' = st_page s ∧ st_idx s' = st_idx s ∧ st_has s' = st_has s) ∨
   (arealloc (st_page s) (ec_cap (st_ec s)) (ec_cap (st_ec s')) = POk (st_page s') ∧
    arealloc (st_idx s) (ec_cap (st_ec s)) (ec_cap (st_ec s')) = POk (st_idx s') ∧
    bv_realloc (st_has s) (ec_cap (st_ec s)) (ec_cap (st_ec s')) = POk (st_has s'))) → comp_inv c s' None D.
Proof using.
  intros Hi Hac Hle Hcase.
  assert (∀ (x : arr nat) x', length x = N.to_nat (ec_cap (st_ec s)) → arealloc x (ec_cap (st_ec s)) (ec_cap (st_ec s')) = POk x' →
    length x' = N.to_nat (ec_cap (st_ec s')) ∧ ∀ i v, x !! i = Some (Some v) → x' !! i = Some (Some v)) as Hre.
  { intros x x' Hl. unfold arealloc. destruct (N.eqb_spec (ec_cap (st_ec s)) (ec_cap (st_ec s'))) as [<-|Hn].
    - intros [= <-]. done.
    - intros (H1 & H2 & ->)%copy_prefix_ok. unfold alloc_uninit in *. rewrite replicate_length in H2. split.
      + rewrite app_length, take_length, drop_length, replicate_length. lia.
      + intros i v Hv. pose proof (lookup_lt_Some _ _ _ Hv). rewrite lookup_app_l by (rewrite take_length; lia).
        by rewrite lookup_take by lia. }
  assert (length (st_page s') = N.to_nat (ec_cap (st_ec s')) ∧ length (st_idx s') = N.to_nat (ec_cap (st_ec s')) ∧
    bv_sized (ec_cap (st_ec s')) (st_has s') ∧ (∀ id, bit (st_has s') id = bit (st_has s) id) ∧
    ∀ id p k, linked s id p k → linked s' id p k) as (Hp' & Hx' & Hh' & Hb & Hlk).
  { destruct Hi as [Ha Hp Hx Hh _ _ _]. destruct Hcase as [(-> & Hp1 & Hx1 & Hh1)|(Hp1 & Hx1 & Hh1)].
    - unfold linked. rewrite Hp1, Hx1, Hh1. done.
    - apply Hre in Hp1 as [? Hp1]; [|done]. apply Hre in Hx1 as [? Hx1]; [|done]. apply bv_realloc_ok in Hh1 as [? Hb]; [|done].
      split_and!; try done. intros id p k (L1 & L2 & L3). split_and!; [by rewrite Hb|auto|auto]. }
  destruct Hi as [Ha Hp Hx Hh Hlt Hrows Hdata]. split; rewrite ?Hac; try done.
  - intros id m HD. specialize (Hlt _ _ HD). lia.
  - intros p k id m Hl Hn. destruct (Hrows _ _ _ _ Hl Hn). split; [done|]. auto.
  - intros id m HD. rewrite Hb. destruct (Hdata _ _ HD) as [(p & k & ? & ? & ?)|?]; [left|by right]. exists p, k. auto.
Qed.

(** ** Write queries *)
Lemma qiter_step_with vers it v k r rs e : views_ok it → qrest it = (v, k) :: r →
  ptrs_to_refs (add_to_ptrs (pv_ptrs v) k) = POk rs → pv_ids v !! k = Some (e_id e) → aget vers (e_id e) = POk (e_ver e) →
  ∃ it', qiter_next_with vers it = POk (Some (e, rs), it') ∧ qrest it' = r ∧ views_ok it'.
Proof using.
  intros Hok Hr Hp Hid Hv. pose proof (qiter_next_spec it Hok) as H. rewrite Hr in H.
  destruct H as (it' & Hr' & Hok' & _ & Hvw & Hnx & Hn). rewrite Hp in Hn. simpl in Hn. exists it'. split; [|done].
  unfold qiter_next_with. rewrite Hn. simpl. unfold piter_current_id. rewrite Hnx, Hvw, Hid. simpl. rewrite Hv. by destruct e.
Qed.
Lemma refs_at_app a ly p k T1 T2 rs : refs_at c a ly p k (T1 ++ T2) rs →
  refs_at c a ly p k T1 (take (length T1) rs) ∧ refs_at c a ly p k T2 (drop (length T1) rs).
Proof using.
  unfold refs_at. intros (l1 & l2 & H1 & H2 & ->)%Forall2_app_inv_l. pose proof (Forall2_length _ _ _ H1) as Hl.
  rewrite Hl, take_app, drop_app. done.
Qed.

Definition good_item (s : ac) (q : access) (x : pview * nat) (l : nat * nat) : Prop :=
  x.2 = l.2 ∧ good_view c s q x.1 l.1 ∧ (x.2 < pv_count x.1)%nat.
Definition written (q : access) (f : entity → list (list cell) → list (list N)) (e : entity) (m : gmap tid (list cell)) :=
  put (zip (q_write q) (f e (values m (q_read q)))) m.

Lemma write_loop_wp s (L : gset entity) q f : (∀ e l, length (f e l) = length (q_write q) ∧ vals_ok c (zip (q_write q) (f e l))) →
  (∀ e1 e2, e1 ∈ L → e2 ∈ L → e_id e1 = e_id e2 → e1 = e2) → (∀ e, e ∈ L → aget (ec_ver (st_ec s)) (e_id e) = POk (e_ver e)) →
  ∀ items locs fuel pages D it, Forall2 (good_item (st_ac s) q) items locs → NoDup locs → (length items < fuel)%nat →
  qrest it = items → views_ok it → 
  let a := ac_set_pages pages (st_ac s) in
  comp_inv c (st_set_ac a s) None D → (∀ id, is_Some (D !! id) → ∃ e, e ∈ L ∧ e_id e = id) →
  (∀ p pg, ac_pages (st_ac s) !! p = Some pg → ∃ pg', pages !! p = Some pg' ∧ pg_ids pg' = pg_ids pg) →
  ∃ pages' D', write_loop fuel q (ec_ver (st_ec s)) f pages it = POk pages' ∧
    comp_inv c (st_set_ac (ac_set_pages pages' (st_ac s)) s) None D' ∧
    (∀ p k e m, (p, k) ∈ locs → e ∈ L → loc a p k = Some (e_id e, m) → D' !! e_id e = Some (written q f e m)) ∧
    (∀ id, (∀ p k m, (p, k) ∈ locs → loc a p k ≠ Some (id, m)) → D' !! id = D !! id).
Proof using Hc.
  intros Hf Huniq Hver. induction items as [|[v k] items IH]; intros locs fuel pages D it Hg Hnd Hfuel Hr Hok a Hi HL Hpg.
  { inversion Hg; subst. destruct fuel as [|fuel]; [simpl in Hfuel; lia|]. simpl.
    pose proof (qiter_next_spec it Hok) as H. rewrite Hr in H. destruct H as (it' & Hn & _).
    unfold qiter_next_with. rewrite Hn. simpl. exists pages, D. split_and!; try done. intros p k e m Hx. by apply elem_of_nil in Hx. }
  inversion Hg as [|? [p k'] ? locs' Hx Hg']; subst. destruct Hx as (Hk & Hv & Hlt). simpl in Hk, Hv, Hlt. subst k'.
  apply NoDup_cons in Hnd as [Hni Hnd]. destruct fuel as [|fuel]; [simpl in Hfuel; lia|].
  destruct Hv as (pg & b & ly & Hp & Hpa & Hm & Hids & Hcnt & _ & Hrefs). destruct (Hrefs k Hlt) as (rs & Hrs & Hat).
  destruct (Hpg _ _ Hp) as (pg' & Hp' & Hids').
  assert (is_Some (loc a p k)) as [[id m] Hl].
  { eapply loc_is_Some; [apply Hi|exact Hp'|]. rewrite Hids'. lia. }
  destruct (ci_rows _ _ _ _ Hi _ _ _ _ Hl) as [HD Hlk]; [done|].
  destruct (HL id) as (e & He & <-); [by rewrite HD|].
  assert (pv_ids v !! k = Some (e_id e)) as Hvid.
  { rewrite Hids, <- Hids'. apply loc_Some in Hl as (pg1 & ? & ? & ? & Hp1 & _ & _ & _ & Hid1 & _). simpl in Hp1. congruence. }
  destruct (qiter_step_with _ it v k items rs e Hok Hr Hrs Hvid (Hver _ He)) as (it' & Hn & Hr' & Hok').
  simpl. rewrite Hn. simpl.
  apply refs_at_app in Hat as [Hat1 Hat2]. set (n := length (q_read q)) in *.
  assert (at_loc c a p k (q_read q) (take n rs)) as Hl1 by (exists b, ly; done).
  assert (at_loc c a p k (q_write q) (drop n rs)) as Hl2 by (exists b, ly; done).
  assert (read_ref pages <$> take n rs = values m (q_read q)) as Hread.
  { apply values_Forall2. apply (read_refs_spec c a p k (e_id e) m); [apply Hi|done|done]. }
  rewrite Hread. set (vs := f e (values m (q_read q))). destruct (Hf e (values m (q_read q))) as [Hlen Hvok].
  pose proof (assign_spec c p k (e_id e) (q_write q) (drop n rs) vs a m (ci_ac _ _ _ _ Hi) Hl Hl2 Hlen Hvok) as Hw.
  set (pages1 := assign_to_refs pages (drop n rs) vs).
  change (ac_set_pages (assign_to_refs (ac_pages a) (drop n rs) vs) a) with (ac_set_pages pages1 (st_ac s)) in Hw.
  pose proof (rewrite_inv _ _ _ _ _ _ _ _ Hi Hlk Hl Hw) as Hi1. fold (written q f e m) in Hi1, Hw.
  destruct (IH locs' fuel pages1 _ it' Hg' Hnd ltac:(simpl in Hfuel; lia) Hr' Hok' Hi1) as (pages' & D' & Hloop & Hi' & Hd1 & Hd2).
  { intros id. rewrite lookup_insert_is_Some. intros [<-|[_ ?]]; [by exists e|auto]. }
  { intros p1 pg1 Hp1. destruct (Hpg _ _ Hp1) as (pg2 & Hp2 & <-). destruct (rw_pages _ _ _ _ _ _ _ Hw _ _ Hp2) as (pg3 & Hp3 & Hi3 & _). eauto. }
  exists pages', D'. split; [done|]. split; [done|].
  assert (∀ p1 k1, (p1, k1) ∈ locs' → loc (ac_set_pages pages1 (st_ac s)) p1 k1 = loc a p1 k1) as Hsame.
  { intros p1 k1 Hin. apply Hw. congruence. }
  split.
  - intros p1 k1 e1 m1 Hin He1 Hl'. apply elem_of_cons in Hin as [[= -> ->]|Hin].
    + rewrite Hl in Hl'. injection Hl' as Heid <-. rewrite <- (Huniq _ _ He He1 Heid). rewrite Hd2.
      * by rewrite lookup_insert.
      * intros p1 k1 m1 Hin Hl1'. rewrite Hsame in Hl1' by done.
        destruct (ci_rows _ _ _ _ Hi _ _ _ _ Hl1') as [_ Hlk1]; [done|]. destruct (linked_fun _ _ _ _ _ _ Hlk Hlk1) as [-> ->]. done.
    + eapply Hd1; [done|done|]. by rewrite Hsame.
  - intros id Hnone. rewrite Hd2.
    + rewrite lookup_insert_ne; [done|]. intros <-. eapply (Hnone p k m); [by left|done].
    + intros p1 k1 m1 Hin. rewrite Hsame by done. apply Hnone. by right.
Qed.

Lemma put_nil vs m : put (zip [] vs) m = m.
Proof using. by destruct vs. Qed.
Lemma query_write_wp s I L D q f U P : comp_state s I L D → NoDup (q_types q) →
  (∀ e l, length (f e l) = length (q_write q) ∧ vals_ok c (zip (q_write q) (f e l))) →
  sat U (query_write c q f s) (λ s' _, ids_part s' = ids_part s ∧ ∃ D', comp_inv c s' None D' ∧
    (∀ e m, e ∈ L → D !! e_id e = Some m → D' !! e_id e = Some (if has_all m (q_types q) then written q f e m else m)) ∧
    (∀ id, is_Some (D' !! id) ↔ is_Some (D !! id))) P.
Proof using Hc.
  intros Hs Hq Hf. pose proof (cs_inv _ _ _ _ Hs) as Hi. pose proof (cs_ec _ _ _ _ Hs) as Hec. pose proof Hc as [Hbs _ _].
  destruct (component_query_spec c q s Hbs (ci_ac _ _ _ _ Hi) Hq) as (it & locs & Hit & Hok & Hcnt & Hg & Hnd & Hin).
  unfold query_write. do 4 wp1. rewrite Hit. unfold psat. do 2 wp1.
  assert (st_set_ac (ac_set_pages (ac_pages (st_ac s)) (st_ac s)) s = s) as Hid by (destruct s as [? []]; done).
  destruct (write_loop_wp s L q f Hf) with (items := qrest it) (locs := locs) (fuel := S (qiter_len it)) (pages := ac_pages (st_ac s)) (D := D) (it := it)
    as (pages' & D' & -> & Hi' & Hd1 & Hd2); try done.
  - intros e1 e2 [_ H1]%(inv_live _ _ _ Hec) [_ H2]%(inv_live _ _ _ Hec) Heq. rewrite Heq, H2 in H1. destruct e1, e2; simpl in *. congruence.
  - intros e [_ H1]%(inv_live _ _ _ Hec). by apply aget_ver.
  - unfold qiter_len. rewrite Hcnt. lia.
  - by rewrite Hid.
  - intros id. apply (cs_dom _ _ _ _ Hs).
  - intros p pg Hp. eauto.
  - unfold psat. wp. split; [done|]. exists D'. split; [done|].
    assert (ac_set_pages (ac_pages (st_ac s)) (st_ac s) = st_ac s) as Hac by (by destruct (st_ac s)). rewrite Hac in Hd1, Hd2.
    assert (∀ e m, e ∈ L → D !! e_id e = Some m → D' !! e_id e = Some (if has_all m (q_types q) then written q f e m else m)) as Hval.
    { intros e m He HD. destruct (has_all m (q_types q)) eqn:E.
      + destruct (ci_data _ _ _ _ Hi _ _ HD) as [(p & k & _ & Hlk & Hl)|[Hb ->]].
        * eapply Hd1; [|done|done]. apply Hin. eauto.
        * assert (q_types q = []) as Hnil.
          { rewrite has_all_spec in E. destruct (q_types q) as [|t T]; [done|]. destruct (E t) as [? Hx]; [by left|]. by rewrite lookup_empty in Hx. }
          unfold q_types in Hnil. apply app_nil in Hnil as [_ Hw]. unfold written. rewrite Hw, put_nil. rewrite Hd2; [done|].
          intros p k m' _ Hl. destruct (ci_rows _ _ _ _ Hi _ _ _ _ Hl) as [_ (Hb' & _)]; [done|]. congruence.
      + rewrite Hd2; [done|]. intros p k m' (id' & m1 & Hl1 & Hm1)%Hin Hl. rewrite Hl in Hl1. injection Hl1 as <- <-.
        destruct (ci_rows _ _ _ _ Hi _ _ _ _ Hl) as [HD' _]; [done|]. congruence. }
    split; [done|]. intros id. split.
    + intros [m' Hm']. destruct (decide (is_Some (D !! id))) as [|Hn]; [done|]. rewrite Hd2 in Hm'; [by rewrite Hm'|].
      intros p k m Hl' Hl. destruct (ci_rows _ _ _ _ Hi _ _ _ _ Hl) as [HD' _]; [done|]. apply Hn. by rewrite HD'.
    + intros [m Hm]. destruct (proj1 (cs_dom _ _ _ _ Hs id)) as (e & He & <-); [by rewrite Hm|]. rewrite (Hval _ _ He Hm). done.
Qed.
End comp.

(** ** The types of an entity *)
Lemma forget_lookup T (m : gmap tid (list cell)) t : forget T m !! t = if decide (t ∈ T) then None else m !! t.
Proof.
  unfold forget. destruct (decide (t ∈ T)) as [Ht|Ht].
  - apply map_filter_lookup_None. right. intros x _ H. by apply H.
  - destruct (m !! t) as [v|] eqn:E.
    + apply map_filter_lookup_Some. done.
    + apply map_filter_lookup_None. by left.
Qed.
Lemma put_dom vals (m : gmap tid (list cell)) : dom (put vals m) = dom m ∪ (list_to_set vals.*1 : gset tid).
Proof.
  unfold put. revert m. induction vals as [|[t v] vals IH]; intros m; simpl; [set_solver|]. rewrite IH, dom_insert_L. set_solver.
Qed.
Lemma put_dom_same vals (m : gmap tid (list cell)) T : has_all m T = true → (∀ t, t ∈ vals.*1 → t ∈ T) → dom (put vals m) = dom m.
Proof.
  intros H Hsub. rewrite put_dom. rewrite has_all_spec in H. apply set_eq. intros t. rewrite elem_of_union, elem_of_list_to_set, elem_of_dom.
  split; [|by left]. intros [?|Ht]; [done|]. auto.
Qed.
Lemma zip_fst_sub {A B} (l : list A) (k : list B) x : x ∈ (zip l k).*1 → x ∈ l.
Proof. revert k. induction l as [|y l IH]; intros [|z k]; simpl; try by intros ?%elem_of_nil. rewrite !elem_of_cons. naive_solver. Qed.
Lemma comps_types tr e x : comps tr e x → (λ m : gmap tid (list cell), dom m) <$> x = types tr e.
Proof.
  induction 1 as [e|tr e x o r x' _ IH Hst]; [done|]. unfold types in *. rewrite foldl_app. simpl. rewrite <- IH.
  destruct o; simpl in *; try (subst; done).
  - subst. destruct (decide (r = Some e)); [|done]. simpl. by rewrite dom_empty_L.
  - destruct (decide (r = Some e)); [|by subst]. destruct Hst as (m & -> & Hdom). simpl. f_equal. apply set_eq. intros t. by rewrite elem_of_list_to_set, elem_of_dom.
  - subst. by destruct (decide (e0 = e)).
  - subst. destruct (decide (e0 = e)); [|done]. destruct x as [m|]; simpl; [|done]. f_equal. apply put_dom.
  - subst. destruct (decide (e0 = e)); [|done]. destruct x as [m|]; simpl; [|done]. f_equal. apply set_eq. intros t. rewrite elem_of_difference, elem_of_list_to_set, !elem_of_dom, forget_lookup.
    destruct (decide (t ∈ T)); [|naive_solver]. split; [by intros []|naive_solver].
  - subst. destruct (decide (e0 = e)); [|done]. destruct x as [m|]; simpl; [|done]. f_equal. destruct (has_all m vals.*1) eqn:E; [|done]. by eapply put_dom_same.
  - subst. destruct x as [m|]; simpl; [|done]. f_equal. destruct (has_all m (q_types q)) eqn:E; [|done]. eapply put_dom_same; [done|].
    intros t Ht%zip_fst_sub. unfold q_types. apply elem_of_app. by right.
Qed.
