(** OrdQ.v — ordered queries. *)
From Verif.Proofs Require Export EntQ OrdersX.
Local Open Scope N_scope.

(** Following the links walks along the list. *)
Definition chain (nm : arr N) (l : list N) : Prop :=
  (∀ l1 x l2, l = l1 ++ x :: l2 → aget nm x = POk (hdn l2)) ∧ ∀ x, x ∈ l → x ≠ NULL_ID.
Lemma chain_cons nm x l : chain nm (x :: l) → x ≠ NULL_ID ∧ aget nm x = POk (hdn l) ∧ chain nm l.
Proof.
  intros [H1 H2]. split_and!; [apply H2; by left|by apply (H1 [])|]. split; [|intros y Hy; apply H2; by right].
  intros l1 y l2 ->. by apply (H1 (x :: l1)).
Qed.
Lemma chain_drop nm n l : chain nm l → chain nm (drop n l).
Proof.
  revert l. induction n as [|n IH]; intros l H; [by rewrite drop_0|]. destruct l as [|x l]; [done|]. simpl. apply IH. by apply chain_cons in H as (_ & _ & ?).
Qed.
Lemma group_chain c s cap G t : search_ok (c_bs c) → orders_hold s cap G →
  match get_group_index c s t with
  | None => G t = []
  | Some i => ∃ nm, vget_unchecked (og_fwd s) i = POk nm ∧ vget_unchecked (og_head s) i = POk (hdn (G t)) ∧ chain nm (G t)
  end.
Proof.
  intros Hbs (gs & Hi). unfold get_group_index.
  destruct (search_cases _ _ t Hbs (ord_sorted _ _ _ _ Hi)) as [(i & -> & Hl)|(i & -> & Hle & Hn & Hst)]; [|by apply (ord_other _ _ _ _ Hi)].
  destruct (lookup_lt_is_Some_2 gs i) as [g Hg]. { rewrite (ord_len _ _ _ _ Hi). by eapply lookup_lt_Some. }
  assert (grp_repr cap g (G t)) as Hr by (apply (ord_repr _ _ _ _ Hi); by exists i).
  exists (g_fwd g). rewrite (ord_head _ _ _ _ Hi), (ord_fwd _ _ _ _ Hi).
  rewrite !(proj2 (vget_ok _ _ _) (list_lookup_fmap_Some_2 _ _ _ _ Hg)). rewrite (gr_head _ _ _ Hr). split_and!; try done.
  split; [|intros x Hx; by apply (gr_lt _ _ _ Hr)]. intros l1 x l2 Heq.
  rewrite (aget_lgood cap); [|apply Hr|apply (gr_lt _ _ _ Hr); rewrite Heq; set_solver].
  rewrite (gr_nxt _ _ _ Hr), Heq, nxt_at; [done|]. rewrite <- Heq. apply Hr.
Qed.

(** ** Termination *)
Lemma extend_stops s nm p l : chain nm l → ∀ fuel k, (length l < fuel)%nat →
  match oq_extend fuel s nm p k (hdn l) with
  | None => False
  | Some (POk (_, n)) => ∃ j, (j ≤ length l)%nat ∧ n = hdn (drop j l)
  | Some _ => True
  end.
Proof.
  induction l as [|x l IH]; intros Hch fuel k Hf; (destruct fuel as [|fuel]; [simpl in Hf; lia|]); simpl in *.
  - by exists 0%nat.
  - apply chain_cons in Hch as (Hx & Hn & Hch). rewrite (proj2 (N.eqb_neq _ _) Hx). destruct (get_eia s x) as [[p' k']| |]; try done. simpl.
    destruct (negb _ || negb _). { exists 0%nat. split; [lia|done]. }
    rewrite Hn. specialize (IH Hch fuel (S k) ltac:(lia)). destruct (oq_extend _ _ _ _ _ _) as [[[? n]| |]|]; try done.
    destruct IH as (j & Hj & ->). exists (S j). split; [lia|done].
Qed.
Lemma ranges_stop c q s nm n : ∀ l fuel, chain nm l → (length l ≤ n)%nat → (n < fuel)%nat → oq_ranges fuel c q s nm (hdn l) ≠ None.
Proof.
  induction n as [|n IH]; intros l fuel Hch Hl Hf; (destruct fuel as [|fuel]; [lia|]).
  - destruct l; [|simpl in Hl; lia]. done.
  - destruct l as [|x l]; [done|]. simpl in Hl. apply chain_cons in Hch as (Hx & Hn & Hch). simpl. rewrite (proj2 (N.eqb_neq _ _) Hx).
    destruct (oq_member c q s x) as [[[le v]|]| |]; try done; rewrite Hn.
    + pose proof (extend_stops s nm (ea_page le) l Hch fuel (S (ea_idx le)) ltac:(lia)) as He.
      destruct (oq_extend _ _ _ _ _ _) as [[[k n']| |]|]; try done. destruct He as (j & Hj & ->). simpl.
      specialize (IH (drop j l) fuel (chain_drop _ _ _ Hch)). rewrite drop_length in IH. specialize (IH ltac:(lia) ltac:(lia)).
      by destruct (oq_ranges _ _ _ _ _ _) as [[]|].
    + apply IH; [done|lia|lia].
Qed.
Lemma ordered_query_terminates c cap tr s q g fuel : cfg_ok c → c_mode c = Debug → run c cap tr s → orders_proper tr →
  (length (members tr g) < fuel)%nat → ordered_query fuel c q s g ≠ None.
Proof.
  intros [Hbs _ _] Hmd Hr Hp Hf. destruct (run_orders c cap Hbs Hmd _ _ Hr Hp) as [_ Hh].
  pose proof (group_chain c _ _ _ g Hbs Hh) as Hg. unfold ordered_query. destruct (get_group_index c (st_orders s) g); [|done].
  destruct Hg as (nm & -> & -> & Hch). pose proof (ranges_stop c q s nm _ _ fuel Hch (le_n _)) as H. rewrite fmap_length in H.
  specialize (H Hf). by destruct (oq_ranges _ _ _ _ _ _) as [[]|].
Qed.

(** ** Iteration *)
Lemma oiter_step zs it : oi_ranges it = zs.*1 → oi_views it = zs.*2 → rok zs → rpos zs (oi_range it) (oi_off it) →
  match rrest zs (oi_range it) (oi_off it) with
  | [] => oiter_next it = POk (None, it)
  | (v, i) :: r => ∀ rs, ptrs_to_refs (add_to_ptrs (pv_ptrs v) i) = POk rs →
      ∃ it', oiter_next it = POk (Some rs, it') ∧
        oi_ranges it' = zs.*1 ∧ oi_views it' = zs.*2 ∧ oi_cur it' = i ∧ (pred (oi_range it') < length zs)%nat ∧
        rpos zs (oi_range it') (oi_off it') ∧ rrest zs (oi_range it') (oi_off it') = r
  end.
Proof.
  intros Hr Hv Hok Hpos. destruct (zs !! oi_range it) as [[[a b] v]|] eqn:E.
  - pose proof (Hpos _ E) as Hlt. simpl in Hlt. destruct (rrest_step _ _ _ _ _ _ Hok E Hlt) as [-> Hp'].
    intros rs Hrs. unfold oiter_next. rewrite Hr, list_lookup_fmap, E. simpl.
    destruct (if Nat.leb _ _ then _ else _) as [r' o'] eqn:Ep. unfold vget_unchecked. rewrite Hv, list_lookup_fmap, E. simpl. rewrite Hrs. simpl.
    eexists. split; [done|]. simpl. simpl in Hp'. split_and!; try done. apply lookup_lt_Some in E.
    destruct (Nat.leb _ _); injection Ep as <- <-; simpl; lia.
  - unfold rrest. rewrite drop_ge by (by apply lookup_ge_None). unfold oiter_next. by rewrite Hr, list_lookup_fmap, E.
Qed.
Lemma oiter_yields zs (f : pview * nat → list cref) rest : ∀ it,
  oi_ranges it = zs.*1 → oi_views it = zs.*2 → rok zs → rpos zs (oi_range it) (oi_off it) →
  rrest zs (oi_range it) (oi_off it) = rest →
  (∀ v i, (v, i) ∈ rest → ptrs_to_refs (add_to_ptrs (pv_ptrs v) i) = POk (f (v, i))) →
  ∃ it', yields oiter_next it (f <$> rest) it'.
Proof.
  induction rest as [|[v i] rest IH]; intros it Hr Hv Hok Hpos Hrest Hf; pose proof (oiter_step zs it Hr Hv Hok Hpos) as H; rewrite Hrest in H.
  - exists it. by constructor.
  - destruct (H _ (Hf v i ltac:(by left))) as (it1 & Hn & Hr1 & Hv1 & _ & _ & Hp1 & Hrest1).
    destruct (IH it1) as (it' & Hy); try done. { intros; apply Hf; by right. }
    exists it'. simpl. by econstructor.
Qed.
(** All views show the same ids: this is the case when with_entities is right. *)
Lemma oiter_yields_with zs (f : pview * nat → list cref) (g : nat → entity) vers ids rest : ∀ it,
  (∀ z, z ∈ zs → pv_ids z.2 = ids) →
  oi_ranges it = zs.*1 → oi_views it = zs.*2 → rok zs → rpos zs (oi_range it) (oi_off it) →
  rrest zs (oi_range it) (oi_off it) = rest →
  (∀ v i, (v, i) ∈ rest → ptrs_to_refs (add_to_ptrs (pv_ptrs v) i) = POk (f (v, i)) ∧ ids !! i = Some (e_id (g i)) ∧ aget vers (e_id (g i)) = POk (e_ver (g i))) →
  ∃ it', yields (oiter_next_with vers) it ((λ x, (g x.2, f x)) <$> rest) it'.
Proof.
  induction rest as [|[v i] rest IH]; intros it Hids Hr Hv Hok Hpos Hrest Hf; pose proof (oiter_step zs it Hr Hv Hok Hpos) as H; rewrite Hrest in H.
  - exists it. constructor. unfold oiter_next_with. by rewrite H.
  - destruct (Hf v i ltac:(by left)) as (Hrs & Hid & Hver). destruct (H _ Hrs) as (it1 & Hn & Hr1 & Hv1 & Hcur & Hpred & Hp1 & Hrest1).
    destruct (IH it1) as (it' & Hy); try done. { intros; apply Hf; by right. }
    exists it'. simpl. econstructor; [|done]. unfold oiter_next_with. rewrite Hn. simpl. unfold vget_unchecked. rewrite Hv1, list_lookup_fmap.
    destruct (lookup_lt_is_Some_2 _ _ Hpred) as [z Hz]. rewrite Hz. simpl. rewrite (Hids z) by (by eapply elem_of_list_lookup_2).
    rewrite Hcur, Hid. simpl. rewrite Hver. simpl. by destruct (g i).
Qed.
Lemma rall_length zs : length (rall zs) = sum_list ((λ x, (x.1.2 - x.1.1)%nat) <$> zs).
Proof. unfold rall. induction zs as [|x zs IH]; [done|]. rewrite !fmap_cons. simpl. rewrite app_length, IH. unfold ritems. by rewrite fmap_length, seq_length. Qed.

Section oq.
Context (c : cfg) (Hc : cfg_ok c) (s : store) (I : list entity) (L : gset entity) (D : gmap N (gmap tid (list cell))).
Context (Hs : comp_state c s I L D) (q : access) (Hq : NoDup (q_types q)) (Hne : q_types q ≠ []).

(** The member has a row. *)
Definition placed (e : entity) : Prop := e ∈ L ∧ ∃ m, D !! e_id e = Some m ∧ m ≠ ∅.
Lemma placed_row e : placed e → ∃ m p k, D !! e_id e = Some m ∧ linked s (e_id e) p k ∧ loc (st_ac s) p k = Some (e_id e, m).
Proof using Hs.
  clear Hc Hq Hne. intros (He & m & HD & Hm). destruct (cs_row _ _ _ _ _ _ Hs He) as (m' & HD' & _ & [(p & k & Hlk & Hl & _)|(_ & _ & ->)]); [eauto 6|congruence].
Qed.
Lemma oextend_spec nm p l : chain nm (e_id <$> l) → (∀ e, e ∈ l → placed e) → ∀ fuel k, (length l < fuel)%nat →
  ∃ n, oq_extend fuel s nm p k (hdn (e_id <$> l)) = Some (POk ((k + n)%nat, hdn (e_id <$> drop n l))) ∧ (n ≤ length l)%nat ∧
    ∀ j e, (j < n)%nat → l !! j = Some e → linked s (e_id e) p (k + j)%nat.
Proof using Hs.
  clear Hc Hq Hne. induction l as [|e l IH]; intros Hch Hpl fuel k Hf; (destruct fuel as [|fuel]; [simpl in Hf; lia|]).
  - exists 0%nat. simpl. rewrite Nat.add_0_r. split_and!; [done|lia|lia].
  - rewrite fmap_cons in *. apply chain_cons in Hch as (Hx & Hn & Hch). simpl. rewrite (proj2 (N.eqb_neq _ _) Hx).
    destruct (placed_row e) as (m & p' & k' & _ & Hlk & _); [apply Hpl; by left|]. rewrite (linked_eia _ _ _ _ Hlk). simpl.
    destruct (Nat.eqb_spec p' p) as [->|]; simpl. 2: { exists 0%nat. rewrite Nat.add_0_r. simpl. split_and!; [done|lia|lia]. }
    destruct (Nat.eqb_spec k' k) as [->|]; simpl. 2: { exists 0%nat. rewrite Nat.add_0_r. simpl. split_and!; [done|lia|lia]. }
    rewrite Hn. destruct (IH Hch ltac:(intros; apply Hpl; by right) fuel (S k) ltac:(simpl in Hf; lia)) as (n & -> & Hle & Hlnk).
    exists (S n). split_and!; [do 3 f_equal; lia|lia|]. intros [|j] e' Hj He'; simpl in He'.
    + injection He' as <-. by rewrite Nat.add_0_r.
    + replace (k + S j)%nat with (S k + j)%nat by lia. apply Hlnk; [lia|done].
Qed.
Definition oat (x : pview * nat) (e : entity) : Prop :=
  e ∈ L ∧ ∃ m p, linked s (e_id e) p x.2 ∧ loc (st_ac s) p x.2 = Some (e_id e, m) ∧ good_view c (st_ac s) q x.1 p.
Lemma member_spec e m p k : D !! e_id e = Some m → linked s (e_id e) p k → loc (st_ac s) p k = Some (e_id e, m) →
  if has_all m (q_types q) then ∃ v, oq_member c q s (e_id e) = POk (Some (Eia p k, v)) ∧ good_view c (st_ac s) q v p
  else oq_member c q s (e_id e) = POk None.
Proof using Hc Hs Hq.
  clear Hne. intros HD Hlk Hl. pose proof (ci_ac _ _ _ _ (cs_inv _ _ _ _ _ Hs)) as Hi.
  destruct (loc_view c Hc _ q p k _ m Hi Hq Hl) as (i & al & pg & H1 & H2 & H3 & H4 & Ho).
  unfold oq_member. rewrite (linked_eia _ _ _ _ Hlk). simpl. rewrite H3. simpl. rewrite H1. simpl. rewrite H2. simpl. rewrite H4.
  destruct (has_all m (q_types q)); simpl; [|done]. destruct (Ho eq_refl) as (offs & -> & Hg). eexists. split; [done|]. done.
Qed.
Lemma oranges_spec nm n : ∀ l fuel, chain nm (e_id <$> l) → (∀ e, e ∈ l → placed e) → (length l ≤ n)%nat → (n < fuel)%nat →
  ∃ zs, oq_ranges fuel c q s nm (hdn (e_id <$> l)) = Some (POk zs) ∧ rok zs ∧ Forall2 oat (rall zs) (List.filter (matches L D q) l) ∧
    ∀ z, z ∈ zs → ∃ e p k, e ∈ List.filter (matches L D q) l ∧ linked s (e_id e) p k ∧ good_view c (st_ac s) q z.2 p.
Proof using Hc Hs Hq.
  clear Hne. pose proof (ci_ac _ _ _ _ (cs_inv _ _ _ _ _ Hs)) as Hi. induction n as [|n IH]; intros l fuel Hch Hpl Hl Hf; (destruct fuel as [|fuel]; [lia|]).
  - destruct l; [|simpl in Hl; lia]. exists []. split_and!; [done|by intros x ?%elem_of_nil|constructor|by intros ? ?%elem_of_nil].
  - destruct l as [|e l]. { exists []. split_and!; [done|by intros x ?%elem_of_nil|constructor|by intros ? ?%elem_of_nil]. }
    simpl in Hl. rewrite fmap_cons in *. apply chain_cons in Hch as (Hx & Hn & Hch). pose proof (Hpl e ltac:(by left)) as Hple.
    destruct (placed_row e Hple) as (m & p & k & HD & Hlk & Hloc). pose proof (member_spec e m p k HD Hlk Hloc) as Hmem.
    assert (matches L D q e = has_all m (q_types q)) as Hm.
    { unfold matches. rewrite HD, bool_decide_true; [done|]. by destruct Hple. }
    simpl. rewrite (proj2 (N.eqb_neq _ _) Hx), Hm. destruct (has_all m (q_types q)) eqn:Hall.
    + destruct Hmem as (v & -> & Hgv). rewrite Hn. simpl.
      destruct (oextend_spec nm p l Hch ltac:(intros; apply Hpl; by right) fuel (S k) ltac:(lia)) as (j & -> & Hj & Hlnk). simpl.
      destruct (IH (drop j l) fuel) as (zs & Hzs & Hok & Hf2 & Hvs).
      { rewrite fmap_drop. by apply chain_drop. }
      { intros e' He'. apply Hpl. right. rewrite <- (take_drop j l). apply elem_of_app. by right. }
      { rewrite drop_length. lia. } { lia. }
      rewrite Hzs. simpl. eexists. split; [done|]. split_and!.
      * intros x [->|Hx']%elem_of_cons; [simpl; lia|by apply Hok].
      * assert (∀ i e', (i < j)%nat → l !! i = Some e' → matches L D q e' = true ∧ oat (v, (S k + i)%nat) e') as Hrun.
        { intros i e' Hi' He'. pose proof (Hlnk i e' Hi' He') as Hlk'. pose proof (Hpl e' ltac:(right; by eapply elem_of_list_lookup_2)) as Hple'.
          destruct (placed_row e' Hple') as (m1 & p1 & k1 & HD1 & Hlk1 & Hloc1). destruct (linked_fun _ _ _ _ _ _ Hlk' Hlk1) as [<- <-].
          destruct Hple' as [HeL _]. split.
          - unfold matches. rewrite HD1, bool_decide_true by done. simpl.
            destruct Hgv as (pg1 & a1 & ly1 & _ & Hpa1 & Hm1 & _). destruct (loc_page _ _ _ _ _ _ Hi Hloc1) as (pg2 & i2 & a2 & ly2 & _ & Hp2a2 & Ha2 & _ & Hpa2 & _).
            assert (a2 = a1) as -> by congruence. apply has_all_spec. intros t Ht. apply (loc_dom _ _ _ _ _ _ _ _ Hi Hloc1 Hp2a2 Ha2). auto.
          - split; [done|]. exists m1, p. done. }
        unfold rall. simpl. unfold ritems at 1. cbn [fst snd ea_idx ea_page]. replace (S (k + j) - k)%nat with (S j) by lia. simpl. constructor.
        { split; [by destruct Hple|]. exists m, p. done. }
        assert (∀ i m0, (i + m0 = j)%nat → Forall2 oat ((λ i, (v, i)) <$> seq (S k + i) m0) (List.filter (matches L D q) (take m0 (drop i l)))) as Htake.
        { intros i m0. revert i. induction m0 as [|m0 IHm]; intros i Hi'; [constructor|].
          destruct (lookup_lt_is_Some_2 l i) as [e' He']; [lia|]. destruct (Hrun i e') as [Hm' Hv']; [lia|done|].
          rewrite (drop_S _ _ _ He'). simpl. rewrite Hm'. constructor; [done|]. replace (S (k + i)) with (S k + i)%nat by lia.
          specialize (IHm (S i) ltac:(lia)). replace (S k + S i)%nat with (S (S k + i)) in IHm by lia. exact IHm. }
        specialize (Htake 0%nat j ltac:(lia)). rewrite drop_0 in Htake. replace (S k + 0)%nat with (S k) in Htake by lia.
        assert (List.filter (matches L D q) l = List.filter (matches L D q) (take j l) ++ List.filter (matches L D q) (drop j l)) as ->.
        { by rewrite <- List.filter_app, take_drop. }
        by apply Forall2_app.
      * intros z [->|Hz]%elem_of_cons; [exists e, p, k; split_and!; [by left|done|done]|].
        destruct (Hvs z Hz) as (e' & p' & k' & He' & ?). exists e', p', k'. split; [|done]. right.
        apply elem_of_list_In, List.filter_In in He' as [He' ?]. apply elem_of_list_In, List.filter_In. split; [|done].
        apply elem_of_list_In. apply elem_of_list_In in He'. rewrite <- (take_drop j l). apply elem_of_app. by right.
    + rewrite Hmem, Hn. apply IH; [done|intros; apply Hpl; by right|lia|lia].
Qed.

End oq.

Section oq2.
Context (c : cfg) (Hc : cfg_ok c) (s : store) (I : list entity) (L : gset entity) (D : gmap N (gmap tid (list cell))).
Context (Hs : comp_state c s I L D) (q : access) (Hq : NoDup (q_types q)) (Hne : q_types q ≠ []).

Definition view_item (x : pview * nat) : list cref :=
  match ptrs_to_refs (add_to_ptrs (pv_ptrs x.1) x.2) with POk rs => rs | _ => [] end.
Lemma oat_refs x e : oat c s L q x e → ptrs_to_refs (add_to_ptrs (pv_ptrs x.1) x.2) = POk (view_item x) ∧
  get_components_refs c s e (q_types q) = POk (Some (view_item x)) ∧
  ∀ p, linked s (e_id e) p x.2 → view_item x ≠ [] ∧ (∀ r, r ∈ view_item x → r_page r = p) ∧
    ∃ pg, ac_pages (st_ac s) !! p = Some pg ∧ pv_ids x.1 = pg_ids pg ∧ pg_ids pg !! x.2 = Some (e_id e).
Proof using Hc Hs Hne.
  clear Hq. intros (He & m & p & Hlk & Hloc & Hgv). destruct (EntQ.view_refs c Hc _ _ _ _ _ _ _ _ _ _ Hs Hne Hgv Hloc He) as (_ & rs & Hrs & Hg).
  assert (view_item x = rs) as Hv by (unfold view_item; by rewrite Hrs). rewrite Hv. split_and!; try done.
  intros p' Hlk'. destruct (linked_fun _ _ _ _ _ _ Hlk Hlk') as [<- _].
  destruct Hgv as (pg & a & ly & Hpg & Hpa & Hm & Hids & Hcnt & _ & Hrefs).
  destruct (loc_page _ _ _ _ _ _ (ci_ac _ _ _ _ (cs_inv _ _ _ _ _ Hs)) Hloc) as (pg' & i & a' & ly' & Hpg' & _ & _ & _ & _ & _ & _ & _ & Hid & _).
  assert (pg' = pg) as -> by congruence. destruct (Hrefs x.2) as (rs' & Hrs' & Hat). { rewrite Hcnt. by eapply lookup_lt_Some. }
  assert (rs' = rs) as -> by congruence. split_and!; [|
    |exists pg; done].
  - intros ->. unfold refs_at in Hat. apply Forall2_nil_inv_r in Hat. done.
  - intros r (n & Hn)%elem_of_list_lookup. destruct (Forall2_lookup_r _ _ _ _ _ Hat Hn) as (t & _ & j & o & _ & _ & ->). done.
Qed.
Lemma ordered_items g l fuel :
  match get_group_index c (st_orders s) g with
  | None => e_id <$> l = []
  | Some i => ∃ nm, vget_unchecked (og_fwd (st_orders s)) i = POk nm ∧ vget_unchecked (og_head (st_orders s)) i = POk (hdn (e_id <$> l)) ∧ chain nm (e_id <$> l)
  end →
  (∀ e, e ∈ l → placed L D e) → (length l < fuel)%nat →
  ∃ it items it', ordered_query fuel c q s g = Some (POk it) ∧ yields oiter_next it items.*2 it' ∧ oiter_len it = length items ∧
    items.*1 = List.filter (matches L D q) l ∧ (∀ e rs, (e, rs) ∈ items → get_components_refs c s e (q_types q) = POk (Some rs)) ∧
    (one_page items → ∃ it'', yields (oiter_next_with (ec_ver (st_ec s))) it items it'').
Proof using Hc Hs Hq Hne.
  intros Hg Hpl Hf. unfold ordered_query. destruct (get_group_index c (st_orders s) g) as [gi|].
  2: { destruct l; [|done]. set (it := OIter _ _ _ _ _ _). exists it, [], it. split_and!; [done|by constructor|done|done|by intros ? ? ?%elem_of_nil|].
       intros _. exists it. by constructor. }
  destruct Hg as (nm & -> & -> & Hch).
  destruct (oranges_spec c Hc s I L D Hs q Hq nm (length l) l fuel Hch Hpl ltac:(done) Hf) as (zs & -> & Hok & Hf2 & Hvs). simpl.
  set (it := OIter _ _ _ _ _ _). set (es := List.filter (matches L D q) l) in *.
  assert (∀ v i, (v, i) ∈ rall zs → ptrs_to_refs (add_to_ptrs (pv_ptrs v) i) = POk (view_item (v, i))) as Hptr.
  { intros v i (n & Hn)%elem_of_list_lookup. destruct (Forall2_lookup_l _ _ _ _ _ Hf2 Hn) as (e & _ & Hat). by apply (oat_refs (v, i) e). }
  destruct (oiter_yields zs view_item (rall zs) it) as (it' & Hy); try done. { by apply rpos_0. } { apply rrest_0. }
  pose proof (Forall2_length _ _ _ Hf2) as Hlen.
  exists it, (zip es (view_item <$> rall zs)), it'. split_and!; try done.
  - rewrite snd_zip; [done|]. rewrite fmap_length. lia.
  - unfold oiter_len, it, oi_len. rewrite <- rall_length, zip_with_length, fmap_length. lia.
  - rewrite fst_zip; [done|]. rewrite fmap_length. lia.
  - intros e rs (n & Hn)%elem_of_list_lookup. rewrite lookup_zip_with_Some in Hn. destruct Hn as (e' & rs' & [= <- <-] & He & Hrs).
    rewrite list_lookup_fmap in Hrs. destruct (rall zs !! n) as [x|] eqn:Hx; [|done]. injection Hrs as <-.
    destruct (Forall2_lookup_l _ _ _ _ _ Hf2 Hx) as (e' & He' & Hat). assert (e' = e) as -> by congruence. by apply oat_refs.
  - intros Hone. destruct (rall zs) as [|x0 xs] eqn:Hall0.
    { destruct (oiter_yields_with zs view_item (λ _, entity_null) (ec_ver (st_ec s)) [] [] it) as (it'' & Hy'').
      - intros z Hz. exfalso. apply elem_of_list_lookup in Hz as [n Hz]. pose proof (rall_length zs) as Hl0. rewrite Hall0 in Hl0. simpl in Hl0.
        pose proof (Hok z ltac:(by eapply elem_of_list_lookup_2)) as Hzlt.
        assert (∀ (k : list nat) y, y ∈ k → (y ≤ sum_list k)%nat) as Hsum.
        { clear. induction k as [|a k IH]; intros y Hy; [by apply elem_of_nil in Hy|]. simpl. apply elem_of_cons in Hy as [->|Hy]; [lia|]. specialize (IH _ Hy). lia. }
        specialize (Hsum ((λ x, (x.1.2 - x.1.1)%nat) <$> zs) (z.1.2 - z.1.1)%nat). rewrite <- Hl0 in Hsum.
        assert ((z.1.2 - z.1.1)%nat ∈ (λ x : nat * nat * pview, (x.1.2 - x.1.1)%nat) <$> zs) as Hin.
        { apply elem_of_list_fmap. exists z. split; [done|]. by eapply elem_of_list_lookup_2. }
        specialize (Hsum Hin). lia.
      - done. - done. - done. - by apply rpos_0. - rewrite <- Hall0. apply rrest_0. - intros v i Hi. by apply elem_of_nil in Hi.
      - exists it''. simpl in *. inversion Hf2. exact Hy''. }
    rewrite <- Hall0 in *. assert (x0 ∈ rall zs) as Hx0 by (rewrite Hall0; by left). clear Hall0.
    apply elem_of_list_lookup in Hx0 as [n0 Hn0]. destruct (Forall2_lookup_l _ _ _ _ _ Hf2 Hn0) as (e0 & He0 & Hat0).
    pose proof Hat0 as (_ & m0 & p0 & Hlk0 & _). destruct (oat_refs _ _ Hat0) as (_ & _ & H0). destruct (H0 _ Hlk0) as (Hne0 & Hpg0 & pg & Hpg & _).
    assert (∀ n x e, rall zs !! n = Some x → es !! n = Some e → (e, view_item x) ∈ zip es (view_item <$> rall zs)) as Hzip.
    { intros n x e Hx He. apply elem_of_list_lookup. exists n. apply lookup_zip_with_Some. exists e, (view_item x). split_and!; try done. by rewrite list_lookup_fmap, Hx. }
    assert (∀ n x e p, rall zs !! n = Some x → es !! n = Some e → linked s (e_id e) p x.2 → p = p0) as Hpage.
    { intros n x e p Hx He Hlk. destruct (Forall2_lookup_l _ _ _ _ _ Hf2 Hx) as (e' & He' & Hat). assert (e' = e) as -> by congruence.
      destruct (oat_refs _ _ Hat) as (_ & _ & H1). destruct (H1 _ Hlk) as (Hne1 & Hpg1 & _).
      destruct (view_item x) as [|r rs] eqn:E1; [done|]. destruct (view_item x0) as [|r0 rs0] eqn:E0; [done|].
      rewrite <- (Hpg1 r) by (by left). rewrite <- (Hpg0 r0) by (by left).
      apply (Hone (e, view_item x) (e0, view_item x0)); [by eapply Hzip|by eapply Hzip|rewrite E1; by left|rewrite E0; by left]. }
    set (gg := λ i, match pg_ids pg !! i with Some id => Entity id (default 0 (ver_at (st_ec s) id)) | None => entity_null end).
    assert (∀ n x e, rall zs !! n = Some x → es !! n = Some e → pg_ids pg !! x.2 = Some (e_id e) ∧ gg x.2 = e ∧ aget (ec_ver (st_ec s)) (e_id e) = POk (e_ver e)) as Hgg.
    { intros n x e Hx He. destruct (Forall2_lookup_l _ _ _ _ _ Hf2 Hx) as (e' & He' & Hat). assert (e' = e) as -> by congruence.
      destruct (oat_refs _ _ Hat) as (_ & _ & H1). destruct Hat as (HeL & m & p & Hlk & _). destruct (H1 _ Hlk) as (_ & _ & pg1 & Hpg1 & _ & Hid).
      rewrite (Hpage _ _ _ _ Hx He Hlk) in Hpg1. assert (pg1 = pg) as -> by congruence. split; [done|].
      pose proof (proj1 (inv_live _ _ _ (cs_ec _ _ _ _ _ Hs) e) HeL) as [_ Hv]. split; [|by apply aget_ver].
      unfold gg. rewrite Hid, Hv. by destruct e. }
    destruct (oiter_yields_with zs view_item gg (ec_ver (st_ec s)) (pg_ids pg) (rall zs) it) as (it'' & Hy''); try done.
    + intros z Hz. destruct (Hvs z Hz) as (e & p & k & He & Hlk & Hgv). apply elem_of_list_lookup in He as [n He].
      destruct (Forall2_lookup_r _ _ _ _ _ Hf2 He) as (x & Hx & Hat). pose proof Hat as (_ & m & p' & Hlk' & _).
      destruct (linked_fun _ _ _ _ _ _ Hlk Hlk') as [-> _]. pose proof (Hpage _ _ _ _ Hx He Hlk') as ->.
      destruct Hgv as (pg1 & ? & ? & Hpg1 & _ & _ & -> & _). by assert (pg1 = pg) as -> by congruence.
    + by apply rpos_0.
    + apply rrest_0.
    + intros v i Hx%elem_of_list_lookup. destruct Hx as [n Hx]. destruct (Forall2_lookup_l _ _ _ _ _ Hf2 Hx) as (e & He & _).
      destruct (Hgg _ _ _ Hx He) as (H1 & H2 & H3). simpl in *. rewrite H2. split_and!; try done. apply Hptr. by eapply elem_of_list_lookup_2.
    + exists it''. assert (zip es (view_item <$> rall zs) = (λ x, (gg x.2, view_item x)) <$> rall zs) as ->; [|done].
      apply list_eq. intros n. rewrite list_lookup_fmap. destruct (rall zs !! n) as [x|] eqn:Hx; simpl.
      * destruct (Forall2_lookup_l _ _ _ _ _ Hf2 Hx) as (e & He & _). destruct (Hgg _ _ _ Hx He) as (_ & -> & _).
        apply lookup_zip_with_Some. exists e, (view_item x). split_and!; try done. by rewrite list_lookup_fmap, Hx.
      * apply lookup_ge_None. rewrite zip_with_length, fmap_length. apply lookup_ge_None in Hx. lia.
Qed.
End oq2.

Lemma ordered_query_exact c cap tr s q g fuel : cfg_ok c → c_mode c = Debug → hrun c cap tr s → orders_proper tr →
  NoDup (q_types q) → q_types q ≠ [] →
  (∀ e, e ∈ members tr g → had_components tr e) → (length (members tr g) < fuel)%nat →
  ∃ it l it' f, ordered_query fuel c q s g = Some (POk it) ∧ yields oiter_next it l.*2 it' ∧ oiter_len it = length l ∧
    l.*1 = List.filter f (members tr g) ∧
    (∀ e, f e = true ↔ ∃ m, observed c s e (Some m) ∧ ∀ t, t ∈ q_types q → is_Some (m !! t)) ∧
    (∀ e rs, (e, rs) ∈ l → get_components_refs c s e (q_types q) = POk (Some rs)) ∧
    (one_page l → ∃ it'', yields (oiter_next_with (ec_ver (st_ec s))) it l it'').
Proof.
  intros Hc Hmd Hr Hp Hq Hne Hhad Hfuel. destruct (hrun_state c Hc Hmd _ _ _ Hr) as (D & Hs & Hcs).
  pose proof Hc as [Hbs _ _]. destruct (run_orders c cap Hbs Hmd _ _ (hrun_run _ _ _ _ Hr) Hp) as [Hmem Hh].
  pose proof (group_chain c _ _ _ g Hbs Hh) as Hg.
  destruct (ordered_items c Hc s _ _ D Hs q Hq Hne g (members tr g) fuel) as (it & l & it' & Hit & Hy & Hlen & Hl & Hrs & Hone); [by destruct (get_group_index _ _ _)| |done|].
  { intros e He. assert (e ∈ live tr) as HeL by by apply live_alive, (Hmem g).
    destruct (cs_row _ _ _ _ _ _ Hs HeL) as (m & HD & _). split; [done|]. exists m. split; [done|].
    apply (had_nonempty c Hc Hmd _ _ _ e _ Hr); [by apply Hhad|]. specialize (Hcs e). unfold cview in Hcs. by rewrite decide_True, HD in Hcs. }
  exists it, l, it', (matches (live tr) D q). split_and!; try done.
  intros e. setoid_rewrite (observed_D c Hc Hmd _ _ _ _ _ _ Hr Hs). unfold matches. split.
  - destruct (D !! e_id e) as [m|]; [|done]. intros [He%bool_decide_eq_true Hall]%andb_prop. exists m. split; [done|]. by apply has_all_spec.
  - intros (m & [He HD] & Hall). rewrite HD, bool_decide_true by done. simpl. by apply has_all_spec.
Qed.

(** ** Refutations *)
Lemma had_now c cap tr s e : cfg_ok c → c_mode c = Debug → hrun c cap tr s →
  match types tr e with Some ts => bool_decide (ts ≠ ∅) | None => false end = true → had_components tr e.
Proof.
  intros Hc Hmd Hr Ht. destruct (hrun_state c Hc Hmd _ _ _ Hr) as (D & Hs & Hcs). specialize (Hcs e). pose proof (comps_types _ _ _ Hcs) as Hty.
  destruct (cview (live tr) D e) as [m|]; simpl in Hty; rewrite <- Hty in Ht; [|done]. apply bool_decide_eq_true in Ht.
  exists tr, [], m. rewrite app_nil_r. split_and!; try done. intros ->. by rewrite dom_empty_L in Ht.
Qed.
Definition stale_member : list (list entity → op) := stale_page ++ [λ hs, OOrdAdd 9 (h 0 hs); λ hs, OOrdAdd 9 (h 2 hs)].
Lemma ordered_query_stale : ∃ c cap tr s q g it l it' e0 e1,
  cfg_ok c ∧ c_mode c = Debug ∧ hrun c cap tr s ∧ orders_proper tr ∧ NoDup (q_types q) ∧ q_types q ≠ [] ∧
  members tr g = [e0; e1] ∧ get_components_refs c s e1 (q_types q) = POk None ∧
  (∃ fuel, ordered_query fuel c q s g = Some (POk it)) ∧ yields oiter_next it l it' ∧ length l = 2%nat.
Proof.
  pose (c := ex_cfg Debug). pose (tr := end_trace c 4 stale_member). pose (s := end_store c 4 stale_member). pose (q := Access [1] []).
  assert (hrun c 4 tr s) as Hr by (apply hend_run; vm_compute; reflexivity).
  assert (orders_proper tr) as Hp by (apply orders_proper_check; vm_compute; reflexivity).
  assert (members tr 9 = [Entity 0 1; Entity 1 2]) as Hm by (vm_compute; reflexivity).
  assert (match ordered_query 9 c q s 9 with Some (POk it) => match drain 9 oiter_next it with POk l => (length l =? 2)%nat | _ => false end | _ => false end = true) as H.
  { vm_compute. reflexivity. }
  assert (get_components_refs c s (Entity 1 2) (q_types q) = POk None) as Hg by (vm_compute; reflexivity). clearbody s tr.
  destruct (ordered_query 9 c q s 9) as [[it| |]|] eqn:E1; try done. destruct (drain 9 oiter_next it) as [l| |] eqn:E2; try done. apply Nat.eqb_eq in H.
  destruct (drain_yields oiter_next 9 _ _ E2) as [it2 Hy]; [lia|].
  exists c, 4, tr, s, q, 9, it, l, it2, (Entity 0 1), (Entity 1 2).
  split_and!; [apply ex_cfg_ok|done|done|done|apply NoDup_singleton|done|done|done|by exists 9%nat|done|done].
Qed.
Definition no_page_member : list (list entity → op) := no_page ++ [λ hs, OOrdAdd 9 (h 0 hs); λ hs, OOrdAdd 9 (h 1 hs)].
Lemma ordered_query_uninit : ∃ c cap tr s q g,
  cfg_ok c ∧ c_mode c = Debug ∧ hrun c cap tr s ∧ orders_proper tr ∧ NoDup (q_types q) ∧ q_types q ≠ [] ∧
  ∃ fuel, ordered_query fuel c q s g = Some (PUB Uninitialised).
Proof.
  pose (c := ex_cfg Debug). pose (tr := end_trace c 1 no_page_member). pose (s := end_store c 1 no_page_member).
  exists c, 1, tr, s, (Access [1] []), 9.
  split_and!; [apply ex_cfg_ok|done|apply hend_run; vm_compute; reflexivity|apply orders_proper_check; vm_compute; reflexivity|apply NoDup_singleton|done|].
  exists 9%nat. vm_compute. reflexivity.
Qed.
Definition two_runs : list (list entity → op) :=
  [λ _, OCreateWith (ex_arch [1]); λ _, OCreateWith (ex_arch [1; 2]); λ _, OCreateWith (ex_arch [1; 2]);
   λ hs, OOrdAdd 9 (h 0 hs); λ hs, OOrdAdd 9 (h 1 hs); λ hs, OOrdAdd 9 (h 2 hs)].
Lemma ordered_with_wrong : ∃ c cap tr s q g it l it' e e1 rs rs',
  cfg_ok c ∧ c_mode c = Debug ∧ hrun c cap tr s ∧ orders_proper tr ∧ NoDup (q_types q) ∧ q_types q ≠ [] ∧
  (∀ e, e ∈ members tr g → had_components tr e) ∧
  (∃ fuel, ordered_query fuel c q s g = Some (POk it)) ∧ yields (oiter_next_with (ec_ver (st_ec s))) it l it' ∧ (e, rs) ∈ l ∧
  get_components_refs c s e1 (q_types q) = POk (Some rs) ∧ e1 ≠ e ∧ get_components_refs c s e (q_types q) = POk (Some rs') ∧ rs' ≠ rs.
Proof.
  pose (c := ex_cfg Debug). pose (tr := end_trace c 4 two_runs). pose (s := end_store c 4 two_runs). pose (q := Access [1] []).
  assert (hrun c 4 tr s) as Hr by (apply hend_run; vm_compute; reflexivity).
  assert (orders_proper tr) as Hp by (apply orders_proper_check; vm_compute; reflexivity).
  assert (members tr 9 = [Entity 0 1; Entity 1 1; Entity 2 1]) as Hm by (vm_compute; reflexivity).
  assert (forallb (λ e, match types tr e with Some ts => bool_decide (ts ≠ ∅) | None => false end) [Entity 0 1; Entity 1 1; Entity 2 1] = true) as Ht by (vm_compute; reflexivity).
  assert (match ordered_query 9 c q s 9, get_components_refs c s (Entity 1 1) [1], get_components_refs c s (Entity 0 1) [1] with
    | Some (POk it), POk (Some [r1]), POk (Some [r0]) => match drain 9 (oiter_next_with (ec_ver (st_ec s))) it with
      | POk [_; (e, [r]); _] => (e_id e =? 0) && (e_ver e =? 1) && Nat.eqb (r_page r) (r_page r1) && (r_off r =? r_off r1) && (r_len r =? r_len r1) && negb (Nat.eqb (r_page r0) (r_page r1))
      | _ => false end | _, _, _ => false end = true) as H.
  { vm_compute. reflexivity. }
  clearbody s tr. assert (∀ e, e ∈ members tr 9 → had_components tr e) as Hhad.
  { intros e. rewrite Hm. rewrite forallb_forall in Ht. intros He%elem_of_list_In%Ht. eapply had_now; [apply ex_cfg_ok|done|done|done]. }
  destruct (ordered_query 9 c q s 9) as [[it| |]|] eqn:E1; try done.
  destruct (get_components_refs c s (Entity 1 1) [1]) as [[[|r1 [|]]|]| |] eqn:G1; try done.
  destruct (get_components_refs c s (Entity 0 1) [1]) as [[[|r0 [|]]|]| |] eqn:G0; try done.
  destruct (drain 9 (oiter_next_with (ec_ver (st_ec s))) it) as [l| |] eqn:E2; try done.
  destruct l as [|x1 [|[e rs] l]]; try done. destruct rs as [|r [|]]; try done. destruct l as [|x3 [|]]; try done.
  destruct (drain_yields (oiter_next_with (ec_ver (st_ec s))) 9 _ _ E2) as [it2 Hy]; [simpl; lia|].
  apply andb_prop in H as [H H6%negb_true_iff%Nat.eqb_neq]. apply andb_prop in H as [H H5%N.eqb_eq]. apply andb_prop in H as [H H4%N.eqb_eq].
  apply andb_prop in H as [H H3%Nat.eqb_eq]. apply andb_prop in H as [H1%N.eqb_eq H2%N.eqb_eq].
  destruct e as [id v], r as [p o len], r1 as [p1 o1 len1]. simpl in *. subst.
  exists c, 4, tr, s, q, 9, it, [x1; (Entity 0 1, [Ref p1 o1 len1]); x3], it2, (Entity 0 1), (Entity 1 1), [Ref p1 o1 len1], [r0].
  split_and!; [apply ex_cfg_ok|done|done|done|apply NoDup_singleton|done|done|by exists 9%nat|done|set_solver|done|done|done|].
  intros [= ->]. done.
Qed.
Definition self_loop : list (list entity → op) := [λ _, OCreateWith (ex_arch [1]); λ hs, OOrdAdd 9 (h 0 hs); λ hs, OOrdAdd 9 (h 0 hs)].
Lemma loop_diverges c q s nm id l v : aget nm id = POk id → oq_member c q s id = POk (Some (l, v)) → get_eia s id = POk l → id ≠ NULL_ID →
  ∀ fuel, oq_ranges fuel c q s nm id = None.
Proof.
  intros Hn Hm He Hid.
  assert (∀ fuel, oq_extend fuel s nm (ea_page l) (S (ea_idx l)) id = None ∨ oq_extend fuel s nm (ea_page l) (S (ea_idx l)) id = Some (POk (S (ea_idx l), id))) as Hext.
  { intros [|fuel]; [by left|right]. simpl. rewrite (proj2 (N.eqb_neq _ _) Hid), He.
    replace (Nat.eqb (ea_idx l) (S (ea_idx l))) with false by (symmetry; apply Nat.eqb_neq; lia). by rewrite orb_true_r. }
  induction fuel as [|fuel IH]; [done|]. simpl. rewrite (proj2 (N.eqb_neq _ _) Hid), Hm, Hn. destruct (Hext fuel) as [-> | ->]; [done|]. simpl. by rewrite IH.
Qed.
Lemma ordered_query_diverges : ∃ c cap tr s q g e,
  cfg_ok c ∧ c_mode c = Debug ∧ hrun c cap tr s ∧ NoDup (q_types q) ∧ q_types q ≠ [] ∧
  (∀ x, x ∈ tr → ∀ g' e', x.1 = OOrdAdd g' e' → e' = e) ∧ alive_in tr e ∧ had_components tr e ∧
  ∀ fuel, ordered_query fuel c q s g = None.
Proof.
  pose (c := ex_cfg Debug). pose (tr := end_trace c 1 self_loop). pose (s := end_store c 1 self_loop). pose (q := Access [1] []).
  assert (hrun c 1 tr s) as Hr by (apply hend_run; vm_compute; reflexivity).
  assert (alive_in tr (Entity 0 1)) as Ha by (apply live_alive; vm_compute; reflexivity).
  assert (match types tr (Entity 0 1) with Some ts => bool_decide (ts ≠ ∅) | None => false end = true) as Ht by (vm_compute; reflexivity).
  assert (forallb (λ x : op * option entity, match x.1 with OOrdAdd _ e => bool_decide (e = Entity 0 1) | _ => true end) tr = true) as Hx by (vm_compute; reflexivity).
  assert (match get_group_index c (st_orders s) 9 with Some gi => match vget_unchecked (og_fwd (st_orders s)) gi, vget_unchecked (og_head (st_orders s)) gi with
    | POk nm, POk hd => match aget nm 0, oq_member c q s 0, get_eia s 0 with
      | POk n, POk (Some (l, v)), POk l' => (hd =? 0) && (n =? 0) && Nat.eqb (ea_page l) (ea_page l') && Nat.eqb (ea_idx l) (ea_idx l') | _, _, _ => false end
    | _, _ => false end | None => false end = true) as H.
  { vm_compute. reflexivity. }
  clearbody s tr. exists c, 1, tr, s, q, 9, (Entity 0 1).
  split_and!; [apply ex_cfg_ok|done|done|apply NoDup_singleton|done| |done|eapply had_now; [apply ex_cfg_ok|done..]|].
  { intros x Hin g' e' Heq. rewrite forallb_forall in Hx. apply elem_of_list_In in Hin. specialize (Hx _ Hin). rewrite Heq in Hx. by apply bool_decide_eq_true in Hx. }
  intros fuel. unfold ordered_query. destruct (get_group_index c (st_orders s) 9) as [gi|]; [|done].
  destruct (vget_unchecked (og_fwd (st_orders s)) gi) as [nm| |]; try done. destruct (vget_unchecked (og_head (st_orders s)) gi) as [hd| |]; try done.
  destruct (aget nm 0) as [n| |] eqn:E1; try done. destruct (oq_member c q s 0) as [[[l v]|]| |] eqn:E2; try done. destruct (get_eia s 0) as [l'| |] eqn:E3; try done.
  apply andb_prop in H as [H H4%Nat.eqb_eq]. apply andb_prop in H as [H H3%Nat.eqb_eq]. apply andb_prop in H as [H1%N.eqb_eq H2%N.eqb_eq]. subst.
  rewrite (loop_diverges c q s nm 0 l v); try done. rewrite E3. destruct l, l'. simpl in *. by subst.
Qed.

(** ** Length *)
Lemma extend_ge s nm p fuel : ∀ k x k' n, oq_extend fuel s nm p k x = Some (POk (k', n)) → (k ≤ k')%nat.
Proof.
  induction fuel as [|fuel IH]; intros k x k' n; [done|]. simpl. destruct (x =? NULL_ID); [intros [= <- <-]; lia|].
  destruct (get_eia s x); [|done..]. destruct (_ || _); [intros [= <- <-]; lia|]. destruct (aget nm x); [|done..]. intros H%IH. lia.
Qed.
Lemma ranges_rok c q s nm fuel : ∀ x zs, oq_ranges fuel c q s nm x = Some (POk zs) → rok zs.
Proof.
  induction fuel as [|fuel IH]; intros x zs; [done|]. simpl. destruct (x =? NULL_ID). { intros [= <-] z Hz. by apply elem_of_nil in Hz. }
  destruct (oq_member c q s x) as [[[l v]|]| |]; [|destruct (aget nm x); [apply IH|done..]|done..].
  destruct (aget nm x); [|done..]. destruct (oq_extend _ _ _ _ _ _) as [[[k' n]| |]|] eqn:E; [|done..]. simpl. apply extend_ge in E.
  destruct (oq_ranges fuel _ _ _ _ _) as [[zs'| |]|] eqn:E2; [|done..]. simpl. intros [= <-] z [->|Hz]%elem_of_cons; [simpl; lia|by eapply IH].
Qed.
Lemma oiter_count zs l : ∀ it it', oi_ranges it = zs.*1 → oi_views it = zs.*2 → rok zs → rpos zs (oi_range it) (oi_off it) →
  yields oiter_next it l it' → length l = length (rrest zs (oi_range it) (oi_off it)).
Proof.
  induction l as [|x l IH]; intros it it' Hr Hv Hok Hpos Hy; (destruct (zs !! oi_range it) as [[[a b] v]|] eqn:E;
    [|assert (rrest zs (oi_range it) (oi_off it) = []) as Hnil by (unfold rrest; by rewrite drop_ge by (by apply lookup_ge_None));
      pose proof (oiter_step zs it Hr Hv Hok Hpos) as H; rewrite Hnil in *; simpl in H; inversion Hy; simplify_eq; first [done|congruence]]).
  all: pose proof (Hpos _ E) as Hlt; simpl in Hlt; destruct (rrest_step _ _ _ _ _ _ Hok E Hlt) as [-> Hp'];
    inversion Hy as [? ? Hn|? ? it1 ? ? Hn Hy1]; subst; unfold oiter_next in Hn; rewrite Hr, list_lookup_fmap, E in Hn; simpl in Hn;
    destruct (if Nat.leb _ _ then _ else _) as [r' o'] eqn:Ep; apply pbind_ok in Hn as (v' & _ & Hn); apply pbind_ok in Hn as (rs & _ & Hn); try done.
  injection Hn as <- <-. simpl. simpl in Hp'. f_equal. apply (IH (OIter (zs.*1) (oi_views it) r' (a + oi_off it)%nat o' (oi_len it)) it'); try done.
Qed.
Lemma ordered_len c q s g fuel it l it' : ordered_query fuel c q s g = Some (POk it) → yields oiter_next it l it' → oiter_len it = length l.
Proof.
  unfold ordered_query. destruct (get_group_index _ _ _). 2: { intros [= <-] Hy. inversion Hy as [|? ? ? ? ? Hn]; [done|]. by unfold oiter_next in Hn. }
  destruct (vget_unchecked _ _); [|done..]. destruct (vget_unchecked _ _); [|done..]. destruct (oq_ranges _ _ _ _ _ _) as [[zs| |]|] eqn:E; [|done..].
  simpl. intros [= <-] Hy. apply ranges_rok in E. apply (oiter_count zs) in Hy; try done; [|by apply rpos_0]. simpl in *. rewrite rrest_0, rall_length in Hy. by rewrite Hy.
Qed.

Lemma ordered_with_one_page c cap tr s q g fuel : cfg_ok c → c_mode c = Debug → hrun c cap tr s → orders_proper tr → NoDup (q_types q) → q_types q ≠ [] →
  (∀ e, e ∈ members tr g → had_components tr e) → (length (members tr g) < fuel)%nat →
  ∃ it l it1, ordered_query fuel c q s g = Some (POk it) ∧ yields oiter_next it l.*2 it1 ∧
    (∀ e rs, (e, rs) ∈ l → get_components_refs c s e (q_types q) = POk (Some rs)) ∧
    (one_page l → ∃ it2, yields (oiter_next_with (ec_ver (st_ec s))) it l it2).
Proof.
  intros Hc Hmd Hr Hp Hq Hne Hhad Hf. destruct (ordered_query_exact c cap tr s q g fuel) as (it & l & it' & f & H1 & H2 & _ & _ & _ & H3 & H4); try done. by exists it, l, it'.
Qed.
