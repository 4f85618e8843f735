(** OrdW.v — with_entities() of ordered queries, exactly. *)
From Verif.Spec Require Export Runs.
From Verif.Proofs Require Export QueryX OrdQ.
Local Open Scope N_scope.

(** ** The iterator *)
(** What next() returns from here on: view and index of the components, and the id read. [u] is the view of the range
    before (of the first range itself for the first range). *)
Fixpoint outs (u : pview) (o : nat) (zs : list ((nat * nat) * pview)) : list ((pview * nat) * option N) :=
  match zs with
  | [] => []
  | ((a, b), v) :: r =>
    ((λ k, ((v, k), if bool_decide (S k = b) then pv_ids v !! k else pv_ids u !! k)) <$> seq (a + o) (b - (a + o))) ++ outs v 0 r
  end.
Lemma with_step zs vers it u : oi_ranges it = zs.*1 → oi_views it = zs.*2 → rok zs → rpos zs (oi_range it) (oi_off it) →
  (∀ z, zs !! pred (oi_range it) = Some z → z.2 = u) →
  match outs u (oi_off it) (drop (oi_range it) zs) with
  | [] => oiter_next_with vers it = POk (None, it)
  | (x, oid) :: r => ∀ rs, ptrs_to_refs (add_to_ptrs (pv_ptrs x.1) x.2) = POk rs → ∃ it' u',
      oiter_next_with vers it = (id ← match oid with Some id => POk id | None => PUB OutOfBounds end; ver ← aget vers id; POk (Some (Entity id ver, rs), it')) ∧
      oi_ranges it' = zs.*1 ∧ oi_views it' = zs.*2 ∧ rpos zs (oi_range it') (oi_off it') ∧
      (∀ z, zs !! pred (oi_range it') = Some z → z.2 = u') ∧ outs u' (oi_off it') (drop (oi_range it') zs) = r
  end.
Proof.
  intros Hr Hv Hok Hpos Hu. destruct (zs !! oi_range it) as [[[a b] v]|] eqn:E.
  - pose proof (Hpos _ E) as Hlt. simpl in Hlt. rewrite (drop_S _ _ _ E). cbn [outs].
    destruct (b - (a + oi_off it))%nat as [|n] eqn:En; [lia|]. cbn [seq fmap list_fmap app]. intros rs Hrs. cbn [fst snd] in Hrs.
    unfold oiter_next_with, oiter_next. rewrite Hr, Hv, list_lookup_fmap, E. simpl. 
    destruct (Nat.leb_spec (pred b) (a + oi_off it)) as [Hl|Hl].
    + assert (S (a + oi_off it) = b) as Hb by lia. unfold vget_unchecked. rewrite list_lookup_fmap, E. simpl. rewrite Hrs. simpl. rewrite list_lookup_fmap, E. simpl.
      rewrite bool_decide_true by done.
      eexists (OIter _ _ _ _ _ _), v. split; [reflexivity|]. simpl. split_and!; [done|done|by apply rpos_0|intros z Hz; rewrite E in Hz; by injection Hz as <-|].
      assert (n = 0%nat) as -> by lia. done.
    + unfold vget_unchecked. rewrite list_lookup_fmap, E. simpl. rewrite Hrs. simpl. rewrite list_lookup_fmap.
      destruct (lookup_lt_is_Some_2 zs (pred (oi_range it))) as [z Hz]; [apply lookup_lt_Some in E; lia|]. rewrite Hz. simpl. rewrite (Hu z Hz).
      rewrite bool_decide_false by lia.
      eexists (OIter _ _ _ _ _ _), u. split; [reflexivity|]. simpl. split_and!; [done|done| |done|].
      * intros x Hx. rewrite E in Hx. injection Hx as <-. simpl. lia.
      * rewrite (drop_S _ _ _ E). cbn [outs]. f_equal. f_equal. replace (a + S (oi_off it))%nat with (S (a + oi_off it)) by lia. f_equal. lia.
  - rewrite drop_ge by (by apply lookup_ge_None). simpl. unfold oiter_next_with, oiter_next. by rewrite Hr, list_lookup_fmap, E.
Qed.
Lemma with_yields zs vers (f : pview * nat → list cref) X : ∀ it u, oi_ranges it = zs.*1 → oi_views it = zs.*2 → rok zs → rpos zs (oi_range it) (oi_off it) →
  (∀ z, zs !! pred (oi_range it) = Some z → z.2 = u) → outs u (oi_off it) (drop (oi_range it) zs) = X →
  (∀ x oid, (x, oid) ∈ X → ptrs_to_refs (add_to_ptrs (pv_ptrs x.1) x.2) = POk (f x)) → 
  ∀ es, (∀ e, e ∈ es → aget vers (e_id e) = POk (e_ver e)) → X.*2 = Some <$> (e_id <$> es) → 
  ∃ it', yields (oiter_next_with vers) it (zip es (f <$> X.*1)) it'.
Proof.
  induction X as [|[x oid] X IH]; intros it u Hr Hv Hok Hpos Hu HX Hf es Hes Hids; pose proof (with_step zs vers it u Hr Hv Hok Hpos Hu) as H; rewrite HX in H.
  - destruct es; [|done]. exists it. by constructor.
  - destruct es as [|e es]; [done|]. simpl in Hids. injection Hids as -> Hids.
    destruct (H (f x)) as (it1 & u1 & Hn & Hr1 & Hv1 & Hp1 & Hu1 & HX1). { eapply (Hf x). by left. }
    destruct (IH it1 u1 Hr1 Hv1 Hok Hp1 Hu1 HX1) with (es := es) as (it' & Hy). { intros x' o' Hx'. eapply Hf. right. exact Hx'. } { intros. apply Hes. by right. } { exact Hids. }
    exists it'. simpl. econstructor; [|exact Hy]. rewrite Hn. simpl. rewrite (Hes e) by by left. simpl. by destruct e.
Qed.
Lemma with_yields_inv zs vers (f : pview * nat → list cref) X : ∀ it u, oi_ranges it = zs.*1 → oi_views it = zs.*2 → rok zs → rpos zs (oi_range it) (oi_off it) →
  (∀ z, zs !! pred (oi_range it) = Some z → z.2 = u) → outs u (oi_off it) (drop (oi_range it) zs) = X →
  (∀ x oid, (x, oid) ∈ X → ptrs_to_refs (add_to_ptrs (pv_ptrs x.1) x.2) = POk (f x)) → 
  ∀ l it', yields (oiter_next_with vers) it l it' → X.*2 = Some <$> (e_id <$> l.*1).
Proof.
  induction X as [|[x oid] X IH]; intros it u Hr Hv Hok Hpos Hu HX Hf l it' Hy; pose proof (with_step zs vers it u Hr Hv Hok Hpos Hu) as H; rewrite HX in H.
  - inversion Hy as [|? ? ? ? ? Hn]; subst; [done|]. congruence.
  - destruct (H (f x)) as (it1 & u1 & Hn & Hr1 & Hv1 & Hp1 & Hu1 & HX1). { eapply (Hf x). by left. }
    inversion Hy as [? ? Hn'|? ? it2 ? ? Hn' Hy']; subst; rewrite Hn in Hn'; (destruct oid as [id|]; [|done]); simpl in Hn'; apply pbind_ok in Hn' as (ver & _ & Hn'); [done|].
    injection Hn' as <- <-. simpl. f_equal. eapply (IH it1 u1); try done. intros x' o' Hx'. eapply Hf. right. exact Hx'.
Qed.

(** ** Runs *)
Lemma linked_place s e p k : linked s (e_id e) p k → place s e = Some (p, k).
Proof. intros (_ & H1 & H2). unfold place. by rewrite H1, H2. Qed.
Lemma runs_nonnil s l : ∀ x, x ∈ runs s l → x ≠ [].
Proof.
  induction l as [|e l IH]; intros x; simpl; [by intros ?%elem_of_nil|].
  destruct (runs s l) as [|[|e' y] rs].
  - by intros ->%elem_of_list_singleton.
  - intros [->|Hx]%elem_of_cons; [done|]. by apply IH.
  - destruct (behind s e e'); intros [->|Hx]%elem_of_cons; try done; [apply IH; by right|by apply IH].
Qed.
Lemma runs_cons s e l : runs s (e :: l) =
  match runs s l with
  | [] => [[e]]
  | x :: rs => match head x with Some e' => if behind s e e' then (e :: x) :: rs else [e] :: x :: rs | None => [e] :: x :: rs end
  end.
Proof. simpl. by destruct (runs s l) as [|[|e' x] rs]. Qed.
Lemma runs_head s e l : ∃ x rs, runs s (e :: l) = (e :: x) :: rs.
Proof.
  rewrite runs_cons. destruct (runs s l) as [|x rs]; [by eexists _, _|]. destruct (head x); [|by eexists _, _]. destruct (behind _ _ _); by eexists _, _.
Qed.
Lemma runs_concat s l : concat (runs s l) = l.
Proof.
  induction l as [|e l IH]; [done|]. rewrite runs_cons. destruct (runs s l) as [|x rs]; simpl in *; [by rewrite <- IH|].
  destruct (head x); [destruct (behind _ _ _)|]; simpl; by rewrite <- IH.
Qed.
Lemma runs_take s n : ∀ e l, (∀ j e1 e2, (j < n)%nat → (e :: l) !! j = Some e1 → l !! j = Some e2 → behind s e1 e2 = true) → (n ≤ length l)%nat →
  (∀ e1 e2, (e :: l) !! n = Some e1 → l !! n = Some e2 → behind s e1 e2 = false) →
  runs s (e :: l) = (e :: take n l) :: runs s (drop n l).
Proof.
  induction n as [|n IH]; intros e l Hb Hn Hstop.
  - rewrite take_0, drop_0. destruct l as [|e' l]; [done|]. rewrite runs_cons. destruct (runs_head s e' l) as (x & rs & ->). simpl.
    by rewrite (Hstop e e' eq_refl eq_refl).
  - destruct l as [|e' l]; [simpl in Hn; lia|]. rewrite runs_cons, IH.
    + simpl. rewrite (Hb 0%nat e e'); [done|lia|done|done].
    + intros j e1 e2 Hj H1 H2. apply (Hb (S j)); [lia|done|done].
    + simpl in Hn. lia.
    + intros e1 e2 H1 H2. by apply Hstop.
Qed.

Section oq.
Context (c : cfg) (Hc : cfg_ok c) (s : store) (I : list entity) (L : gset entity) (D : gmap N (gmap tid (list cell))).
Context (Hs : comp_state c s I L D) (q : access) (Hq : NoDup (q_types q)).

Lemma extend_max nm p l : chain nm (e_id <$> l) → (∀ e, e ∈ l → placed L D e) → ∀ fuel k, (length l < fuel)%nat →
  ∃ n, oq_extend fuel s nm p k (hdn (e_id <$> l)) = Some (POk ((k + n)%nat, hdn (e_id <$> drop n l))) ∧ (n ≤ length l)%nat ∧
    (∀ j e, (j < n)%nat → l !! j = Some e → linked s (e_id e) p (k + j)%nat) ∧ ∀ e, l !! n = Some e → ¬ linked s (e_id e) p (k + n)%nat.
Proof using Hs.
  clear Hc Hq. induction l as [|e l IH]; intros Hch Hpl fuel k Hf; (destruct fuel as [|fuel]; [simpl in Hf; lia|]).
  - exists 0%nat. simpl. rewrite Nat.add_0_r. split_and!; [done|lia|lia|done].
  - rewrite fmap_cons in *. apply chain_cons in Hch as (Hx & Hn & Hch). simpl. rewrite (proj2 (N.eqb_neq _ _) Hx).
    destruct (placed_row c s I L D Hs e) as (m & p' & k' & _ & Hlk & _); [apply Hpl; by left|]. rewrite (linked_eia _ _ _ _ Hlk). simpl.
    assert (p' ≠ p ∨ k' ≠ k → ∀ e', (e :: l) !! 0%nat = Some e' → ¬ linked s (e_id e') p (k + 0)%nat) as Hstop.
    { rewrite Nat.add_0_r. intros Hne e' [= <-] Hlk'. destruct (linked_fun _ _ _ _ _ _ Hlk Hlk') as [-> ->]. tauto. }
    destruct (Nat.eqb_spec p' p) as [->|]; simpl. 2: { exists 0%nat. rewrite Nat.add_0_r in *. simpl. split_and!; [done|lia|lia|by apply Hstop; left]. }
    destruct (Nat.eqb_spec k' k) as [->|]; simpl. 2: { exists 0%nat. rewrite Nat.add_0_r in *. simpl. split_and!; [done|lia|lia|by apply Hstop; right]. }
    rewrite Hn. destruct (IH Hch ltac:(intros; apply Hpl; by right) fuel (S k) ltac:(simpl in Hf; lia)) as (n & -> & Hle & Hlnk & Hst).
    exists (S n). split_and!; [do 3 f_equal; lia|lia| |].
    + intros [|j] e' Hj He'; simpl in He'.
      * injection He' as <-. by rewrite Nat.add_0_r.
      * replace (k + S j)%nat with (S k + j)%nat by lia. apply Hlnk; [lia|done].
    + intros e' He'. replace (k + S n)%nat with (S k + n)%nat by lia. by apply Hst.
Qed.

Definition zrun (z : (nat * nat) * pview) (run : list entity) : Prop :=
  run ≠ [] ∧ z.1.2 = (z.1.1 + length run)%nat ∧ ∃ p, good_view c (st_ac s) q z.2 p ∧
    ∀ j e, run !! j = Some e → linked s (e_id e) p (z.1.1 + j)%nat ∧ oat c s L q (z.2, (z.1.1 + j)%nat) e.
Lemma page_matches e e' p k k' : placed L D e → placed L D e' → linked s (e_id e) p k → linked s (e_id e') p k' → matches L D q e = matches L D q e'.
Proof using Hs.
  clear Hc Hq. intros He He' Hlk Hlk'. pose proof (ci_ac _ _ _ _ (cs_inv _ _ _ _ _ Hs)) as Hi.
  destruct (placed_row c s I L D Hs e He) as (m & p1 & k1 & HD & Hlk1 & Hloc). destruct (linked_fun _ _ _ _ _ _ Hlk Hlk1) as [<- <-].
  destruct (placed_row c s I L D Hs e' He') as (m' & p1 & k1 & HD' & Hlk1' & Hloc'). destruct (linked_fun _ _ _ _ _ _ Hlk' Hlk1') as [<- <-].
  destruct (loc_page _ _ _ _ _ _ Hi Hloc) as (pg1 & i1 & a1 & ly1 & _ & H1 & H1' & _).
  destruct (loc_page _ _ _ _ _ _ Hi Hloc') as (pg2 & i2 & a2 & ly2 & _ & H2 & H2' & _).
  assert (i2 = i1) as -> by congruence. assert (a2 = a1) as -> by congruence.
  pose proof (loc_dom _ _ _ _ _ _ _ _ Hi Hloc H1 H1') as Hd1. pose proof (loc_dom _ _ _ _ _ _ _ _ Hi Hloc' H2 H2') as Hd2.
  unfold matches. destruct He as [He _], He' as [He' _]. rewrite HD, HD', !bool_decide_true by done. simpl.
  apply eq_true_iff_eq. rewrite !has_all_spec. split; intros H t Ht; apply H in Ht; [apply Hd2, Hd1, Ht|apply Hd1, Hd2, Ht].
Qed.
Definition run_matches (run : list entity) : bool := forallb (matches L D q) run.
Lemma runs_skip e l : (∀ x, x ∈ e :: l → placed L D x) → matches L D q e = false →
  List.filter run_matches (runs s (e :: l)) = List.filter run_matches (runs s l).
Proof using Hs.
  clear Hc Hq. intros Hpl Hm. rewrite runs_cons. destruct l as [|e' l]; [simpl; by rewrite Hm|]. destruct (runs_head s e' l) as (x & rs & ->). simpl.
  destruct (behind s e e') eqn:Hb; simpl; rewrite Hm; simpl; [|done].
  destruct (placed_row c s I L D Hs e) as (m1 & p1 & k1 & _ & Hl1 & _); [apply Hpl; by left|].
  destruct (placed_row c s I L D Hs e') as (m2 & p2 & k2 & _ & Hl2 & _); [apply Hpl; right; by left|].
  unfold behind in Hb. rewrite (linked_place _ _ _ _ Hl1), (linked_place _ _ _ _ Hl2) in Hb. apply andb_prop in Hb as [->%Nat.eqb_eq _].
  rewrite <- (page_matches e e' p1 k1 k2), Hm; [done|apply Hpl; by left|apply Hpl; right; by left|done|done].
Qed.

Lemma ranges_runs nm n : ∀ l fuel, chain nm (e_id <$> l) → (∀ e, e ∈ l → placed L D e) → (length l ≤ n)%nat → (n < fuel)%nat →
  ∃ zs, oq_ranges fuel c q s nm (hdn (e_id <$> l)) = Some (POk zs) ∧ Forall2 zrun zs (List.filter run_matches (runs s l)).
Proof using Hc Hs Hq.
  induction n as [|n IH]; intros l fuel Hch Hpl Hl Hf; (destruct fuel as [|fuel]; [lia|]).
  - destruct l; [|simpl in Hl; lia]. exists []. split; [done|constructor].
  - destruct l as [|e l]. { exists []. split; [done|constructor]. }
    simpl in Hl. rewrite fmap_cons in *. apply chain_cons in Hch as (Hx & Hn & Hch). pose proof (Hpl e ltac:(by left)) as Hple.
    destruct (placed_row c s I L D Hs e Hple) as (m & p & k & HD & Hlk & Hloc). pose proof (member_spec c Hc s I L D Hs q Hq e m p k HD Hlk Hloc) as Hmem.
    assert (matches L D q e = has_all m (q_types q)) as Hm. { unfold matches. rewrite HD, bool_decide_true; [done|]. by destruct Hple. }
    remember (List.filter run_matches (runs s (e :: l))) as R eqn:HR. cbn [oq_ranges hdn]. rewrite (proj2 (N.eqb_neq _ _) Hx). destruct (has_all m (q_types q)) eqn:Hall.
    + destruct Hmem as (v & -> & Hgv). rewrite Hn. simpl.
      destruct (extend_max nm p l Hch ltac:(intros; apply Hpl; by right) fuel (S k) ltac:(lia)) as (j & -> & Hj & Hlnk & Hstop). simpl.
      destruct (IH (drop j l) fuel) as (zs & Hzs & Hf2).
      { rewrite fmap_drop. by apply chain_drop. }
      { intros e' He'. apply Hpl. right. rewrite <- (take_drop j l). apply elem_of_app. by right. }
      { rewrite drop_length. lia. } { lia. }
      rewrite Hzs. simpl. eexists. split; [done|].
      assert (∀ i e', (e :: l) !! i = Some e' → (i ≤ j)%nat → linked s (e_id e') p (k + i)%nat) as Hlall.
      { intros [|i] e' He' Hij; simpl in He'; [injection He' as <-; by rewrite Nat.add_0_r|]. replace (k + S i)%nat with (S k + i)%nat by lia. apply Hlnk; [lia|done]. }

      rewrite HR, (runs_take s j e l).
      * assert (run_matches (e :: take j l) = true) as Hrm.
        { unfold run_matches. apply forallb_forall. intros e' He'%elem_of_list_In. apply elem_of_list_lookup in He' as [i Hi].
          assert (∃ k', linked s (e_id e') p k' ∧ e' ∈ e :: l) as (k' & Hlk' & Hin).
          { destruct i as [|i]; simpl in Hi; [injection Hi as <-; exists k; split; [done|by left]|].
            apply lookup_take_Some in Hi as [Hi Hij]. exists (k + S i)%nat. split; [apply (Hlall (S i)); [done|lia]|]. right. by eapply elem_of_list_lookup_2. }
          rewrite <- (page_matches e e' p k k' Hple (Hpl _ Hin) Hlk Hlk'). by rewrite Hm. }
        cbn [List.filter]. rewrite Hrm. constructor; [|done]. split; [done|]. split; [simpl; rewrite take_length; lia|]. exists p. split; [done|]. simpl.
        intros i e' Hi. assert ((e :: l) !! i = Some e' ∧ (i ≤ j)%nat) as [Hi' Hij].
        { destruct i as [|i]; simpl in *; [split; [done|lia]|]. apply lookup_take_Some in Hi as [Hi Hij]. split; [done|lia]. }
        pose proof (Hlall i e' Hi' Hij) as Hlk'. split; [done|]. pose proof (Hpl e' ltac:(by eapply elem_of_list_lookup_2)) as Hple'.
        destruct (placed_row c s I L D Hs e' Hple') as (m1 & p1 & k1 & HD1 & Hlk1 & Hloc1). destruct (linked_fun _ _ _ _ _ _ Hlk' Hlk1) as [<- <-].
        split; [by destruct Hple'|]. exists m1, p. done.
      * intros i e1 e2 Hij H1 H2. unfold behind. rewrite (linked_place _ _ _ _ (Hlall i e1 H1 ltac:(lia))), (linked_place _ _ _ _ (Hlall (S i) e2 H2 ltac:(lia))).
        rewrite Nat.eqb_refl. simpl. apply Nat.eqb_eq. lia.
      * done.
      * intros e1 e2 H1 H2. unfold behind. rewrite (linked_place _ _ _ _ (Hlall j e1 H1 ltac:(lia))).
        destruct (placed_row c s I L D Hs e2) as (m2 & p2 & k2 & _ & Hl2 & _); [apply Hpl; right; by eapply elem_of_list_lookup_2|].
        rewrite (linked_place _ _ _ _ Hl2). destruct (Nat.eqb_spec p2 p) as [->|]; [|done]. destruct (Nat.eqb_spec k2 (S (k + j))) as [->|]; [|done].
        destruct (Hstop e2 H2). by replace (S k + j)%nat with (S (k + j)) by lia.
    + rewrite Hmem, Hn, HR. rewrite runs_skip by done. apply IH; [done|intros; apply Hpl; by right|lia|lia].
Qed.
End oq.

(** ** Pairs *)
Lemma paired_in_length s p run : length (paired_in s p run) = length run.
Proof. induction run as [|e [|e' run] IH]; simpl in *; [done|done|]. by rewrite IH. Qed.
Lemma outs_fst u o zs : (outs u o zs).*1 = match zs with [] => [] | z :: r => ((λ k, (z.2, k)) <$> seq (z.1.1 + o) (z.1.2 - (z.1.1 + o))) ++ rall r end.
Proof.
  revert u o. induction zs as [|[[a b] v] zs IH]; intros u o; [done|]. simpl. rewrite fmap_app, IH. f_equal.
  - rewrite <- list_fmap_compose. done.
  - destruct zs as [|z zs]; [done|]. rewrite Nat.add_0_r. done.
Qed.
Lemma outs_rall u zs : (outs u 0 zs).*1 = rall zs.
Proof. rewrite outs_fst. destruct zs as [|z zs]; [done|]. by rewrite Nat.add_0_r. Qed.

Section pairs.
Context (c : cfg) (Hc : cfg_ok c) (s : store) (I : list entity) (L : gset entity) (D : gmap N (gmap tid (list cell))).
Context (Hs : comp_state c s I L D) (q : access) (Hq : NoDup (q_types q)) (Hne : q_types q ≠ []).

Lemma resident_ids p k : e_id <$> resident s p k = ac_pages (st_ac s) !! p ≫= λ pg, pg_ids pg !! k.
Proof using Hs.
  clear Hc Hq Hne. unfold resident. destruct (ac_pages (st_ac s) !! p) as [pg|] eqn:Hpg; [|done]. simpl. destruct (pg_ids pg !! k) as [id|] eqn:Hid; [|done]. simpl.
  pose proof (cs_inv _ _ _ _ _ Hs) as Hci. pose proof (ci_ac _ _ _ _ Hci) as Hi.
  destruct (proj1 (loc_is_Some c (st_ac s) p k pg Hi Hpg)) as [[id' m] Hl]; [by eapply lookup_lt_Some|].
  pose proof Hl as (pg' & i & a & ly & Hpg' & _ & _ & _ & Hid' & _)%loc_Some. assert (id' = id) as -> by congruence.
  destruct (ci_rows _ _ _ _ Hci _ _ _ _ Hl) as [HD Hlk]; [done|]. destruct (proj1 (cs_dom _ _ _ _ _ Hs id)) as (e & He & <-); [by eexists|].
  pose proof (proj1 (inv_live _ _ _ (cs_ec _ _ _ _ _ Hs) e) He) as [_ Hv%aget_ver]. by apply aget_ok in Hv as ->.
Qed.
Lemma resident_ver p k e : resident s p k = Some e → aget (ec_ver (st_ec s)) (e_id e) = POk (e_ver e).
Proof using.
  unfold resident. destruct (ac_pages (st_ac s) !! p) as [pg|]; [|done]. simpl. destruct (pg_ids pg !! k) as [id|]; [|done]. simpl.
  destruct (ec_ver (st_ec s) !! N.to_nat id) as [[v|]|] eqn:E; [|done..]. intros [= <-]. by apply aget_lookup.
Qed.
Lemma resident_linked e p k : e ∈ L → linked s (e_id e) p k ↔ resident s p k = Some e ∧ bit (st_has s) (e_id e) = true.
Proof using Hs.
  clear Hc Hq Hne. intros He. pose proof (cs_inv _ _ _ _ _ Hs) as Hci. pose proof (ci_ac _ _ _ _ Hci) as Hi. split.
  - intros Hlk. split; [|apply Hlk]. destruct (cs_row _ _ _ _ _ _ Hs He) as (m & HD & _ & [(p' & k' & Hlk' & Hl & _)|(Hb & _)]); [|destruct Hlk; congruence].
    destruct (linked_fun _ _ _ _ _ _ Hlk Hlk') as [<- <-]. pose proof Hl as (pg & i & a & ly & Hpg & _ & _ & _ & Hid & _)%loc_Some.
    unfold resident. rewrite Hpg. simpl. rewrite Hid. simpl. pose proof (proj1 (inv_live _ _ _ (cs_ec _ _ _ _ _ Hs) e) He) as [_ Hv%aget_ver].
    apply aget_ok in Hv as ->. by destruct e.
  - intros [Hr Hb]. pose proof (resident_ids p k) as Hids. rewrite Hr in Hids. simpl in Hids. symmetry in Hids. apply bind_Some in Hids as (pg & Hpg & Hid).
    destruct (proj1 (loc_is_Some c (st_ac s) p k pg Hi Hpg)) as [[id' m] Hl]; [by eapply lookup_lt_Some|].
    pose proof Hl as (pg' & i & a & ly & Hpg' & _ & _ & _ & Hid' & _)%loc_Some. assert (id' = e_id e) as -> by congruence.
    by destruct (ci_rows _ _ _ _ Hci _ _ _ _ Hl).
Qed.

Lemma good_page v p : good_view c (st_ac s) q v p → ∃ pg, ac_pages (st_ac s) !! p = Some pg ∧ pv_ids v = pg_ids pg.
Proof using. intros (pg & ? & ? & H1 & _ & _ & H2 & _). eauto. Qed.
Lemma zrun_page z run : zrun c s L q z run → ∃ p pg, page_of s run = Some p ∧ ac_pages (st_ac s) !! p = Some pg ∧ pv_ids z.2 = pg_ids pg ∧
  ∀ j e, run !! j = Some e → linked s (e_id e) p (z.1.1 + j)%nat ∧ pg_ids pg !! (z.1.1 + j)%nat = Some (e_id e) ∧ oat c s L q (z.2, (z.1.1 + j)%nat) e.
Proof using Hs.
  clear Hc Hq Hne. intros (Hn & Hb & p & Hgv & Hrun). destruct (good_page _ _ Hgv) as (pg & Hpg & Hids). exists p, pg. split_and!; [|done|done|].
  - destruct run as [|e run]; [done|]. unfold page_of. simpl. destruct (Hrun 0%nat e eq_refl) as [Hlk _]. by rewrite (linked_place _ _ _ _ Hlk).
  - intros j e Hj. destruct (Hrun j e Hj) as [Hlk Hat]. split_and!; [done| |done]. destruct Hat as (HeL & _).
    apply (resident_linked _ _ _ HeL) in Hlk as [Hr _]. pose proof (resident_ids p (z.1.1 + j)) as Hx. rewrite Hr, Hpg in Hx. done.
Qed.
(** [u] shows the ids of page [p]. *)
Definition shows (u : pview) (p : nat) : Prop := ∃ pg, ac_pages (st_ac s) !! p = Some pg ∧ pv_ids u = pg_ids pg.
Lemma run_outs u v po p run : ∀ a,
  (∀ p', po = Some p' → shows u p') → (po = None → u = v) →
  (∀ j e, run !! j = Some e → linked s (e_id e) p (a + j)%nat ∧ pv_ids v !! (a + j)%nat = Some (e_id e)) →
  (λ k, if bool_decide (S k = (a + length run)%nat) then pv_ids v !! k else pv_ids u !! k) <$> seq a (length run) = (λ o : option entity, e_id <$> o) <$> paired_in s po run.
Proof using Hs.
  clear Hc Hq Hne. induction run as [|e run IH]; intros a Hpo Hno Hrun; [done|]. destruct (Hrun 0%nat e eq_refl) as [Hlk Hid]. rewrite Nat.add_0_r in *.
  destruct run as [|e' run].
  - simpl. rewrite bool_decide_true by lia. by rewrite Hid.
  - change (length (e :: e' :: run)) with (S (length (e' :: run))). cbn [seq]. rewrite fmap_cons.
    change (paired_in s po (e :: e' :: run)) with
      (match po, place s e with Some p, Some (_, k) => resident s p k | _, _ => Some e end :: paired_in s po (e' :: run)).
    rewrite fmap_cons. f_equal.
    + rewrite bool_decide_false by (simpl; lia). rewrite (linked_place _ _ _ _ Hlk). destruct po as [p'|]; [|rewrite Hno by done; by rewrite Hid].
      rewrite resident_ids. destruct (Hpo p' eq_refl) as (pg & -> & ->). done.
    + rewrite <- (IH (S a)); [|done|done|].
      * apply list_fmap_ext. intros j k Hk. by replace (a + S (length (e' :: run)))%nat with (S a + length (e' :: run))%nat by lia.
      * intros j x Hj. replace (S a + j)%nat with (a + S j)%nat by lia. by apply Hrun.
Qed.
Lemma outs_paired zs rs : Forall2 (zrun c s L q) zs rs → ∀ u po, (∀ p', po = Some p' → shows u p') → (po = None → ∀ z, head zs = Some z → u = z.2) →
  (outs u 0 zs).*2 = (λ o : option entity, e_id <$> o) <$> paired s po rs.
Proof using Hs.
  clear Hc Hq Hne. induction 1 as [|[[a b] v] run zs rs Hz _ IH]; intros u po Hpo Hno; [done|]. cbn [outs paired]. rewrite !fmap_app.
  destruct (zrun_page _ _ Hz) as (p & pg & Hp & Hpg & Hids & Hrun). destruct Hz as (_ & Hb & _). simpl in Hb, Hids, Hrun. rewrite Nat.add_0_r. f_equal.
  - rewrite <- list_fmap_compose. rewrite <- (run_outs u v po p run a); [|done|intros ->; exact (Hno eq_refl (a, b, v) eq_refl)|].
    + rewrite Hb. replace (a + length run - a)%nat with (length run) by lia. done.
    + intros j e Hj. rewrite Hids. by destruct (Hrun j e Hj) as (? & ? & _).
  - apply IH; [|by rewrite Hp]. intros p' Hp'. rewrite Hp in Hp'. injection Hp' as <-. by exists pg.
Qed.
Lemma zrun_all zs rs : Forall2 (zrun c s L q) zs rs → rok zs ∧ Forall2 (oat c s L q) (rall zs) (concat rs).
Proof using.
  induction 1 as [|[[a b] v] run zs rs Hz _ [IH1 IH2]]; [split; [by intros z ?%elem_of_nil|constructor]|]. destruct Hz as (Hn & Hb & p & _ & Hrun). simpl in *. split.
  - intros z [->|Hz]%elem_of_cons; [|by apply IH1]. simpl. destruct run; [done|]. simpl in Hb. lia.
  - unfold rall. simpl. apply Forall2_app; [|exact IH2]. unfold ritems. simpl. replace (b - a)%nat with (length run) by lia. clear -Hrun.
    apply Forall2_same_length_lookup_2; [by rewrite fmap_length, seq_length|]. intros i x e Hx He. rewrite list_lookup_fmap in Hx.
    apply fmap_Some in Hx as (k & [-> _]%lookup_seq & ->). by apply Hrun.
Qed.
Lemma paired_live po rs : (∀ e, e ∈ concat rs → e ∈ L) → ∀ e, Some e ∈ paired s po rs → aget (ec_ver (st_ec s)) (e_id e) = POk (e_ver e).
Proof using Hs.
  clear Hc Hq Hne. intros HL.
  assert (∀ e, e ∈ L → aget (ec_ver (st_ec s)) (e_id e) = POk (e_ver e)) as Hlive.
  { intros e He. apply aget_ver. by apply (inv_live _ _ _ (cs_ec _ _ _ _ _ Hs) e). }
  revert po. induction rs as [|run rs IH]; intros po e; simpl; [by intros ?%elem_of_nil|]. rewrite elem_of_app. intros [He|He].
  - assert (∀ x, x ∈ run → x ∈ L) as HLr. { intros x Hx. apply HL. simpl. apply elem_of_app. by left. }
    clear -He HLr Hlive. induction run as [|e1 run IH]; [by apply elem_of_nil in He|]. destruct run as [|e2 run].
    + apply elem_of_list_singleton in He as [= ->]. apply Hlive, HLr. by left.
    + cbn [paired_in] in He. apply elem_of_cons in He as [He|He].
      * destruct po as [p'|]; [|injection He as ->; apply Hlive, HLr; by left]. destruct (place s e1) as [[p k]|]; [|injection He as ->; apply Hlive, HLr; by left].
        by eapply resident_ver.
      * apply IH; [done|]. intros x Hx. apply HLr. by right.
  - eapply IH; [|done]. intros x Hx. apply HL. simpl. apply elem_of_app. by right.
Qed.

Lemma ordered_with g l fuel :
  match get_group_index c (st_orders s) g with
  | None => e_id <$> l = []
  | Some i => ∃ nm, vget_unchecked (og_fwd (st_orders s)) i = POk nm ∧ vget_unchecked (og_head (st_orders s)) i = POk (hdn (e_id <$> l)) ∧ chain nm (e_id <$> l)
  end →
  (∀ e, e ∈ l → placed L D e) → (length l < fuel)%nat →
  let rs := List.filter (run_matches L D q) (runs s l) in
  ∃ it items it', ordered_query fuel c q s g = Some (POk it) ∧ yields oiter_next it items.*2 it' ∧
    items.*1 = concat rs ∧ (∀ e refs, (e, refs) ∈ items → get_components_refs c s e (q_types q) = POk (Some refs)) ∧
    (∀ es, paired s None rs = Some <$> es → ∃ it'', yields (oiter_next_with (ec_ver (st_ec s))) it (zip es items.*2) it'') ∧
    (∀ l' it'', yields (oiter_next_with (ec_ver (st_ec s))) it l' it'' → paired s None rs = Some <$> l'.*1 ∧ l'.*2 = items.*2) ∧
    ∀ run, run ∈ rs → ∃ p, page_of s run = Some p ∧ ∀ e, e ∈ run → e ∈ L ∧ ∃ k, linked s (e_id e) p k.
Proof using Hc Hs Hq Hne.
  intros Hg Hpl Hf rs. unfold ordered_query. destruct (get_group_index c (st_orders s) g) as [gi|].
  2: { destruct l; [|done]. set (it := OIter _ _ _ _ _ _). exists it, [], it. split_and!; [done|by constructor|done|by intros ? ? ?%elem_of_nil| | |].
       - intros es. simpl. intros Hes. destruct es; [|done]. exists it. by constructor.
       - intros l' it'' Hy. inversion Hy as [|? ? ? ? ? Hn]; subst; done.
       - by intros run ?%elem_of_nil. }
  destruct Hg as (nm & -> & -> & Hch).
  destruct (ranges_runs c Hc s I L D Hs q Hq nm (length l) l fuel Hch Hpl ltac:(done) Hf) as (zs & -> & Hf2). simpl. fold rs in Hf2.
  set (it := OIter _ _ _ _ _ _). destruct (zrun_all _ _ Hf2) as [Hok Hat]. pose proof (Forall2_length _ _ _ Hat) as Hlen.
  assert (∀ v i, (v, i) ∈ rall zs → ptrs_to_refs (add_to_ptrs (pv_ptrs v) i) = POk (view_item (v, i))) as Hptr.
  { intros v i (n & Hn)%elem_of_list_lookup. destruct (Forall2_lookup_l _ _ _ _ _ Hat Hn) as (e & _ & He). by apply (oat_refs c Hc s I L D Hs q Hne (v, i) e). }
  destruct (oiter_yields zs view_item (rall zs) it) as (it' & Hy); try done. { by apply rpos_0. } { apply rrest_0. }
  assert (∃ u, ∀ z, head zs = Some z → z.2 = u) as [u Hu]. { destruct zs as [|z zs']; [by exists pview_empty|]. exists z.2. by intros z' [= <-]. }
  assert (∀ z, zs !! pred (oi_range it) = Some z → z.2 = u) as Hu'. { intros z Hz. apply Hu. by rewrite head_lookup. }
  assert ((outs u 0 zs).*2 = (λ o : option entity, e_id <$> o) <$> paired s None rs) as Hout. { apply outs_paired; [done|done|]. intros _ z Hz. symmetry. by apply Hu. }
  assert (∀ x oid, (x, oid) ∈ outs u 0 zs → ptrs_to_refs (add_to_ptrs (pv_ptrs x.1) x.2) = POk (view_item x)) as Hptr'.
  { intros [v i] oid Hx. apply Hptr. rewrite <- (outs_rall u zs). apply elem_of_list_fmap. by exists ((v, i), oid). }
  assert (∀ e, e ∈ concat rs → e ∈ L) as HL.
  { intros e (n & Hn)%elem_of_list_lookup. destruct (Forall2_lookup_r _ _ _ _ _ Hat Hn) as (x & _ & He & _). done. }
  assert (∀ es, paired s None rs = Some <$> es → ∃ it'', yields (oiter_next_with (ec_ver (st_ec s))) it (zip es (view_item <$> rall zs)) it'') as Hfwd.
  { intros es Hes. rewrite <- (outs_rall u zs). apply (with_yields zs (ec_ver (st_ec s)) view_item (outs u 0 zs) it u); try done; [by apply rpos_0|..].
    - intros e He. apply (paired_live None rs HL). rewrite Hes. apply elem_of_list_fmap. by exists e.
    - rewrite Hout, Hes. by rewrite <- !list_fmap_compose. }
  exists it, (zip (concat rs) (view_item <$> rall zs)), it'. rewrite snd_zip by (rewrite fmap_length; lia). rewrite fst_zip by (rewrite fmap_length; lia). split_and!; try done.
  - intros e refs (n & Hn)%elem_of_list_lookup. rewrite lookup_zip_with_Some in Hn. destruct Hn as (e' & rs' & [= <- <-] & He & Hrs).
    rewrite list_lookup_fmap in Hrs. destruct (rall zs !! n) as [x|] eqn:Hx; [|done]. injection Hrs as <-.
    destruct (Forall2_lookup_l _ _ _ _ _ Hat Hx) as (e' & He' & Hoat). assert (e' = e) as -> by congruence. by apply (oat_refs c Hc s I L D Hs q Hne).
  - intros l' it'' Hyw. pose proof Hyw as Hinv. apply (with_yields_inv zs (ec_ver (st_ec s)) view_item (outs u 0 zs) it u) in Hinv; try done; [|by apply rpos_0].
    rewrite Hout in Hinv.
    assert (∃ es, paired s None rs = Some <$> es) as [es Hes].
    { clear -Hinv. revert Hinv. generalize l'.*1. generalize (paired s None rs). intros P. induction P as [|o P IH]; intros [|e es]; [by exists []|done|done|].
      rewrite !fmap_cons. intros [= Ho Hr]. destruct (IH es Hr) as [es' ->]. destruct o as [o|]; [|done]. by exists (o :: es'). }
    destruct (Hfwd es Hes) as [it3 Hy3]. pose proof (yields_fun _ _ _ _ _ _ Hyw Hy3) as [-> _].
    assert (length es = length (rall zs)) as Hle.
    { rewrite <- (outs_rall u zs), fmap_length. rewrite <- (fmap_length snd), Hout, Hes, !fmap_length. done. }
    rewrite fst_zip, snd_zip by (rewrite fmap_length; lia). done.
  - intros run (n & Hn)%elem_of_list_lookup. destruct (Forall2_lookup_r _ _ _ _ _ Hf2 Hn) as (z & _ & Hz).
    destruct (zrun_page _ _ Hz) as (p & pg & Hp & _ & _ & Hrun). exists p. split; [done|]. intros e (j & Hj)%elem_of_list_lookup.
    destruct (Hrun j e Hj) as (Hlk & _ & Ho & _). split; [done|]. by eexists.
Qed.

Lemma paired_right po rs : (∀ run, run ∈ rs → run ≠ [] ∧ ∃ p, page_of s run = Some p ∧ ∀ e, e ∈ run → e ∈ L ∧ ∃ k, linked s (e_id e) p k) →
  paired s po rs = Some <$> concat rs ↔ (∀ p run, po = Some p → head rs = Some run → (length run ≤ 1)%nat ∨ page_of s run = Some p) ∧ runs_stay s rs.
Proof using Hs.
  clear Hc Hq Hne. revert po. induction rs as [|run rs IH]; intros po Hrs.
  - simpl. split; [|done]. intros _. split; [done|]. by intros n r1 r2.
  - simpl. destruct (Hrs run ltac:(by left)) as (Hn & p & Hp & Hrun). rewrite fmap_app.
    assert (paired_in s po run = Some <$> run ↔ (∀ p0, po = Some p0 → (length run ≤ 1)%nat ∨ page_of s run = Some p0)) as Hin.
    { rewrite Hp. clear Hp Hrs IH Hn. destruct po as [p0|].
      2: { split; [done|]. intros _. clear Hrun. induction run as [|e [|e' run] IH]; [done..|]. simpl in *. by rewrite IH. }
      assert (paired_in s (Some p0) run = Some <$> run ↔ (length run ≤ 1)%nat ∨ Some p = Some p0) as ->.
      2: { split; [by intros ? ? [= <-]|]. intros H. by apply H. }
      induction run as [|e [|e' run] IH]; [simpl; split; [intros _; left; lia|done]|simpl; split; [intros _; left; lia|done]|].
      destruct (Hrun e ltac:(by left)) as [He [k Hlk]]. cbn [paired_in fmap list_fmap]. rewrite (linked_place _ _ _ _ Hlk).
      assert (resident s p0 k = Some e ↔ Some p = Some p0) as Hres.
      { split; [|intros [= <-]; by apply (resident_linked e p k He)]. intros Hr.
        assert (linked s (e_id e) p0 k) as Hlk2 by (apply (resident_linked _ _ _ He); split; [done|apply Hlk]).
        by destruct (linked_fun _ _ _ _ _ _ Hlk Hlk2) as [-> _]. }
      specialize (IH ltac:(intros; apply Hrun; by right)). split.
      - intros [= H1 H2]. right. by apply Hres.
      - intros [H|H]; [simpl in H; lia|]. f_equal; [by apply Hres|]. apply IH. by right. }
    assert (paired s (page_of s run) rs = Some <$> concat rs ↔
      (∀ run', head rs = Some run' → (length run' ≤ 1)%nat ∨ page_of s run = page_of s run') ∧ runs_stay s rs) as Hrest.
    { rewrite IH by (intros; apply Hrs; by right). rewrite Hp. split; intros [H1 H2]; (split; [|done]).
      - intros run' Hr. destruct (H1 p run' eq_refl Hr) as [?|<-]; [by left|by right].
      - intros p' run' [= <-] Hr. destruct (H1 run' Hr) as [?|<-]; [by left|by right]. }
    transitivity (paired_in s po run = Some <$> run ∧ paired s (page_of s run) rs = Some <$> concat rs).
    { split; [|by intros [-> ->]]. intros H. apply app_inj_1 in H; [done|]. by rewrite paired_in_length, fmap_length. }
    rewrite Hin, Hrest. split.
    + intros (H1 & H2 & H3). split; [intros p' run' -> [= <-]; by apply H1|]. intros [|n] r1 r2; simpl.
      * intros [= <-] H. apply H2. by rewrite head_lookup.
      * by apply H3.
    + intros [H1 H2]. split_and!.
      * intros p' ->. by apply (H1 p' run).
      * intros run' H. rewrite head_lookup in H. by apply (H2 0%nat run run').
      * intros n r1 r2. by apply (H2 (S n)).
Qed.
End pairs.

Lemma matches_observed c cap tr s D q e : cfg_ok c → c_mode c = Debug → hrun c cap tr s → comp_state c s (issued tr) (live tr) D →
  matches (live tr) D q e = true ↔ ∃ m, observed c s e (Some m) ∧ ∀ t, t ∈ q_types q → is_Some (m !! t).
Proof.
  intros Hc Hmd Hr Hs. setoid_rewrite (observed_D c Hc Hmd _ _ _ _ _ _ Hr Hs). unfold matches. split.
  - destruct (D !! e_id e) as [m|]; [|done]. intros [He%bool_decide_eq_true Hall]%andb_prop. exists m. split; [done|]. by apply has_all_spec.
  - intros (m & [He HD] & Hall). rewrite HD, bool_decide_true by done. simpl. by apply has_all_spec.
Qed.
Lemma ordered_with_exact c cap tr s q g fuel : cfg_ok c → c_mode c = Debug → hrun c cap tr s → orders_proper tr →
  NoDup (q_types q) → q_types q ≠ [] →
  (∀ e, e ∈ members tr g → had_components tr e) → (length (members tr g) < fuel)%nat →
  ∃ it l it1 f, (∀ e, f e = true ↔ ∃ m, observed c s e (Some m) ∧ ∀ t, t ∈ q_types q → is_Some (m !! t)) ∧
    let rs := List.filter (forallb f) (runs s (members tr g)) in
    ordered_query fuel c q s g = Some (POk it) ∧ yields oiter_next it l.*2 it1 ∧ l.*1 = concat rs ∧
    (∀ e refs, (e, refs) ∈ l → get_components_refs c s e (q_types q) = POk (Some refs)) ∧
    (∀ es, paired s None rs = Some <$> es → ∃ it2, yields (oiter_next_with (ec_ver (st_ec s))) it (zip es l.*2) it2) ∧
    (∀ l' it2, yields (oiter_next_with (ec_ver (st_ec s))) it l' it2 → paired s None rs = Some <$> l'.*1 ∧ l'.*2 = l.*2) ∧
    ((∃ it2, yields (oiter_next_with (ec_ver (st_ec s))) it l it2) ↔ runs_stay s rs).
Proof.
  intros Hc Hmd Hr Hp Hq Hne Hhad Hfuel. destruct (hrun_state c Hc Hmd _ _ _ Hr) as (D & Hs & Hcs).
  pose proof Hc as [Hbs _ _]. destruct (run_orders c cap Hbs Hmd _ _ (hrun_run _ _ _ _ Hr) Hp) as [Hmem Hh].
  pose proof (group_chain c _ _ _ g Hbs Hh) as Hg.
  destruct (ordered_with c Hc s _ _ D Hs q Hq Hne g (members tr g) fuel) as (it & l & it' & Hit & Hy & Hl & Hrs & Hfwd & Hinv & Hpages); [by destruct (get_group_index _ _ _)| |done|].
  { intros e He. assert (e ∈ live tr) as HeL by by apply live_alive, (Hmem g).
    destruct (cs_row _ _ _ _ _ _ Hs HeL) as (m & HD & _). split; [done|]. exists m. split; [done|].
    apply (had_nonempty c Hc Hmd _ _ _ e _ Hr); [by apply Hhad|]. specialize (Hcs e). unfold cview in Hcs. by rewrite decide_True, HD in Hcs. }
  exists it, l, it', (matches (live tr) D q). split; [intros e; by apply (matches_observed c cap tr)|]. cbv zeta.
  set (rs := List.filter _ _) in *. split_and!; try done.
  transitivity (paired s None rs = Some <$> concat rs).
  - split.
    + intros [it2 H2]. destruct (Hinv l it2 H2) as [H _]. by rewrite Hl in H.
    + intros H. destruct (Hfwd _ H) as [it2 H2]. rewrite <- Hl in H2. exists it2.
      replace l with (zip l.*1 l.*2); [done|]. clear. induction l as [|[? ?] ? IH]; [done|]. simpl. f_equal. exact IH.
  - rewrite (paired_right c s _ _ D Hs None rs); [naive_solver|]. intros run Hrun. split; [|by apply Hpages].
    apply elem_of_list_In, filter_In in Hrun as [Hrun%elem_of_list_In _]. intros ->. by apply (runs_nonnil s (members tr g)) in Hrun.
Qed.
