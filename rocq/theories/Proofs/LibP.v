(** LibP.v — what does not depend on the implementation of the standard library: two healthy runs of the same calls, with
    different binary searches and different growth of vectors. *)
From Verif.Spec Require Export Library.
From Verif.Spec Require Import Components.
From Verif.Proofs Require Export CompX UsageP DiscP.
Local Open Scope N_scope.

(** ** Binary searches in sorted lists *)
Lemma search_unique bs1 bs2 l x : search_ok bs1 → search_ok bs2 → incr l → bs1 l x = bs2 l x.
Proof.
  intros H1 H2 Hs. pose proof (incr_nodup _ Hs) as Hnd. specialize (H1 l x (incr_le _ Hs)). specialize (H2 l x (incr_le _ Hs)).
  assert (∀ i j, (i ≤ length l)%nat → l !! j = Some x → Forall (λ y, y < x) (take i l) → Forall (λ y, x < y) (drop i l) → False) as Hno.
  { intros i j Hi Hj Ha Hb. assert (x ∈ l) as Hx by by eapply elem_of_list_lookup_2. rewrite <- (take_drop i l) in Hx.
    rewrite Forall_forall in Ha, Hb. apply elem_of_app in Hx as [Hx|Hx]; [apply Ha in Hx|apply Hb in Hx]; lia. }
  assert (∀ i j, (i < j ≤ length l)%nat → Forall (λ y, x < y) (drop i l) → Forall (λ y, y < x) (take j l) → False) as Hgap.
  { intros i j Hij Hb Ha. destruct (lookup_lt_is_Some_2 l i) as [y Hy]; [lia|].
    rewrite Forall_forall in Ha, Hb. assert (y < x). { apply Ha. apply (elem_of_list_lookup_2 _ i). by rewrite lookup_take by lia. }
    assert (x < y); [|lia]. apply Hb. apply (elem_of_list_lookup_2 _ 0). by rewrite lookup_drop, Nat.add_0_r. }
  destruct (bs1 l x) as [i|i], (bs2 l x) as [j|j].
  - f_equal. by eapply NoDup_lookup.
  - destruct H2 as (? & ? & ?). by destruct (Hno j i).
  - destruct H1 as (? & ? & ?). by destruct (Hno i j).
  - f_equal. destruct H1 as (Hi & H1 & H1'), H2 as (Hj & H2 & H2').
    destruct (Nat.lt_trichotomy i j) as [Hlt|[?|Hlt]]; [|done|]; exfalso; [by apply (Hgap i j)|by apply (Hgap j i)].
Qed.

(** ** Two outcomes *)
Definition both {S A} (R : S → S → Prop) (r1 r2 : res S A) : Prop :=
  match r1, r2 with ROk s1 a, ROk s2 b => a = b ∧ R s1 s2 | _, _ => True end.
Definition pboth {A} (p1 p2 : pres A) : Prop := match p1, p2 with POk a, POk b => a = b | _, _ => True end.

Section both.
Context {S : Type} (R : S → S → Prop).
Implicit Types (s : S).
Lemma both_bind {A B} (m1 m2 : M S A) (k1 k2 : A → M S B) s1 s2 (Q : S → S → Prop) :
  both Q (m1 s1) (m2 s2) → (∀ a t1 t2, Q t1 t2 → both R (k1 a t1) (k2 a t2)) → both R ((m1 ≫= k1) s1) ((m2 ≫= k2) s2).
Proof.
  intros Hm Hk. unfold mbind, M_bind. destruct (m1 s1) as [t1 a|?|?], (m2 s2) as [t2 b|?|?]; try done.
  - destruct Hm as [-> HQ]. by apply Hk.
  - by destruct (k1 a t1).
  - by destruct (k1 a t1).
Qed.
Lemma both_get {B} (k1 k2 : S → M S B) s1 s2 : both R (k1 s1 s1) (k2 s2 s2) → both R ((getS ≫= k1) s1) ((getS ≫= k2) s2).
Proof. done. Qed.
Lemma both_mod {B} f1 f2 (k1 k2 : unit → M S B) s1 s2 :
  both R (k1 tt (f1 s1)) (k2 tt (f2 s2)) → both R ((modS f1 ≫= k1) s1) ((modS f2 ≫= k2) s2).
Proof. done. Qed.
Lemma both_lift {A1 A2 B} (p1 : pres A1) (p2 : pres A2) (k1 : A1 → M S B) (k2 : A2 → M S B) s1 s2 :
  (∀ a b, p1 = POk a → p2 = POk b → both R (k1 a s1) (k2 b s2)) → both R ((lift p1 ≫= k1) s1) ((lift p2 ≫= k2) s2).
Proof.
  intros H. unfold mbind, M_bind, lift. destruct p1 as [a| |], p2 as [b| |]; try done; [by apply H|by destruct (k1 a s1)..].
Qed.
Lemma both_lift_eq {A B} (p1 p2 : pres A) (k1 k2 : A → M S B) s1 s2 : pboth p1 p2 →
  (∀ a, p1 = POk a → p2 = POk a → both R (k1 a s1) (k2 a s2)) → both R ((lift p1 ≫= k1) s1) ((lift p2 ≫= k2) s2).
Proof. intros Hp H. apply both_lift. intros a b E1 E2. rewrite E1, E2 in Hp. simpl in Hp. subst b. by apply H. Qed.
Lemma both_ret {A} (a : A) s1 s2 : R s1 s2 → both R ((mret a : M S A) s1) ((mret a : M S A) s2).
Proof. done. Qed.
Lemma both_ok {A} (r1 r2 : res S A) s1 a s2 b : both R r1 r2 → r1 = ROk s1 a → r2 = ROk s2 b → a = b ∧ R s1 s2.
Proof. by intros H -> ->. Qed.
Lemma both_intro {A} (r1 r2 : res S A) : (∀ s1 a s2 b, r1 = ROk s1 a → r2 = ROk s2 b → a = b ∧ R s1 s2) → both R r1 r2.
Proof. intros H. destruct r1, r2; try done. by apply H. Qed.
End both.
Lemma both_mono {S A} (R Q : S → S → Prop) (r1 r2 : res S A) : both R r1 r2 → (∀ s1 s2, R s1 s2 → Q s1 s2) → both Q r1 r2.
Proof. intros H HR. destruct r1, r2; try done. destruct H. simpl. auto. Qed.
Lemma pboth_refl {A} (p : pres A) : pboth p p.
Proof. by destruct p. Qed.
Lemma pboth_eq {A} (p q : pres A) : p = q → pboth p q.
Proof. intros ->. apply pboth_refl. Qed.

(** ** Containers *)
Definition acr (x y : ac) : Prop :=
  (∃ ys, y = ac_set_pages ys x ∧ Forall2 page_alike (ac_pages x) ys) ∧ Forall (λ a, incr (arch_ids a)) (ac_archs x).

Lemma alike_lookup xs ys p : Forall2 page_alike xs ys →
  match xs !! p, ys !! p with Some x, Some y => page_alike x y | None, None => True | _, _ => False end.
Proof.
  intros H. destruct (xs !! p) as [x|] eqn:E.
  - destruct (Forall2_lookup_l _ _ _ _ _ H E) as (y & -> & ?). done.
  - apply lookup_ge_None in E. rewrite (Forall2_length _ _ _ H) in E. by rewrite (lookup_ge_None_2 _ _ E).
Qed.
Lemma alike_insert xs ys p x y : Forall2 page_alike xs ys → page_alike x y → Forall2 page_alike (<[p := x]> xs) (<[p := y]> ys).
Proof. intros. by apply Forall2_insert. Qed.
Lemma alike_refl p : page_alike p p.
Proof. done. Qed.

Section lib.
Context (md : mode) (ty : tid → tyinfo) (bs1 bs2 : list N → N → bsres) (g1 g2 : N → N → N).
Context (Hb1 : search_ok bs1) (Hb2 : search_ok bs2).
Notation c1 := (Cfg md ty bs1 g1).
Notation c2 := (Cfg md ty bs2 g2).

Lemma bs_eq l x : incr l → bs1 l x = bs2 l x.
Proof using Hb1 Hb2. by apply search_unique. Qed.

(** What the search of an archetype and of a page with room depend on. *)
Definition same_room (x y : ac) (i : nat) : Prop := ∀ ps p pg qg, ac_pages_of x !! i = Some ps → p ∈ ps →
  ac_pages x !! p = Some pg → ac_pages y !! p = Some qg → has_free_space pg = has_free_space qg.
Record addable (x y : ac) (a : archetype) : Prop := Addable {
  ad_incr : incr (arch_ids a);
  ad_nodup : NoDup (ac_free_archs x);
  ad_found : ∀ i b, ac_archs x !! i = Some b → arch_ids b = arch_ids a → found_right c1 x i ∧ found_right c2 y i ∧ same_room x y i;
  ad_free : ∀ i, i ∈ ac_free_archs x → ac_pages_of x !! i = Some [];
  ad_len : length (ac_pages_of x) = length (ac_archs x);
}.

Lemma find_room_alike xs ys ps : Forall2 page_alike xs ys →
  (∀ p pg qg, p ∈ ps → xs !! p = Some pg → ys !! p = Some qg → has_free_space pg = has_free_space qg) → find_room xs ps = find_room ys ps.
Proof using.
  intros H. induction ps as [|p ps IH]; intros Hr; [done|]. simpl. unfold vidx. pose proof (alike_lookup _ _ p H) as Hp.
  destruct (xs !! p) as [pg|] eqn:E1, (ys !! p) as [qg|] eqn:E2; try done. simpl.
  rewrite (Hr p pg qg (elem_of_list_here _ _) E1 E2). destruct (has_free_space qg); [done|]. apply IH. intros q pg' qg' Hq. apply Hr. by right.
Qed.
Lemma page_add_alike p q id a b : page_alike p q → page_add c1 p id = POk a → page_add c2 q id = POk b → page_alike a.1 b.1 ∧ a.2 = b.2.
Proof using.
  intros [H1 H2] Ha Hb. unfold page_add in *. apply pbind_ok in Ha as (? & _ & [= <-]). apply pbind_ok in Hb as (? & _ & [= <-]).
  unfold page_alike, page_count. simpl. by rewrite H1, H2.
Qed.
Lemma ac_page_add_both pi id x y : acr x y → both acr (ac_page_add c1 pi id x) (ac_page_add c2 pi id y).
Proof using.
  intros [(ys & -> & H) Hi]. unfold ac_page_add. apply both_get, both_lift. intros p q Hp Hq. apply vidx_ok in Hp, Hq. simpl in Hq.
  apply both_lift. intros a b Ha Hb. pose proof (alike_lookup _ _ pi H) as Hl. rewrite Hp, Hq in Hl.
  destruct (page_add_alike _ _ _ _ _ Hl Ha Hb) as [Hab Hab2]. apply both_mod. rewrite Hab2. apply both_ret. split; [|done].
  eexists. split; [done|]. simpl. by apply alike_insert.
Qed.
Lemma set_layout_alike p q ly : page_alike p q → page_alike (page_set_layout c1 p ly) (page_set_layout c2 q ly).
Proof using. intros [H1 H2]. unfold page_set_layout. destruct (_ <? _), (_ <? _); done. Qed.

Lemma reserve_page_both id ai x y : acr x y → same_room x y ai → both acr (reserve_page c1 id ai x) (reserve_page c2 id ai y).
Proof using.
  intros HR Hroom. pose proof HR as [(ys & -> & H) Hi]. unfold reserve_page. apply both_get.
  apply both_lift. simpl. intros ps ps' Hps Hps'. assert (ps' = ps) as -> by congruence. apply vidx_ok in Hps.
  apply both_lift. intros r r' Hr Hr'. simpl in Hr'. rewrite <- (find_room_alike (ac_pages x) ys) in Hr'; [|done|].
  2:{ intros p pg qg. rewrite elem_of_reverse. by apply (Hroom ps). }
  assert (r' = r) as -> by congruence. destruct r as [pi|]; [by apply ac_page_add_both|].
  eapply (both_bind _ _ _ _ _ _ _ acr).
  - simpl. destruct (last (ac_free_pages x)) as [pi|].
    + apply both_mod, both_ret. split; [|done]. eexists. split; [done|]. done.
    + apply both_mod. rewrite <- (Forall2_length _ _ _ H). apply both_lift. intros p2a p2a' E1 E2. assert (p2a' = p2a) as -> by congruence.
      apply both_mod, both_ret. split; [|done]. eexists. split; [done|]. simpl. apply Forall2_app; [done|]. by constructor.
  - clear x ys HR H Hi Hroom Hps Hps' Hr Hr' ps. intros pi x y [(ys & -> & H) Hi]. apply both_get. apply both_lift. simpl. intros ly ly' El El'.
    assert (ly' = ly) as -> by congruence. apply both_lift. intros p q Hp Hq. apply vidx_ok in Hp, Hq.
    pose proof (alike_lookup _ _ pi H) as Hl. rewrite Hp, Hq in Hl. apply both_mod. apply both_lift. intros ps ps' Hps Hps'.
    assert (ps' = ps) as -> by congruence. apply both_mod. apply both_lift. intros p2a p2a' E1 E2. assert (p2a' = p2a) as -> by congruence.
    apply both_mod. apply ac_page_add_both. split; [|done]. eexists. split; [done|]. simpl. apply alike_insert; [done|]. by apply set_layout_alike.
Qed.

Lemma reserve_archetype_both a x y : acr x y → addable x y a →
  both (λ x y, acr x y) (reserve_archetype c1 a x) (reserve_archetype c2 a y) ∧
  ∀ x' i y' j, reserve_archetype c1 a x = ROk x' i → reserve_archetype c2 a y = ROk y' j → same_room x' y' i.
Proof using.
  intros HR Ha. pose proof HR as [(ys & -> & H) Hi]. unfold reserve_archetype.
  pose proof (find_arch_spec (ac_archs x) 0 a) as Hf. destruct (find_arch (ac_archs x) 0 a) as [i|] eqn:Ef.
  - destruct Hf as (j & b & -> & Hb & Hs). simpl in Ef. apply is_same_as_spec in Hs.
    destruct (ad_found _ _ _ Ha j b Hb Hs) as (F1 & F2 & Hroom). unfold found_right in F1, F2. simpl in F1, F2. split.
    + apply both_get. simpl. rewrite Ef.
      destruct (bs1 (N.of_nat <$> ac_free_archs x) (N.of_nat j)) as [n1|n1], (bs2 (N.of_nat <$> ac_free_archs x) (N.of_nat j)) as [n2|n2].
      * assert (n2 = n1) as -> by (eapply NoDup_lookup; [apply Ha|done..]). apply both_lift. intros fr fr' E1 E2.
        assert (fr' = fr) as -> by congruence. apply both_mod, both_ret. split; [|done]. by eexists.
      * destruct F2. by eapply elem_of_list_lookup_2.
      * destruct F1. by eapply elem_of_list_lookup_2.
      * by apply both_ret.
    + intros x' i y' k E1 E2. apply bind_ok in E1 as (? & ? & [-> ->]%get_ok & E1). apply bind_ok in E2 as (? & ? & [-> ->]%get_ok & E2).
      simpl in E1, E2. rewrite Ef in E1, E2.
      assert (i = j ∧ ac_pages_of x' = ac_pages_of x ∧ ac_pages x' = ac_pages x) as (-> & P1 & P2) by (destruct (bs1 _ _); by inv1 E1).
      assert (ac_pages y' = ys) as P3 by (destruct (bs2 _ _); by inv1 E2). intros ps p pg qg. rewrite P1, P2, P3. apply Hroom.
  - split.
    + apply both_get. simpl. rewrite Ef. apply both_lift. intros ly ly' E1 E2. assert (ly' = ly) as -> by congruence.
      destruct (last (ac_free_archs x)) as [k|].
      * apply both_mod. apply both_lift. intros as1 as2 V1 V2. assert (as2 = as1) as -> by congruence. apply both_mod.
        apply both_lift. intros ls1 ls2 W1 W2. assert (ls2 = ls1) as -> by congruence. apply both_mod, both_ret. split; [by eexists|]. simpl.
        apply vset_ok in V1 as [_ ->]. apply Forall_insert; [done|]. apply Ha.
      * apply both_mod, both_mod, both_mod, both_ret. split; [by eexists|]. simpl. apply Forall_app. split; [done|]. constructor; [apply Ha|done].
    + intros x' i y' j E1 E2. assert (ac_pages_of x' !! i = Some []) as Hn; [|intros ps p pg qg; rewrite Hn; by intros [= <-] ?%elem_of_nil].
      apply bind_ok in E1 as (? & ? & [-> ->]%get_ok & E1). simpl in E1. rewrite Ef in E1. clear E2.
      apply bind_ok in E1 as (? & ly & [_ ->]%lift_ok & E1). destruct (last (ac_free_archs x)) as [k|] eqn:El.
      * inv1 E1. simpl. apply Ha. apply last_Some in El as [l ->]. apply elem_of_app. right. by left.
      * inv1 E1. simpl. rewrite <- (ad_len _ _ _ Ha). rewrite lookup_app_r by lia. by rewrite Nat.sub_diag.
Qed.

Lemma ac_add_both id a x y : acr x y → addable x y a → both acr (ac_add_entity c1 id a x) (ac_add_entity c2 id a y).
Proof using.
  intros HR Ha. destruct (reserve_archetype_both a x y HR Ha) as [Hb Hroom]. unfold ac_add_entity. apply both_intro.
  intros x2 l1 y2 l2 E1 E2. apply bind_ok in E1 as (x1 & i & E1 & F1). apply bind_ok in E2 as (y1 & j & E2 & F2).
  destruct (both_ok _ _ _ _ _ _ _ Hb E1 E2) as [-> HR1]. specialize (Hroom _ _ _ _ E1 E2).
  by apply (both_ok _ _ _ _ _ _ _ (reserve_page_both id j x1 y1 HR1 Hroom) F1 F2).
Qed.

Lemma pages_copy_alike xs ys sp dp so d_o len xs' ys' : Forall2 page_alike xs ys →
  pages_copy xs sp dp so d_o len = POk xs' → pages_copy ys sp dp so d_o len = POk ys' → Forall2 page_alike xs' ys'.
Proof using.
  intros H. unfold pages_copy. pose proof (alike_lookup _ _ sp H) as Hs. pose proof (alike_lookup _ _ dp H) as Hd.
  destruct (xs !! sp) as [a|], (ys !! sp) as [a'|]; try done. destruct (xs !! dp) as [b|], (ys !! dp) as [b'|]; try done.
  destruct Hs as [_ Hs], Hd as [Hi Hd]. rewrite Hs, Hd. intros (m & E1 & [= <-])%pbind_ok (m' & E2 & [= <-])%pbind_ok.
  assert (m' = m) as -> by congruence. by apply alike_insert.
Qed.
Lemma copy_common_alike pairs sp dp si di sa da sl dl : ∀ xs ys xs' ys', Forall2 page_alike xs ys →
  copy_common xs sp dp si di sa da sl dl pairs = POk xs' → copy_common ys sp dp si di sa da sl dl pairs = POk ys' → Forall2 page_alike xs' ys'.
Proof using.
  induction pairs as [|[u v] pairs IH]; intros xs ys xs' ys' H; simpl; [by intros [= <-] [= <-]|].
  destruct (ly_offs sl !! u), (sa !! u), (ly_offs dl !! v), (da !! v); try done.
  intros (xs1 & E1 & F1)%pbind_ok (ys1 & E2 & F2)%pbind_ok. apply (IH xs1 ys1); [|done..]. by eapply pages_copy_alike.
Qed.
Lemma ac_move_both id prev pai a x y : acr x y → addable x y a → both acr (ac_move_entity c1 id prev pai a x) (ac_move_entity c2 id prev pai a y).
Proof using.
  intros HR Ha. destruct (reserve_archetype_both a x y HR Ha) as [Hb Hroom]. unfold ac_move_entity. apply both_intro.
  intros x3 l1 y3 l2 E1 E2. apply bind_ok in E1 as (x1 & i & E1 & F1). apply bind_ok in E2 as (y1 & j & E2 & F2).
  destruct (both_ok _ _ _ _ _ _ _ Hb E1 E2) as [-> HR1]. specialize (Hroom _ _ _ _ E1 E2).
  refine (both_ok _ _ _ _ _ _ _ _ F1 F2). eapply (both_bind _ _ _ _ _ _ _ acr); [by apply reserve_page_both|].
  clear. intros l x y [(ys & -> & H) Hi]. apply both_get. do 2 (apply both_lift; intros _ _ _ _). simpl.
  do 3 (apply both_lift; let u := fresh "u" in let v := fresh "v" in intros u v ? ?; assert (v = u) as -> by congruence).
  apply both_lift. intros xs' ys' C1 C2. apply both_mod, both_ret. split; [|done]. eexists. split; [done|]. simpl.
  unfold copy_component_data in *. destruct (arch_union _ _). by eapply copy_common_alike.
Qed.

Lemma free_page_both pi x y : acr x y → both acr (free_page pi x) (free_page pi y).
Proof using.
  intros [(ys & -> & H) Hi]. unfold free_page. apply both_get. simpl. apply both_lift. intros ai ai' E1 E2. assert (ai' = ai) as -> by congruence.
  destruct (Nat.eqb ai 0). { apply both_ret. split; [|done]. by eexists. }
  apply both_lift. intros ps ps' E3 E4. assert (ps' = ps) as -> by congruence. eapply (both_bind _ _ _ _ _ _ _ acr).
  - destruct (position_nat pi ps) as [i|]; [|apply both_ret; split; [by eexists|done]]. apply both_mod.
    destruct (Nat.eqb _ 0); [|apply both_ret; split; [by eexists|done]]. split; [done|]. split; [by eexists|done].
  - intros [] u v [(us & -> & Hu) Hi']. split; [done|]. split; [|done]. by eexists.
Qed.
Lemma ac_swap_remove_both l x y : acr x y → both acr (ac_swap_remove l x) (ac_swap_remove l y).
Proof using.
  intros [(ys & -> & H) Hi]. unfold ac_swap_remove. apply both_get. simpl. apply both_lift. intros ai ai' E1 E2. assert (ai' = ai) as -> by congruence.
  apply both_lift. intros p q Hp Hq. apply vidx_ok in Hp, Hq. pose proof (alike_lookup _ _ (ea_page l) H) as Hl. rewrite Hp, Hq in Hl.
  do 2 (apply both_lift; let u := fresh "u" in let v := fresh "v" in intros u v ? ?; assert (v = u) as -> by congruence).
  destruct Hl as [Hids Hmem]. apply both_lift. intros r r' R1 R2.
  assert (page_alike r.1 r'.1 ∧ r.2 = r'.2) as [Hr1 Hr2].
  { unfold page_swap_remove in *. rewrite <- Hids, <- Hmem in R2. apply pbind_ok in R1 as (ids & V1 & R1). apply pbind_ok in R2 as (ids' & V2 & R2).
    assert (ids' = ids) as -> by congruence. destruct (Nat.ltb _ _).
    - apply pbind_ok in R1 as (m & W1 & R1). apply pbind_ok in R2 as (m' & W2 & R2). assert (m' = m) as -> by congruence.
      apply pbind_ok in R1 as (k & X1 & [= <-]). apply pbind_ok in R2 as (k' & X2 & [= <-]). assert (k' = k) as -> by congruence. done.
    - injection R1 as <-. injection R2 as <-. done. }
  apply both_mod. unfold page_count. rewrite Hids. rewrite <- Hr2. eapply (both_bind _ _ _ _ _ _ _ acr).
  - assert (acr (ac_set_pages (<[ea_page l:=r.1]> (ac_pages x)) x) (ac_set_pages (<[ea_page l:=r'.1]> ys) x)) as HR.
    { split; [|done]. eexists. split; [done|]. simpl. by apply alike_insert. }
    destruct (Nat.eqb _ 1); [|by apply both_ret]. by apply free_page_both.
  - intros [] x' y' Hxy. by apply both_ret.
Qed.

(** ** Searches for types *)
Lemma find_index_eq a t : incr (arch_ids a) → find_component_index c1 a t = find_component_index c2 a t.
Proof using Hb1 Hb2. intros Hi. unfold find_component_index. simpl. by rewrite bs_eq. Qed.
Lemma all_found_eq ids T : incr ids → all_found c1 ids T = all_found c2 ids T.
Proof using Hb1 Hb2. intros Hi. induction T as [|t T IH]; [done|]. simpl. rewrite bs_eq by done. destruct (bs2 ids t); [apply IH|done]. Qed.
Lemma include_ids_eq a T : incr (arch_ids a) → is_include_ids c1 a T = is_include_ids c2 a T.
Proof using Hb1 Hb2. intros Hi. unfold is_include_ids. by rewrite all_found_eq. Qed.
Lemma offsets_unchecked_eq T a ly : incr (arch_ids a) → get_offsets_unchecked c1 T a ly = get_offsets_unchecked c2 T a ly.
Proof using Hb1 Hb2.
  intros Hi. induction T as [|t T IH]; [done|]. simpl. rewrite find_index_eq by done. destruct (find_component_index c2 a t); [|done].
  destruct (ly_offs ly !! n); [|done]. by rewrite IH.
Qed.
Lemma offsets_eq T a ly : incr (arch_ids a) → get_offsets c1 T a ly = get_offsets c2 T a ly.
Proof using Hb1 Hb2.
  intros Hi. induction T as [|t T IH]; [done|]. simpl. rewrite find_index_eq by done. destruct (find_component_index c2 a t); [|done].
  destruct (ly_offs ly !! n); [|done]. by rewrite IH.
Qed.
Lemma view_refs_eq v k T : incr (arch_ids (v_arch v)) → view_refs c1 v k T = view_refs c2 v k T.
Proof using Hb1 Hb2. intros Hi. unfold view_refs. by rewrite offsets_eq. Qed.
Lemma view_refs_unchecked_eq v k T : incr (arch_ids (v_arch v)) → view_refs_unchecked c1 v k T = view_refs_unchecked c2 v k T.
Proof using Hb1 Hb2. intros Hi. unfold view_refs_unchecked. by rewrite offsets_unchecked_eq. Qed.
Lemma q_include_eq q a : incr (arch_ids a) → q_include c1 q a = q_include c2 q a.
Proof using Hb1 Hb2. intros Hi. unfold q_include. by rewrite !include_ids_eq. Qed.
Lemma q_offsets_eq q a ly : incr (arch_ids a) → q_offsets c1 q a ly = q_offsets c2 q a ly.
Proof using Hb1 Hb2. intros Hi. unfold q_offsets. by rewrite !offsets_unchecked_eq. Qed.

(** ** Memory *)
Lemma read_ref_alike xs ys r : Forall2 page_alike xs ys → read_ref xs r = read_ref ys r.
Proof using.
  intros H. unfold read_ref. pose proof (alike_lookup _ _ (r_page r) H) as Hl. destruct (xs !! _), (ys !! _); try done. by destruct Hl as [_ ->].
Qed.
Lemma write_ref_alike xs ys r v : Forall2 page_alike xs ys → Forall2 page_alike (write_ref xs r v) (write_ref ys r v).
Proof using.
  intros H. unfold write_ref. pose proof (alike_lookup _ _ (r_page r) H) as Hl. destruct (xs !! _), (ys !! _); try done.
  destruct Hl as [Hi Hm]. apply alike_insert; [done|]. split; simpl; [done|]. by rewrite Hm.
Qed.
Lemma assign_alike rs : ∀ vs xs ys, Forall2 page_alike xs ys → Forall2 page_alike (assign_to_refs xs rs vs) (assign_to_refs ys rs vs).
Proof using. induction rs as [|r rs IH]; intros vs xs ys H; [done|]. destruct vs as [|v vs]; [done|]. simpl. by apply IH, write_ref_alike. Qed.
Lemma write_loop_alike k q vers f : ∀ xs ys it xs' ys', Forall2 page_alike xs ys →
  write_loop k q vers f xs it = POk xs' → write_loop k q vers f ys it = POk ys' → Forall2 page_alike xs' ys'.
Proof using.
  induction k as [|k IH]; intros xs ys it xs' ys' H; simpl; [by intros [= <-] [= <-]|].
  destruct (qiter_next_with vers it) as [[[[e refs]|] it']| |]; simpl; try done; [|by intros [= <-] [= <-]].
  assert (read_ref xs <$> take (length (q_read q)) refs = read_ref ys <$> take (length (q_read q)) refs) as ->.
  { apply list_fmap_ext. intros. by apply read_ref_alike. }
  apply IH. by apply assign_alike.
Qed.

(** ** Views and queries of containers *)
Lemma acr_incr x y i a : acr x y → ac_archs x !! i = Some a → incr (arch_ids a).
Proof using. intros [_ Hi] Ha. rewrite Forall_lookup in Hi. eauto. Qed.
Lemma with_layout_eq x y i : acr x y → arch_with_layout_unchecked y i = arch_with_layout_unchecked x i.
Proof using. by intros [(ys & -> & H) Hi]. Qed.
Lemma view_eq x y p : acr x y → page_view_unchecked y p = page_view_unchecked x p.
Proof using.
  intros [(ys & -> & H) Hi]. unfold page_view_unchecked. change (ac_p2a (ac_set_pages ys x)) with (ac_p2a x).
  destruct (vget_unchecked (ac_p2a x) p) as [ai| |]; try done. simpl. change (arch_with_layout_unchecked (ac_set_pages ys x) ai) with (arch_with_layout_unchecked x ai).
  destruct (arch_with_layout_unchecked x ai) as [al| |]; try done. simpl. unfold vget_unchecked. pose proof (alike_lookup _ _ p H) as Hl.
  by destruct (ac_pages x !! p), (ys !! p).
Qed.
Lemma view_incr x y p v : acr x y → page_view_unchecked x p = POk v → incr (arch_ids (v_arch v)).
Proof using.
  intros HR Hv. unfold page_view_unchecked, arch_with_layout_unchecked in Hv. apply pbind_ok in Hv as (ai & _ & Hv).
  apply pbind_ok in Hv as (al & Ha & Hv). apply pbind_ok in Ha as (a & Ha & Hb). apply pbind_ok in Hb as (ly & _ & [= <-]).
  apply pbind_ok in Hv as (pg & _ & [= <-]). simpl. unfold vget_unchecked in Ha. destruct (ac_archs x !! ai) eqn:E; [|done]. injection Ha as ->.
  by eapply acr_incr.
Qed.
Lemma layout_incr x y i al : acr x y → arch_with_layout_unchecked x i = POk al → incr (arch_ids al.1).
Proof using.
  intros HR Ha. unfold arch_with_layout_unchecked in Ha. apply pbind_ok in Ha as (a & Ha & Hb). apply pbind_ok in Hb as (ly & _ & [= <-]). simpl.
  unfold vget_unchecked in Ha. destruct (ac_archs x !! i) eqn:E; [|done]. injection Ha as ->. by eapply acr_incr.
Qed.
Lemma pview_alike q pi p p' offs : page_alike p p' → pview_new c1 q pi p offs = pview_new c2 q pi p' offs.
Proof using. intros [H _]. unfold pview_new, page_count. by rewrite H. Qed.
Lemma cq_pages_eq q xs ys offs ps : Forall2 page_alike xs ys → cq_pages c1 q xs offs ps = cq_pages c2 q ys offs ps.
Proof using.
  intros H. induction ps as [|p ps IH]; [done|]. simpl. unfold vidx. pose proof (alike_lookup _ _ p H) as Hl.
  destruct (xs !! p), (ys !! p); try done. simpl. rewrite IH. destruct (cq_pages c2 q ys offs ps); try done. simpl.
  rewrite (pview_alike _ _ _ _ _ Hl). destruct Hl as [Hi _]. unfold page_count. by rewrite Hi.
Qed.
Lemma cq_archs_eq q x y ais : acr x y → cq_archs c1 q x ais = cq_archs c2 q y ais.
Proof using Hb1 Hb2.
  intros HR. induction ais as [|i ais IH]; [done|]. simpl. rewrite (with_layout_eq _ _ _ HR).
  destruct (arch_with_layout_unchecked x i) as [al| |] eqn:E; try done. simpl. pose proof (layout_incr _ _ _ _ HR E) as Hi.
  rewrite q_include_eq, q_offsets_eq by done. destruct (negb _); [done|]. destruct (q_offsets c2 q al.1 al.2) as [offs| |]; try done. simpl.
  assert (ac_pages_of y = ac_pages_of x) as -> by by destruct HR as [(ys & -> & _) _].
  destruct (vidx (ac_pages_of x) i) as [ps| |]; try done. simpl.
  rewrite (cq_pages_eq q (ac_pages x) (ac_pages y)) by by destruct HR as [(ys & -> & ?) _]. by rewrite IH.
Qed.

(** ** Stores *)
Definition sr (s1 s2 : store) : Prop :=
  (∃ y, s2 = st_set_ac y s1 ∧ acr (st_ac s1) y) ∧ incr (tg_ids (st_tags s1)) ∧ incr (og_ids (st_orders s1)).
Lemma on_ac_both {A} (m1 m2 : M ac A) s1 s2 : sr s1 s2 → (∀ y, st_ac s2 = y → acr (st_ac s1) y → both acr (m1 (st_ac s1)) (m2 y)) →
  both sr (on_ac m1 s1) (on_ac m2 s2).
Proof using.
  intros [(y & -> & HR) Hs] H. specialize (H y eq_refl HR). unfold on_ac, zoom. simpl.
  destruct (m1 (st_ac s1)) as [x' a|?|?], (m2 y) as [y' b|?|?]; try done. destruct H as [-> H]. split; [done|]. split; [|done]. by exists y'.
Qed.
Lemma on_tags_both {A} (m1 m2 : M tags A) s1 s2 : sr s1 s2 → m1 (st_tags s1) = m2 (st_tags s1) →
  (∀ t a, m1 (st_tags s1) = ROk t a → incr (tg_ids t)) → both sr (on_tags m1 s1) (on_tags m2 s2).
Proof using.
  intros [(y & -> & HR) [Ht Ho]] E H. unfold on_tags, zoom. simpl. rewrite <- E. destruct (m1 (st_tags s1)) as [t a|?|?]; try done.
  split; [done|]. split; [by exists y|]. split; [by eapply H|done].
Qed.
Lemma on_orders_both {A} (m1 m2 : M orders A) s1 s2 : sr s1 s2 → m1 (st_orders s1) = m2 (st_orders s1) →
  (∀ t a, m1 (st_orders s1) = ROk t a → incr (og_ids t)) → both sr (on_orders m1 s1) (on_orders m2 s2).
Proof using.
  intros [(y & -> & HR) [Ht Ho]] E H. unfold on_orders, zoom. simpl. rewrite <- E. destruct (m1 (st_orders s1)) as [t a|?|?]; try done.
  split; [done|]. split; [by exists y|]. split; [done|by eapply H].
Qed.
Lemma on_ec_both {A} (m : M ec A) s1 s2 : sr s1 s2 → both sr (on_ec m s1) (on_ec m s2).
Proof using.
  intros [(y & -> & HR) [Ht Ho]]. unfold on_ec, zoom. simpl. destruct (m (st_ec s1)) as [t a|?|?]; try done.
  split; [done|]. split; [by exists y|done].
Qed.
Lemma field_both {A} (get : store → A) (p : A → pres A) set s1 s2 : sr s1 s2 → (∀ y, get (st_set_ac y s1) = get s1) →
  (∀ v, sr (set v s1) (set v s2)) →
  both sr ((s ← getS; a ← lift (p (get s)); modS (set a)) s1) ((s ← getS; a ← lift (p (get s)); modS (set a)) s2).
Proof using.
  intros [(y & -> & HR) _] Hg H. apply both_get, both_lift. rewrite Hg. intros a b E1 E2. assert (b = a) as -> by congruence.
  split; [done|]. apply H.
Qed.
Lemma set_page_both id p s1 s2 : sr s1 s2 → both sr (set_page_index id p s1) (set_page_index id p s2).
Proof using. intros H. apply (field_both st_page (λ a, aset a id p)); [done|done|]. intros v. destruct H as [(y & -> & HR) Hs]. split; [by exists y|done]. Qed.
Lemma set_idx_both id p s1 s2 : sr s1 s2 → both sr (set_index_in_page id p s1) (set_index_in_page id p s2).
Proof using. intros H. apply (field_both st_idx (λ a, aset a id p)); [done|done|]. intros v. destruct H as [(y & -> & HR) Hs]. split; [by exists y|done]. Qed.
Lemma enable_both id s1 s2 : sr s1 s2 → both sr (enable_archetype id s1) (enable_archetype id s2).
Proof using. intros H. apply (field_both st_has (λ a, bv_on a id)); [done|done|]. intros v. destruct H as [(y & -> & HR) Hs]. split; [by exists y|done]. Qed.
Lemma disable_both id s1 s2 : sr s1 s2 → both sr (disable_archetype id s1) (disable_archetype id s2).
Proof using. intros H. apply (field_both st_has (λ a, bv_off a id)); [done|done|]. intros v. destruct H as [(y & -> & HR) Hs]. split; [by exists y|done]. Qed.
Lemma set_location_both id l s1 s2 : sr s1 s2 → both sr (set_location id l s1) (set_location id l s2).
Proof using.
  intros H. unfold set_location. eapply both_bind; [by apply set_page_both|]. intros _ t1 t2 H1.
  eapply both_bind; [by apply set_idx_both|]. intros _ u1 u2 H2. by apply enable_both.
Qed.
Lemma swap_remove_both l s1 s2 : sr s1 s2 → both sr (swap_remove_internal l s1) (swap_remove_internal l s2).
Proof using.
  intros H. unfold swap_remove_internal. eapply both_bind; [apply on_ac_both; [done|]; intros; by apply ac_swap_remove_both|].
  intros [id|] t1 t2 H1; [by apply set_idx_both|by apply both_ret].
Qed.

Lemma tags_grow_ids n t t' a : tags_grow n t = ROk t' a → tg_ids t' = tg_ids t.
Proof using. unfold tags_grow. intros H. by inv1 H. Qed.
Lemma orders_grow_ids n t t' a : orders_grow md n t = ROk t' a → og_ids t' = og_ids t.
Proof using. unfold orders_grow. intros H. by inv1 H. Qed.
Lemma grow_both n s1 s2 : sr s1 s2 → both sr (grow_entities md n s1) (grow_entities md n s2).
Proof using.
  intros H. unfold grow_entities. apply both_get. assert (entities_capacity s2 = entities_capacity s1) as -> by by destruct H as [(y & -> & _) _].
  assert (st_page s2 = st_page s1 ∧ st_idx s2 = st_idx s1 ∧ st_has s2 = st_has s1) as (-> & -> & ->) by by destruct H as [(y & -> & _) _].
  apply both_lift. intros a a' E1 E2. assert (a' = a) as -> by congruence. apply both_mod.
  apply both_lift. intros b b' E3 E4. assert (b' = b) as -> by congruence. apply both_mod.
  apply both_lift. intros v v' E5 E6. assert (v' = v) as -> by congruence. apply both_mod.
  assert (sr (st_set_has v (st_set_idx b (st_set_page a s1))) (st_set_has v (st_set_idx b (st_set_page a s2)))) as H1.
  { destruct H as [(y & -> & HR) Hs]. split; [by exists y|done]. }
  eapply both_bind.
  { apply on_tags_both; [done|done|]. intros t u Et. rewrite (tags_grow_ids _ _ _ _ Et). apply H1. }
  intros _ t1 t2 H2. apply on_orders_both; [done|done|]. intros t u Et. rewrite (orders_grow_ids _ _ _ _ Et). apply H2.
Qed.
Lemma register_both s1 s2 : sr s1 s2 → both sr (register_new_entity c1 s1) (register_new_entity c2 s2).
Proof using.
  intros H. unfold register_new_entity. simpl. eapply both_bind; [by apply on_ec_both|]. intros cr t1 t2 H1.
  eapply (both_bind _ _ _ _ _ _ _ sr); [destruct (container_was_grow cr); [by apply grow_both|by apply both_ret]|]. intros _ u1 u2 H2. by apply both_ret.
Qed.
Lemma create_both s1 s2 : sr s1 s2 → both sr (create_entity c1 s1) (create_entity c2 s2).
Proof using.
  intros H. unfold create_entity. eapply both_bind; [by apply register_both|]. intros e t1 t2 H1.
  eapply both_bind; [by apply disable_both|]. intros _ u1 u2 H2. by apply both_ret.
Qed.

Lemma tags_add_both t id s1 s2 : sr s1 s2 → both sr (on_tags (tags_add c1 t id) s1) (on_tags (tags_add c2 t id) s2).
Proof using Hb1 Hb2.
  intros H. pose proof H as (_ & Hi & _). apply on_tags_both; [done| |].
  - unfold tags_add, mbind, M_bind, getS. simpl. by rewrite bs_eq.
  - intros u a E. unfold tags_add in E. apply bind_ok in E as (? & ? & [-> ->]%get_ok & E). apply bind_ok in E as (u1 & i & E1 & E2).
    assert (incr (tg_ids u1)) as Hu.
    { simpl in E1. destruct (search_cases bs1 _ t Hb1 Hi) as [(j & Hj & _)|(j & Hj & _ & _ & Hinc)]; rewrite Hj in E1.
      - by apply ret_ok in E1 as [_ ->].
      - apply bind_ok in E1 as (? & ids & [Hv ->]%lift_ok & E1). apply bind_ok in E1 as (? & ? & ->%put_ok & E1).
        apply bind_ok in E1 as (? & bvs & [_ ->]%lift_ok & E1). apply bind_ok in E1 as (? & ? & ->%put_ok & [-> ->]%ret_ok). simpl.
        unfold vinsert in Hv. destruct (Nat.leb _ _); [|done]. by injection Hv as <-. }
    apply bind_ok in E2 as (? & ? & [-> ->]%get_ok & E2). apply bind_ok in E2 as (? & v & [_ ->]%lift_ok & E2).
    apply bind_ok in E2 as (? & v' & [_ ->]%lift_ok & ->%put_ok). done.
Qed.
Lemma tags_remove_both t id s1 s2 : sr s1 s2 → both sr (on_tags (tags_remove c1 t id) s1) (on_tags (tags_remove c2 t id) s2).
Proof using Hb1 Hb2.
  intros H. pose proof H as (_ & Hi & _). apply on_tags_both; [done| |].
  - unfold tags_remove, mbind, M_bind, getS. simpl. by rewrite bs_eq.
  - intros u a E. unfold tags_remove in E. apply bind_ok in E as (? & ? & [-> ->]%get_ok & E). destruct (c_bs _ _ _); by inv1 E.
Qed.
Lemma tags_remove_all_both id s1 s2 : sr s1 s2 → both sr (on_tags (tags_remove_all id) s1) (on_tags (tags_remove_all id) s2).
Proof using. intros H. apply on_tags_both; [done|done|]. intros u a E. unfold tags_remove_all in E. inv1 E. simpl. apply H. Qed.

Lemma with_grp_ids {A} i (m : M grp A) o o' a : with_grp i m o = ROk o' a → og_ids o' = og_ids o.
Proof using. unfold with_grp. destruct (grp_at o i); [|done]. intros (g' & _ & ->)%zoom_ok. done. Qed.
Lemma orders_remove_all_both id s1 s2 : sr s1 s2 → both sr (on_orders (orders_remove_all id) s1) (on_orders (orders_remove_all id) s2).
Proof using.
  intros H. apply on_orders_both; [done|done|]. intros u a E. unfold orders_remove_all in E. apply bind_ok in E as (? & ? & [-> ->]%get_ok & E).
  assert (og_ids u = og_ids (st_orders s1)) as ->; [|apply H]. revert E. generalize (seq 0 (length (og_ids (st_orders s1)))). intros l.
  generalize (st_orders s1). induction l as [|i l IH]; intros o E; simpl in E; [by apply ret_ok in E as [_ ->]|].
  apply bind_ok in E as (o1 & x & E1 & E2). apply with_grp_ids in E1. rewrite <- E1. by apply IH.
Qed.
Lemma reserve_group_both t o : incr (og_ids o) → reserve_group c1 t o = reserve_group c2 t o ∧
  ∀ o' i, reserve_group c1 t o = ROk o' i → incr (og_ids o').
Proof using Hb1 Hb2.
  intros Hi. split.
  - unfold reserve_group, mbind, M_bind, getS. simpl. by rewrite bs_eq.
  - intros o' i E1. unfold reserve_group in E1. apply bind_ok in E1 as (? & ? & [-> ->]%get_ok & E1). simpl in E1.
    destruct (search_cases bs1 _ t Hb1 Hi) as [(j & Hj & _)|(j & Hj & _ & _ & Hinc)]; rewrite Hj in E1.
    + by apply ret_ok in E1 as [_ ->].
    + apply bind_ok in E1 as (? & ids & [Hv ->]%lift_ok & E1). apply bind_ok in E1 as (? & ? & ->%put_ok & E1).
      do 4 (apply bind_ok in E1 as (? & ? & [_ ->]%lift_ok & E1)). apply bind_ok in E1 as (? & ? & ->%put_ok & [-> ->]%ret_ok). simpl.
      unfold vinsert in Hv. destruct (Nat.leb _ _); [|done]. by injection Hv as <-.
Qed.
Lemma in_group_both {A} t (m : M grp A) s1 s2 : sr s1 s2 →
  both sr (on_orders (i ← reserve_group c1 t; with_grp i m) s1) (on_orders (i ← reserve_group c2 t; with_grp i m) s2).
Proof using Hb1 Hb2.
  intros H. destruct (reserve_group_both t (st_orders s1)) as [E Hi]; [apply H|]. apply on_orders_both; [done| |].
  - unfold mbind, M_bind. by rewrite E.
  - intros u a (o1 & i & E1 & E2)%bind_ok. rewrite (with_grp_ids _ _ _ _ _ E2). by eapply Hi.
Qed.
Lemma orders_remove_both t id s1 s2 : sr s1 s2 → both sr (on_orders (orders_remove c1 t id) s1) (on_orders (orders_remove c2 t id) s2).
Proof using Hb1 Hb2.
  intros H. pose proof H as (_ & _ & Hi). apply on_orders_both; [done| |].
  - unfold orders_remove, get_group_index, mbind, M_bind, getS. simpl. by rewrite bs_eq.
  - intros u a E. unfold orders_remove in E. apply bind_ok in E as (? & ? & [-> ->]%get_ok & E). destruct (get_group_index _ _ _).
    + by rewrite (with_grp_ids _ _ _ _ _ E).
    + by apply ret_ok in E as [_ ->].
Qed.
End lib.
