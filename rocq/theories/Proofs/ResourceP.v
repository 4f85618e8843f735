(** ResourceP.v — the resource store. *)
From Verif.Spec Require Import Resources.
From Verif.Proofs Require Export EntitiesP.
Local Open Scope N_scope.

Section res.
Context {T : Type}.
Implicit Types (s : rs T) (tr : rtrace T) (v : T).

Record rs_inv s (I : list entity) (L : gset entity) (H : entity → option T) : Prop := RsInv {
  ri_ec : ec_inv (rs_ec s) I L;
  ri_len : length (rs_elems s) = N.to_nat (ec_cap (rs_ec s));
  ri_live : ∀ e, e ∈ L → ∃ v, H e = Some v ∧ rs_elems s !! N.to_nat (e_id e) = Some (Some v);
  ri_dead : ∀ e, e ∉ L → H e = None;
}.
Lemma live_id (s : ec) I L e1 e2 : ec_inv s I L → e1 ∈ L → e2 ∈ L → e_id e1 = e_id e2 → e1 = e2.
Proof.
  intros Hi [_ H1]%(inv_live _ _ _ Hi) [_ H2]%(inv_live _ _ _ Hi) He. rewrite He in H1. destruct e1, e2. simpl in *. congruence.
Qed.
Lemma alive_entity (s : ec) I L i : ec_inv s I L → bit (ec_alive s) i = true → ∃ e, e ∈ L ∧ e_id e = i.
Proof.
  intros Hi Hb. pose proof (proj1 (inv_alive _ _ _ Hi _) Hb) as [Hlt _]. pose proof (inv_next_cap _ _ _ Hi).
  destruct (inv_ver_some _ _ _ Hi i) as [v Hv]; [lia|]. exists (Entity i v). split; [|done]. by apply (inv_live _ _ _ Hi).
Qed.
Lemma alive_iff (s : ec) I L i : ec_inv s I L → bit (ec_alive s) i = true ↔ ∃ e, e ∈ L ∧ e_id e = i.
Proof.
  intros Hi. split; [by eapply alive_entity|]. intros (e & He & <-). by apply (inv_live _ _ _ Hi) in He as [? _].
Qed.

(** The values held. *)
Definition rvals (H : entity → option T) (L : gset entity) : list T := omap H (elements L).
Lemma omap_ext_in {A B} (f g : A → option B) (l : list A) : (∀ x, x ∈ l → f x = g x) → omap f l = omap g l.
Proof. induction l as [|x l IH]; intros H; [done|]. csimpl. rewrite IH by (intros; apply H; by right). by rewrite (H x) by by left. Qed.
Lemma rvals_ext H H' L : (∀ e, e ∈ L → H e = H' e) → rvals H L = rvals H' L.
Proof. intros He. apply omap_ext_in. intros e ?%elem_of_elements. auto. Qed.
Lemma rvals_add H L e v : e ∉ L → H e = Some v → rvals H (L ∪ {[ e ]}) ≡ₚ v :: rvals H L.
Proof.
  intros Hn He. unfold rvals. rewrite (omap_Permutation H _ (e :: elements L)); [by csimpl; rewrite He|].
  rewrite (comm_L union), elements_union_singleton; [done|done].
Qed.

Lemma rs_drop_spec s I L H : rs_inv s I L H → ∃ l, rs_drop s = POk l ∧ l ≡ₚ rvals H L.
Proof.
  intros Hi. unfold rs_drop. set (al := λ i, bit (ec_alive (rs_ec s)) (N.of_nat i)).
  set (val := λ i, match rs_elems s !! i with Some x => x | None => None end).
  assert (∀ k, (∀ i, i ∈ k → (i < N.to_nat (ec_cap (rs_ec s)))%nat) → rs_drop_loop s (N.of_nat <$> k) = POk (omap val (List.filter al k))) as Hk.
  { induction k as [|i k IH]; intros Hk; [done|]. rewrite fmap_cons. simpl. unfold ec_is_alive_at. pose proof (Hk i ltac:(by left)) as Hlt.
    rewrite bv_get_lt by (eapply bv_sized_lt; [apply Hi|lia]). simpl. rewrite IH by (intros; apply Hk; by right).
    change (bit (ec_alive (rs_ec s)) (N.of_nat i)) with (al i).
    destruct (al i) eqn:Hb; [|done]. simpl. destruct (alive_entity _ _ _ _ (ri_ec _ _ _ _ Hi) Hb) as (e & He & Hid).
    destruct (ri_live _ _ _ _ Hi _ He) as (v & _ & Hv). rewrite Hid, Nat2N.id in Hv. assert (val i = Some v) as Hvi by (unfold val; by rewrite Hv).
    rewrite (proj2 (aget_ok _ _ v)); [|by rewrite Nat2N.id]. csimpl. by rewrite Hvi. }
  rewrite Hk; [|intros i Hin%elem_of_seq; lia]. eexists. split; [done|].
  assert (List.filter al (seq 0 (N.to_nat (ec_cap (rs_ec s)))) ≡ₚ (λ e, N.to_nat (e_id e)) <$> elements L) as ->.
  { apply NoDup_Permutation.
    - apply NoDup_ListNoDup, List.NoDup_filter, NoDup_ListNoDup, NoDup_seq.
    - apply NoDup_fmap_2_strong; [|apply NoDup_elements]. intros x y Hx%elem_of_elements Hy%elem_of_elements Heq%N2Nat.inj. by eapply live_id; [apply Hi| | |].
    - intros i. rewrite elem_of_list_In, List.filter_In, <- elem_of_list_In, elem_of_seq, elem_of_list_fmap. unfold al.
      rewrite (alive_iff _ _ _ (N.of_nat i) (ri_ec _ _ _ _ Hi)). setoid_rewrite elem_of_elements. split.
      + intros [_ (e & He & Hid)]. exists e. split; [lia|done].
      + intros (e & -> & He). pose proof (live_lt _ _ _ _ (ri_ec _ _ _ _ Hi) He). split; [lia|]. exists e. split; [done|lia]. }
  unfold rvals. assert (∀ e, e ∈ elements L → val (N.to_nat (e_id e)) = H e) as Hval.
  { intros e He%elem_of_elements. unfold val. destruct (ri_live _ _ _ _ Hi _ He) as (v & -> & ->). done. }
  clear -Hval. induction (elements L) as [|e l IH]; [done|]. csimpl. rewrite (Hval e) by by left. destruct (H e); [f_equiv|]; apply IH; intros; apply Hval; by right.
Qed.

Definition upd (H : entity → option T) (e : entity) (x : option T) : entity → option T := λ e', if decide (e = e') then x else H e'.
Lemma upd_eq H e x : upd H e x e = x.
Proof. unfold upd. by rewrite decide_True. Qed.
Lemma upd_ne H e x e' : e ≠ e' → upd H e x e' = H e'.
Proof. intros. unfold upd. by rewrite decide_False. Qed.

Lemma sat_self {S A} U (r : res S A) Q P : sat U r Q P → sat U r Q (λ x, r = RPanic x).
Proof. by destruct r. Qed.
Lemma rs_create_spec U s I L H v : rs_inv s I L H → sat U (rs_create Debug v s) (λ s' e,
  e ∉ I ∧ e ∉ L ∧ rs_inv s' (I ++ [e]) (L ∪ {[ e ]}) (upd H e (Some v))) (λ s', ∃ t, ec_create Debug (rs_ec s) = RPanic t ∧ s' = rs_set_ec t s).
Proof.
  intros Hi. pose proof (ri_ec _ _ _ _ Hi) as He. unfold rs_create. do 4 wp1.
  eapply sat_mono; [apply (sat_self _ _ _ _ (ec_create_spec U (rs_ec s) I L He))| |intros t ?; by exists t]. intros ec' cr (Hni & Hinv & Hb & Ha & Hlt & _ & Hbit & Hcap & _).
  wp1. wp1. wp1. cbv beta.
  assert (∃ x, length x = N.to_nat (ec_cap ec') ∧ (∀ i, (i < length (rs_elems s))%nat → x !! i = rs_elems s !! i) ∧
    sat U ((if container_was_grow cr then a ← lift (arealloc (rs_elems (rs_set_ec ec' s)) (ec_cap (rs_ec s)) (ec_cap (rs_ec (rs_set_ec ec' s)))); modS (rs_set_elems a) else mret tt) (rs_set_ec ec' s))
      (λ s1 _, s1 = RS x ec') (λ _, False)) as (x & Hx & Hxl & Hs1).
  { unfold container_was_grow. rewrite Hb, Ha. simpl. pose proof (ri_len _ _ _ _ Hi) as Hlen.
    destruct (N.eqb_spec (ec_cap ec') (ec_cap (rs_ec s))) as [Heq|Hn]; simpl.
    - exists (rs_elems s). split; [congruence|]. split; [done|]. by wp.
    - assert (ec_cap (rs_ec s) ≤ ec_cap ec') as Hle by (destruct Hcap as [?|[? _]]; lia).
      unfold arealloc. rewrite (proj2 (N.eqb_neq _ _)) by done. rewrite copy_prefix_le; [|lia|unfold alloc_uninit; rewrite replicate_length; lia].
      eexists. split; [|split; [|wp; done]].
      + unfold alloc_uninit. rewrite app_length, take_length, drop_length, replicate_length. lia.
      + intros i Hlti. rewrite lookup_app_l by (rewrite take_length; lia). by rewrite lookup_take by lia. }
  eapply sat_mono; [exact Hs1| |done]. intros s1 _ ->. wp1. wp1. wp1. wp1. simpl.
  rewrite aset_lt by lia. wp. simpl. assert (cr_entity cr ∉ L) as HnL by (intros HL; apply Hni; by apply He).
  assert (∀ e, e ∈ L → e_id e ≠ e_id (cr_entity cr)) as Hid.
  { intros e HL Heq. apply (inv_live _ _ _ He) in HL as [HL _]. congruence. }
  split_and!; [done|done|]. split; simpl; [done|rewrite insert_length; done| |].
  - intros e [HL| ->%elem_of_singleton]%elem_of_union.
    + destruct (ri_live _ _ _ _ Hi _ HL) as (w & Hw & Hl). exists w. rewrite upd_ne by (intros <-; done). split; [done|].
      rewrite list_lookup_insert_ne by (intros Heq%N2Nat.inj; by eapply Hid). rewrite Hxl; [done|]. by eapply lookup_lt_Some.
    + exists v. rewrite upd_eq. split; [done|]. rewrite list_lookup_insert; [done|lia].
  - intros e Hn. rewrite upd_ne by set_solver. apply (ri_dead _ _ _ _ Hi). set_solver.
Qed.
Lemma rs_index_spec s I L H e : rs_inv s I L H → rs_index Debug s e = match H e with Some v => POk v | None => PPanic end.
Proof.
  intros Hi. unfold rs_index. simpl. destruct (decide (e_id e < ec_cap (rs_ec s))) as [Hlt|Hge].
  - simpl. rewrite (ec_is_alive_spec _ _ I L) by (done || apply Hi). simpl. case_bool_decide as HL; simpl.
    + destruct (ri_live _ _ _ _ Hi _ HL) as (v & -> & Hv). by apply aget_ok.
    + by rewrite (ri_dead _ _ _ _ Hi _ HL).
  - rewrite (ri_dead _ _ _ _ Hi). 2: { intros HL%(live_lt _ _ _ _ (ri_ec _ _ _ _ Hi)). done. }
    unfold ec_is_alive, validate_id. simpl. by rewrite (proj2 (N.ltb_ge _ _)) by lia.
Qed.
Lemma rs_assign_spec s I L H e v : rs_inv s I L H →
  match H e with
  | Some old => ∃ s', rs_assign Debug e v s = ROk s' old ∧ e ∈ L ∧ rs_inv s' I L (upd H e (Some v))
  | None => rs_assign Debug e v s = RPanic s
  end.
Proof.
  intros Hi. pose proof (rs_index_spec _ _ _ _ e Hi) as Hx. unfold rs_assign, mbind, M_bind, getS, lift, modS. rewrite Hx.
  destruct (H e) as [old|] eqn:He; [|done]. assert (e ∈ L) as HL.
  { destruct (decide (e ∈ L)) as [|HL%(ri_dead _ _ _ _ Hi)]; [done|congruence]. }
  destruct (ri_live _ _ _ _ Hi _ HL) as (w & _ & Hw). rewrite aset_lt by (apply lookup_lt_Some in Hw; lia). eexists. split; [done|]. split; [done|].
  split; simpl; [apply Hi|rewrite insert_length; apply Hi| |].
  - intros e' HL'. destruct (decide (e = e')) as [<-|Hne].
    + exists v. rewrite upd_eq. split; [done|]. rewrite list_lookup_insert; [done|]. by eapply lookup_lt_Some.
    + rewrite upd_ne by done. destruct (ri_live _ _ _ _ Hi _ HL') as (w' & ? & ?). exists w'. split; [done|].
      rewrite list_lookup_insert_ne; [done|]. intros Heq%N2Nat.inj. apply Hne. by eapply live_id; [apply Hi|..].
  - intros e' Hn. rewrite upd_ne by (by intros ->). by apply Hi.
Qed.
Lemma rs_release_spec s I L H e : rs_inv s I L H →
  match H e with
  | Some v => ∃ s', rs_release Debug e s = ROk s' v ∧ e ∈ L ∧ rs_inv s' I (L ∖ {[ e ]}) (upd H e None)
  | None => rs_release Debug e s = RPanic s
  end.
Proof.
  intros Hi. pose proof (rs_index_spec _ _ _ _ e Hi) as Hx. unfold rs_index in Hx. unfold rs_release, mbind, M_bind, getS, lift.
  destruct (H e) as [v|] eqn:He.
  - apply pbind_ok in Hx as ([] & -> & Hx). assert (e ∈ L) as HL.
    { destruct (decide (e ∈ L)) as [|HL%(ri_dead _ _ _ _ Hi)]; [done|congruence]. }
    destruct (ec_destroy_live Debug _ _ _ _ (ri_ec _ _ _ _ Hi) HL) as (ec' & Hd & Hinv & Hcap & _). unfold zoom. rewrite Hd, Hx.
    eexists. split; [done|]. split; [done|]. split; simpl; [done|rewrite Hcap; apply Hi| |].
    + intros e' [HL' Hne%not_elem_of_singleton]%elem_of_difference. rewrite upd_ne by done. by apply Hi.
    + intros e' Hn. destruct (decide (e = e')) as [<-|Hne]; [by rewrite upd_eq|]. rewrite upd_ne by done. apply Hi. set_solver.
  - destruct (dassertP Debug _) as [[]| |] eqn:E; [|done|done]. exfalso.
    destruct (decide (e_id e < ec_cap (rs_ec s))) as [Hlt|Hge]; simpl in E.
    + rewrite (ec_is_alive_spec _ _ I L) in E by (done || apply Hi). simpl in E. case_bool_decide as HL; [|done].
      destruct (ri_live _ _ _ _ Hi _ HL) as (w & Hw & _). congruence.
    + unfold ec_is_alive, validate_id in E. simpl in E. rewrite (proj2 (N.ltb_ge _ _)) in E by lia. done.
Qed.

(** ** Histories *)
Lemma rinit_inv s : rinit s → rs_inv s [] ∅ (λ _, None).
Proof. intros [->|[cap ->]]; (split; simpl; [apply ec_new_inv|try done|set_solver|done]). unfold alloc_uninit. by rewrite replicate_length. Qed.

Definition raccount (tr : rtrace T) H L : Prop := gave tr ≡ₚ got tr ++ rvals H L.
Lemma rvals_upd_out H L e x : e ∉ L → rvals (upd H e x) L = rvals H L.
Proof. intros Hn. apply rvals_ext. intros e' He'. apply upd_ne. by intros ->. Qed.
Lemma rvals_del H L e v : e ∈ L → H e = Some v → rvals H L ≡ₚ v :: rvals H (L ∖ {[ e ]}).
Proof.
  intros He Hv. rewrite <- (rvals_add H (L ∖ {[ e ]}) e v) by set_solver. by rewrite difference_union_L, (comm_L union), subseteq_union_1_L by set_solver.
Qed.
Definition rgood (tr : rtrace T) s : Prop := ∃ L, rs_inv s (rissued tr) L (held tr) ∧ gave tr ≡ₚ got tr ++ rvals (held tr) L.
Lemma held_snoc tr c e : held (tr ++ [c]) e = held_step e (held tr e) c.
Proof. unfold held. by rewrite foldl_app. Qed.
Lemma rs_inv_ext s I L H H' : (∀ e, H e = H' e) → rs_inv s I L H → rs_inv s I L H'.
Proof. intros He [? ? H1 H2]. split; [done|done| |]. - intros e HL. rewrite <- He. auto. - intros e HL. rewrite <- He. auto. Qed.
Lemma snoc_lists tr o (r : rout T) : rissued (tr ++ [(o, r)]) = rissued tr ++ match r with RHandle e => [e] | _ => [] end ∧
  gave (tr ++ [(o, r)]) = gave tr ++ match o with RCreate v | RAssign _ v => [v] | _ => [] end ∧
  got (tr ++ [(o, r)]) = got tr ++ match r with RValue v => [v] | _ => [] end.
Proof. unfold rissued, gave, got. rewrite !omap_app. csimpl. by destruct o, r. Qed.
Lemma rrun_good s0 tr s : rinit s0 → rrun Debug s0 tr s → rgood tr s.
Proof.
  intros H0. induction 1 as [|tr s o s' r Hr IH Hst].
  - exists ∅. split; [by apply rinit_inv|]. unfold rvals. by rewrite elements_empty.
  - destruct IH as (L & Hi & Hacc). destruct (snoc_lists tr o r) as (H1 & H2 & H3). unfold rgood. rewrite H1, H2, H3. clear H1 H2 H3. destruct o as [v|e|e v]; simpl in Hst.
    + apply bind_ok in Hst as (s1 & e & Hcr & [-> ->]%ret_ok).
      destruct (sat_ok _ _ _ _ _ _ (rs_create_spec True _ _ _ _ v Hi) Hcr) as (_ & HnL & Hi').
      assert (∀ e', upd (held tr) e (Some v) e' = held (tr ++ [(RCreate v, RHandle e)]) e') as Hh by (intros e'; by rewrite held_snoc).
      exists (L ∪ {[ e ]}). split; [by eapply rs_inv_ext|]. rewrite app_nil_r.
      rewrite <- (rvals_ext _ _ _ (λ e' _, Hh e')), (rvals_add _ _ _ v), rvals_upd_out; [|done|done|apply upd_eq].
      rewrite Hacc. solve_Permutation.
    + apply bind_ok in Hst as (s1 & v & Hrel & [-> ->]%ret_ok).
      pose proof (rs_release_spec _ _ _ _ e Hi) as Hsp. destruct (held tr e) as [v'|] eqn:He; [|congruence].
      destruct Hsp as (s2 & Hs2 & HL & Hi'). rewrite Hs2 in Hrel. injection Hrel as <- <-.
      assert (∀ e', upd (held tr) e None e' = held (tr ++ [(RRelease e, RValue v')]) e') as Hh by (intros e'; by rewrite held_snoc).
      rewrite !app_nil_r. exists (L ∖ {[ e ]}). split; [by eapply rs_inv_ext|].
      rewrite <- (rvals_ext _ _ _ (λ e' _, Hh e')), rvals_upd_out by set_solver. rewrite Hacc, (rvals_del _ _ _ v' HL He). solve_Permutation.
    + apply bind_ok in Hst as (s1 & old & Has & [-> ->]%ret_ok).
      pose proof (rs_assign_spec _ _ _ _ e v Hi) as Hsp. destruct (held tr e) as [v'|] eqn:He; [|congruence].
      destruct Hsp as (s2 & Hs2 & HL & Hi'). rewrite Hs2 in Has. injection Has as <- <-.
      assert (∀ e', upd (held tr) e (Some v) e' = held (tr ++ [(RAssign e v, RValue v')]) e') as Hh by (intros e'; by rewrite held_snoc).
      rewrite !app_nil_r. exists L. split; [by eapply rs_inv_ext|].
      rewrite <- (rvals_ext _ _ _ (λ e' _, Hh e')), (rvals_del (upd _ _ _) _ _ v HL) by apply upd_eq. rewrite rvals_upd_out by set_solver.
      rewrite Hacc, (rvals_del _ _ _ v' HL He). solve_Permutation.
Qed.

Lemma resource_map s0 tr s e : rinit s0 → rrun Debug s0 tr s →
  rs_index Debug s e = match held tr e with Some v => POk v | None => PPanic end.
Proof. intros H0 Hr. destruct (rrun_good _ _ _ H0 Hr) as (L & Hi & _). by apply (rs_index_spec _ _ _ _ e Hi). Qed.
Lemma resource_release s0 tr s e : rinit s0 → rrun Debug s0 tr s →
  match held tr e with Some v => ∃ s', rstep Debug (RRelease e) s = ROk s' (RValue v) | None => rstep Debug (RRelease e) s = RPanic s end.
Proof.
  intros H0 Hr. destruct (rrun_good _ _ _ H0 Hr) as (L & Hi & _). pose proof (rs_release_spec _ _ _ _ e Hi) as Hsp. simpl. unfold mbind, M_bind.
  destruct (held tr e); [|by rewrite Hsp]. destruct Hsp as (s' & -> & _). eauto.
Qed.
Lemma resource_assign s0 tr s e v : rinit s0 → rrun Debug s0 tr s →
  match held tr e with Some old => ∃ s', rstep Debug (RAssign e v) s = ROk s' (RValue old) | None => rstep Debug (RAssign e v) s = RPanic s end.
Proof.
  intros H0 Hr. destruct (rrun_good _ _ _ H0 Hr) as (L & Hi & _). pose proof (rs_assign_spec _ _ _ _ e v Hi) as Hsp. simpl. unfold mbind, M_bind.
  destruct (held tr e); [|by rewrite Hsp]. destruct Hsp as (s' & -> & _). eauto.
Qed.
Lemma resource_create s0 tr s v : rinit s0 → rrun Debug s0 tr s →
  match rstep Debug (RCreate v) s with ROk _ (RHandle e) => e ∉ rissued tr | RPanic _ => True | _ => False end.
Proof.
  intros H0 Hr. destruct (rrun_good _ _ _ H0 Hr) as (L & Hi & _). pose proof (rs_create_spec False _ _ _ _ v Hi) as Hsp. simpl. unfold mbind, M_bind.
  destruct (rs_create Debug v s); [|done..]. simpl in *. naive_solver.
Qed.
Lemma resource_drop s0 tr s : rinit s0 → rrun Debug s0 tr s → ∃ l, rs_drop s = POk l ∧ gave tr ≡ₚ got tr ++ l.
Proof.
  intros H0 Hr. destruct (rrun_good _ _ _ H0 Hr) as (L & Hi & Hacc). destruct (rs_drop_spec _ _ _ _ Hi) as (l & Hl & Hp). exists l. split; [done|]. by rewrite Hp.
Qed.
Lemma resource_stale s0 tr s e v : rinit s0 → rrun Debug s0 tr s → held tr e = None →
  rstep Debug (RRelease e) s = RPanic s ∧ rs_index Debug s e = PPanic ∧ rstep Debug (RAssign e v) s = RPanic s.
Proof.
  intros H0 Hr He. pose proof (resource_release _ _ _ e H0 Hr) as H1. pose proof (resource_map _ _ _ e H0 Hr) as H2. pose proof (resource_assign _ _ _ e v H0 Hr) as H3.
  by rewrite He in *.
Qed.
End res.

(** A concrete history: growth from nothing, release, reuse of the id, assignment. *)
Definition ex_res : list (list entity → rop N) :=
  [λ _, RCreate 10; λ _, RCreate 11; λ _, RCreate 12; λ hs, RRelease (nth 1 hs entity_null); λ hs, RAssign (nth 0 hs entity_null) 20; λ _, RCreate 13].
Fixpoint rexec (ops : list (list entity → rop N)) (hs : list entity) (tr : rtrace N) : M (rs N) (rtrace N) :=
  match ops with
  | [] => mret tr
  | o :: ops => r ← rstep Debug (o hs); rexec ops (match r with RHandle e => hs ++ [e] | _ => hs end) (tr ++ [(o hs, r)])
  end.
Lemma rexec_run s0 ops hs tr s s' tr' : rrun Debug s0 tr s → rexec ops hs tr s = ROk s' tr' → rrun Debug s0 tr' s'.
Proof.
  revert hs tr s. induction ops as [|o ops IH]; intros hs tr s Hr; simpl; [by intros [= <- <-]|]. unfold mbind, M_bind.
  destruct (rstep Debug (o hs) s) eqn:E; [|done..]. apply IH. by econstructor.
Qed.
Definition ex_res_tr : rtrace N := match rexec ex_res [] [] rs_new with ROk _ tr => tr | _ => [] end.
Definition ex_res_st : rs N := match rexec ex_res [] [] rs_new with ROk s _ => s | _ => rs_new end.
Lemma ex_res_run : rrun Debug rs_new ex_res_tr ex_res_st.
Proof. eapply (rexec_run _ ex_res []); [constructor|]. vm_compute. reflexivity. Qed.
