(** QueryObjP.v — query objects can be used again. *)
From Verif.Model Require Export QueryObj.
Local Open Scope N_scope.

Lemma push_pages_eq c q pages offs ps : ∀ vec n,
  push_pages c q pages offs ps vec n = (x ← cq_pages c q pages offs ps; mret (vec ++ x.1, (n + x.2)%nat)).
Proof.
  induction ps as [|pi ps IH]; intros vec n; simpl; [by rewrite app_nil_r, Nat.add_0_r|].
  destruct (vidx pages pi) as [p| |]; simpl; try done. destruct (Nat.eqb _ _); rewrite IH; destruct (cq_pages _ _ _ _ _) as [[vs k]| |]; simpl; try done.
  rewrite <- (assoc_L _), Nat.add_assoc. done.
Qed.
Lemma push_archs_eq c q s ais : ∀ vec n, push_archs c q s ais vec n = (x ← cq_archs c q s ais; mret (vec ++ x.1, (n + x.2)%nat)).
Proof.
  induction ais as [|ai ais IH]; intros vec n; simpl; [by rewrite app_nil_r, Nat.add_0_r|].
  destruct (arch_with_layout_unchecked s ai) as [al| |]; simpl; try done. destruct (negb _); [done|].
  destruct (q_offsets _ _ _ _) as [offs| |]; simpl; try done. destruct (vidx _ ai) as [ps| |]; simpl; try done.
  rewrite push_pages_eq. destruct (cq_pages _ _ _ _ _) as [[vs k]| |]; simpl; try done. rewrite IH.
  destruct (cq_archs _ _ _ _) as [[ws j]| |]; simpl; try done. by rewrite <- (assoc_L _), Nat.add_assoc.
Qed.
Lemma component_query_reuse c q s vec : component_query_iter c q s vec = (it ← component_query c q s; mret (it, qi_views it)).
Proof.
  unfold component_query_iter, component_query. rewrite push_archs_eq.
  destruct (cq_archs _ _ _ _) as [[[|v vs] n]| |]; done.
Qed.

Lemma push_ranges_eq c q s ents fuel : ∀ start o,
  push_ranges c q s ents fuel start o = (r ← eq_ranges c q s ents fuel start; mret (RqObj (rq_ranges o ++ r.*1) (rq_views o ++ r.*2))).
Proof.
  induction fuel as [|fuel IH]; intros start o; simpl; [destruct o; simpl; by rewrite !app_nil_r|].
  destruct (ents !! start) as [e|]; [|destruct o; simpl; by rewrite !app_nil_r].
  destruct (valid_for_query _ _ _ _) as [[]| |]; simpl; try done.
  destruct (get_page_index _ _) as [pi| |]; simpl; try done. destruct (arch_index_by_page _ _) as [ai| |]; simpl; try done.
  destruct (arch_with_layout_unchecked _ _) as [al| |]; simpl; try done. destruct (vget_unchecked _ _) as [p| |]; simpl; try done.
  destruct (q_offsets _ _ _ _) as [offs| |]; simpl; try done. destruct (eq_extend _ _ _ _) as [n| |]; simpl; try done.
  rewrite IH. destruct (eq_ranges _ _ _ _ _ _) as [r| |]; simpl; try done. by rewrite <- !(assoc_L _).
Qed.
Lemma entity_query_reuse c q s ents o :
  entity_component_query_iter c q s ents o = (it ← entity_query c q s ents; mret (it, RqObj (ei_ranges it) (ei_views it))).
Proof. unfold entity_component_query_iter, entity_query. rewrite push_ranges_eq. by destruct (eq_ranges _ _ _ _ _ _). Qed.

Lemma push_ordered_eq c q s nm fuel : ∀ curr o n, push_ordered fuel c q s nm curr o n =
  match oq_ranges fuel c q s nm curr with
  | Some (POk r) => Some (POk (RqObj (rq_ranges o ++ r.*1) (rq_views o ++ r.*2), (n + sum_list ((λ x, (x.1.2 - x.1.1)%nat) <$> r))%nat))
  | Some PPanic => Some PPanic
  | Some (PUB w) => Some (PUB w)
  | None => None
  end.
Proof.
  induction fuel as [|fuel IH]; intros curr o n; simpl; [done|].
  destruct (curr =? NULL_ID); [destruct o; simpl; by rewrite !app_nil_r, Nat.add_0_r|].
  destruct (oq_member _ _ _ _) as [[[l v]|]| |]; simpl; try done.
  - destruct (aget nm curr) as [x| |]; simpl; try done. destruct (oq_extend _ _ _ _ _ _) as [[[stop n']| |]|]; simpl; try done.
    rewrite IH. destruct (oq_ranges _ _ _ _ _ _) as [[r| |]|]; simpl; try done. by rewrite <- !(assoc_L _), Nat.add_assoc.
  - destruct (aget nm curr) as [x| |]; simpl; try done.
Qed.
Lemma ordered_query_reuse fuel c q s g o : ordered_query_iter fuel c q s g o =
  match ordered_query fuel c q s g with
  | Some (POk it) => Some (POk (it, RqObj (oi_ranges it) (oi_views it)))
  | Some PPanic => Some PPanic
  | Some (PUB w) => Some (PUB w)
  | None => None
  end.
Proof.
  unfold ordered_query_iter, ordered_query. destruct (get_group_index _ _ _) as [gi|]; [|done].
  destruct (vget_unchecked _ gi) as [nm| |]; try done. destruct (vget_unchecked _ gi) as [hd| |]; try done.
  rewrite push_ordered_eq. by destruct (oq_ranges _ _ _ _ _ _) as [[r| |]|].
Qed.
Lemma ordered_reuse fuel c q s g o :
  ordered_query_iter fuel c q s g o = ordered_query_iter fuel c q s g rq_obj_new ∧
  ∀ it, ordered_query fuel c q s g = Some (POk it) → ordered_query_iter fuel c q s g o = Some (POk (it, RqObj (oi_ranges it) (oi_views it))).
Proof. rewrite !ordered_query_reuse. split; [done|]. by intros it ->. Qed.
