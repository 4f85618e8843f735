(** ModeP.v — debug and release builds compute the same unless the debug build panics. *)
From Verif.Spec Require Export Modes.
From Verif.Spec Require Import Env Handles Resources.
From Verif.Proofs Require Export Wp.
Local Open Scope N_scope.

Definition ragree {S A} (d r : res S A) : Prop := match d with ROk _ _ => r = d | _ => True end.
Definition agree {S A} (d r : M S A) : Prop := ∀ s, ragree (d s) (r s).
Definition pagree {A} (d r : pres A) : Prop := match d with POk _ => r = d | _ => True end.

Lemma agree_refl {S A} (m : M S A) : agree m m.
Proof. intros s. unfold ragree. by destruct (m s). Qed.
Lemma pagree_refl {A} (m : pres A) : pagree m m.
Proof. by destruct m. Qed.
Lemma agree_bind {S A B} (m m' : M S A) (k k' : A → M S B) : agree m m' → (∀ a, agree (k a) (k' a)) → agree (m ≫= k) (m' ≫= k').
Proof.
  intros Hm Hk s. specialize (Hm s). unfold mbind, M_bind. unfold ragree in Hm. destruct (m s); [|done..]. rewrite Hm. apply Hk.
Qed.
Lemma pagree_bind {A B} (m m' : pres A) (k k' : A → pres B) : pagree m m' → (∀ a, pagree (k a) (k' a)) → pagree (m ≫= k) (m' ≫= k').
Proof. intros Hm Hk. unfold mbind, pres_bind. destruct m; simpl in *; subst; [apply Hk|done|done]. Qed.
Lemma agree_lift {S A} (p p' : pres A) : pagree p p' → agree (lift p : M S A) (lift p').
Proof. intros Hp s. unfold lift. destruct p; simpl in *; subst; done. Qed.
Lemma agree_zoom {S T A} (get : S → T) put (m m' : M T A) : agree m m' → agree (zoom get put m) (zoom get put m').
Proof. intros Hm s. unfold zoom. specialize (Hm (get s)). unfold ragree in Hm. destruct (m (get s)); [by rewrite Hm|done..]. Qed.
Lemma agree_with_grp {A} i (m m' : M grp A) : agree m m' → agree (with_grp i m) (with_grp i m').
Proof. intros Hm s. unfold with_grp. destruct (grp_at s i); [|done]. apply (agree_zoom (λ _, g) (grp_put i)), Hm. Qed.
Lemma dassert_agree p p' : pagree (dassertP Debug p) (dassertP Release p').
Proof. unfold dassertP, mbind, pres_bind. by destruct p as [[]| |w]. Qed.
Lemma u32_add_agree a b : pagree (u32_add Debug a b) (u32_add Release a b).
Proof. unfold u32_add. by destruct (_ <? _). Qed.
Lemma u32_sub_agree a b : pagree (u32_sub Debug a b) (u32_sub Release a b).
Proof. unfold u32_sub. by destruct (_ <=? _). Qed.
Lemma usize_sub_agree a b : pagree (usize_sub Debug a b) (usize_sub Release a b).
Proof. unfold usize_sub. by destruct (_ <=? _). Qed.

Create HintDb agree.
Global Hint Resolve dassert_agree u32_add_agree u32_sub_agree usize_sub_agree : agree.
Ltac agree1 :=
  lazymatch goal with
  | |- agree ?m ?m => apply agree_refl
  | |- pagree ?m ?m => apply pagree_refl
  | |- agree (_ ≫= _) (_ ≫= _) => apply agree_bind; [|intros ?]
  | |- pagree (_ ≫= _) (_ ≫= _) => apply pagree_bind; [|intros ?]
  | |- agree (lift _) (lift _) => apply agree_lift
  | |- agree (zoom _ _ _) (zoom _ _ _) => apply agree_zoom
  | |- agree (with_grp _ _) (with_grp _ _) => apply agree_with_grp
  | |- agree (match ?x with _ => _ end) (match ?x with _ => _ end) => destruct x
  | |- pagree (match ?x with _ => _ end) (match ?x with _ => _ end) => destruct x
  | |- agree (let '_ := ?x in _) (let '_ := ?x in _) => destruct x
  end.
Ltac agree := repeat first [progress auto with agree | agree1].

(** ** The functions that depend on the build mode *)
Lemma layout_new_agree a : pagree (layout_new Debug a) (layout_new Release a).
Proof. unfold layout_new, calc_capacity. agree. Qed.
Global Hint Resolve layout_new_agree : agree.
Lemma ec_is_alive_agree s e : pagree (ec_is_alive Debug s e) (ec_is_alive Release s e).
Proof. unfold ec_is_alive. agree. Qed.
Global Hint Resolve ec_is_alive_agree : agree.
Lemma ec_create_agree : agree (ec_create Debug) (ec_create Release).
Proof. unfold ec_create. agree. Qed.
Lemma ec_destroy_agree e : agree (ec_destroy Debug e) (ec_destroy Release e).
Proof. unfold ec_destroy. agree. Qed.
Global Hint Resolve ec_create_agree ec_destroy_agree : agree.
Lemma assert_no_order_agree f b : agree (assert_no_order Debug f b) (assert_no_order Release f b).
Proof. unfold assert_no_order. agree. Qed.
Global Hint Resolve assert_no_order_agree : agree.
Lemma grp_add_agree id : agree (grp_add Debug id) (grp_add Release id).
Proof. unfold grp_add. agree. Qed.
Lemma grp_add_next_agree id n : agree (grp_add_next Debug id n) (grp_add_next Release id n).
Proof. unfold grp_add_next. agree. Qed.
Lemma grp_add_prev_agree id n : agree (grp_add_prev Debug id n) (grp_add_prev Release id n).
Proof. unfold grp_add_prev. agree. Qed.
Lemma orders_grow_agree n : agree (orders_grow Debug n) (orders_grow Release n).
Proof. unfold orders_grow. agree. Qed.
Global Hint Resolve grp_add_agree grp_add_next_agree grp_add_prev_agree orders_grow_agree : agree.

(** The functions that use only other parts of the configuration. *)
Section same.
Context (c : cfg) (md : mode).
Notation m := (in_mode md c).
Lemma page_set_layout_mode p ly : page_set_layout m p ly = page_set_layout c p ly.
Proof. reflexivity. Qed.
Lemma all_found_mode l T : all_found m l T = all_found c l T.
Proof. induction T as [|t T IH]; [done|]. simpl. by rewrite IH. Qed.
Lemma is_include_ids_mode a T : is_include_ids m a T = is_include_ids c a T.
Proof. unfold is_include_ids. by rewrite all_found_mode. Qed.
Lemma ctype_of_mode t : ctype_of m t = ctype_of c t.
Proof. reflexivity. Qed.
Lemma ctypes_of_mode (T : list tid) : ctype_of m <$> T = ctype_of c <$> T.
Proof. reflexivity. Qed.
Lemma with_components_mode T : with_components m T = with_components c T.
Proof. reflexivity. Qed.
Lemma get_offsets_mode T a ly : get_offsets m T a ly = get_offsets c T a ly.
Proof. induction T as [|t T IH]; [done|]. simpl. rewrite IH. reflexivity. Qed.
Lemma get_offsets_unchecked_mode T a ly : get_offsets_unchecked m T a ly = get_offsets_unchecked c T a ly.
Proof. induction T as [|t T IH]; [done|]. simpl. rewrite IH. reflexivity. Qed.
Lemma view_refs_mode v i T : view_refs m v i T = view_refs c v i T.
Proof. unfold view_refs. rewrite get_offsets_mode. reflexivity. Qed.
Lemma view_refs_unchecked_mode v i T : view_refs_unchecked m v i T = view_refs_unchecked c v i T.
Proof. unfold view_refs_unchecked. rewrite get_offsets_unchecked_mode. reflexivity. Qed.
Lemma q_include_mode q a : q_include m q a = q_include c q a.
Proof. unfold q_include. by rewrite !is_include_ids_mode. Qed.
Lemma q_offsets_mode q a ly : q_offsets m q a ly = q_offsets c q a ly.
Proof. unfold q_offsets. by rewrite !get_offsets_unchecked_mode. Qed.
Lemma pview_new_mode q pi p o : pview_new m q pi p o = pview_new c q pi p o.
Proof. reflexivity. Qed.
Lemma cq_pages_mode q pages o ps : cq_pages m q pages o ps = cq_pages c q pages o ps.
Proof. induction ps as [|pi ps IH]; [done|]. simpl. by rewrite IH. Qed.
Lemma cq_archs_mode q s ais : cq_archs m q s ais = cq_archs c q s ais.
Proof.
  induction ais as [|ai ais IH]; [done|]. simpl. destruct (arch_with_layout_unchecked s ai) as [al| |]; [|done..]. simpl.
  rewrite q_include_mode, q_offsets_mode, IH. destruct (negb _); [done|]. destruct (q_offsets c q al.1 al.2); [|done..]. simpl.
  destruct (vidx _ ai); [|done..]. simpl. by rewrite cq_pages_mode.
Qed.
Lemma component_query_mode q s : component_query m q s = component_query c q s.
Proof. unfold component_query. by rewrite cq_archs_mode. Qed.
Lemma filter_tag_mode s t : filter_tag m s t = filter_tag c s t.
Proof. reflexivity. Qed.
Lemma tags_add_mode t id : tags_add m t id = tags_add c t id.
Proof. reflexivity. Qed.
Lemma tags_remove_mode t id : tags_remove m t id = tags_remove c t id.
Proof. reflexivity. Qed.
Lemma has_tag_mode s t e : has_tag m s t e = has_tag c s t e.
Proof. reflexivity. Qed.
Lemma reserve_group_mode t : reserve_group m t = reserve_group c t.
Proof. reflexivity. Qed.
Lemma orders_remove_mode t id : orders_remove m t id = orders_remove c t id.
Proof. reflexivity. Qed.
Lemma oq_member_mode q s i : oq_member m q s i = oq_member c q s i.
Proof.
  unfold oq_member. destruct (get_eia s i) as [l| |]; [|done..]. cbn. destruct (vget_unchecked _ _); [|done..]. cbn.
  destruct (arch_index_by_page _ _); [|done..]. cbn. destruct (arch_with_layout_unchecked _ _); [|done..]. cbn.
  by rewrite q_include_mode, q_offsets_mode.
Qed.
Lemma oq_ranges_mode fuel q s nm i : oq_ranges fuel m q s nm i = oq_ranges fuel c q s nm i.
Proof.
  revert i. induction fuel as [|fuel IH]; intros i; [done|]. simpl. rewrite oq_member_mode. destruct (i =? NULL_ID); [done|].
  destruct (oq_member c q s i) as [[[l v]|]| |]; [|destruct (aget nm i); [apply IH|done..]|done..].
  destruct (aget nm i); [|done..]. destruct (oq_extend _ _ _ _ _ _) as [[[stop n']| |]|]; [|done..]. cbn. by rewrite IH.
Qed.
Lemma ordered_query_mode fuel q s g : ordered_query fuel m q s g = ordered_query fuel c q s g.
Proof.
  unfold ordered_query. change (get_group_index m) with (get_group_index c). destruct (get_group_index c _ g); [|done].
  destruct (vget_unchecked _ _); [|done..]. destruct (vget_unchecked _ _); [|done..]. by rewrite oq_ranges_mode.
Qed.
End same.
Global Hint Rewrite page_set_layout_mode is_include_ids_mode ctypes_of_mode with_components_mode view_refs_mode view_refs_unchecked_mode
  q_include_mode q_offsets_mode pview_new_mode component_query_mode tags_add_mode tags_remove_mode
  reserve_group_mode orders_remove_mode : mode.
Ltac mproj := cbn [c_mode c_ty c_bs c_grow in_mode].
Ltac agree ::= mproj; repeat first [progress auto with agree | progress autorewrite with mode | agree1].
Section cfg.
Context (c : cfg).
Notation d := (in_mode Debug c).
Notation r := (in_mode Release c).
Lemma page_add_agree p id : pagree (page_add d p id) (page_add r p id).
Proof. unfold page_add. mproj. agree. Qed.
Hint Resolve page_add_agree : agree.
Lemma ac_page_add_agree p id : agree (ac_page_add d p id) (ac_page_add r p id).
Proof. unfold ac_page_add. agree. Qed.
Hint Resolve ac_page_add_agree : agree.
Lemma reserve_archetype_agree a : agree (reserve_archetype d a) (reserve_archetype r a).
Proof. unfold reserve_archetype. mproj. agree. Qed.
Lemma reserve_page_agree id ai : agree (reserve_page d id ai) (reserve_page r id ai).
Proof. unfold reserve_page. mproj. agree. Qed.
Hint Resolve reserve_archetype_agree reserve_page_agree : agree.
Lemma ac_add_entity_agree id a : agree (ac_add_entity d id a) (ac_add_entity r id a).
Proof. unfold ac_add_entity. agree. Qed.
Lemma ac_move_entity_agree id prev ai a : agree (ac_move_entity d id prev ai a) (ac_move_entity r id prev ai a).
Proof. unfold ac_move_entity. agree. Qed.
Hint Resolve ac_add_entity_agree ac_move_entity_agree : agree.
Lemma grow_entities_agree o : agree (grow_entities Debug o) (grow_entities Release o).
Proof. unfold grow_entities, on_orders. agree. Qed.
Hint Resolve grow_entities_agree : agree.
Lemma register_agree : agree (register_new_entity d) (register_new_entity r).
Proof. unfold register_new_entity, on_ec. mproj. agree. Qed.
Hint Resolve register_agree : agree.
Lemma is_alive_agree s e : pagree (is_alive d s e) (is_alive r s e).
Proof. apply ec_is_alive_agree. Qed.
Hint Resolve is_alive_agree : agree.
Lemma is_valid_agree s e : pagree (is_valid_with_archetype d s e) (is_valid_with_archetype r s e).
Proof. unfold is_valid_with_archetype. agree. Qed.
Hint Resolve is_valid_agree : agree.
Lemma move_entity_agree e a : agree (move_entity d e a) (move_entity r e a).
Proof. unfold move_entity, on_ac. agree. Qed.
Hint Resolve move_entity_agree : agree.
Lemma ensure_types_agree e T : agree (ensure_types d e T) (ensure_types r e T).
Proof. unfold ensure_types, on_ac. mproj. agree. Qed.
Hint Resolve ensure_types_agree : agree.
Lemma refs_agree s e T : pagree (get_components_refs d s e T) (get_components_refs r s e T).
Proof. unfold get_components_refs. mproj. agree. Qed.
Hint Resolve refs_agree : agree.
Lemma read_agree s e T : pagree (read_components d s e T) (read_components r s e T).
Proof. unfold read_components. mproj. agree. Qed.
Lemma arch_agree s e : pagree (get_entity_archetype d s e) (get_entity_archetype r s e).
Proof. unfold get_entity_archetype. mproj. agree. Qed.
Lemma create_agree : agree (create_entity d) (create_entity r).
Proof. unfold create_entity. agree. Qed.
Lemma create_with_agree a : agree (create_entity_with_archetype d a) (create_entity_with_archetype r a).
Proof. unfold create_entity_with_archetype, on_ac. agree. Qed.
Lemma destroy_agree e : agree (destroy_entity d e) (destroy_entity r e).
Proof. unfold destroy_entity, on_ec. mproj. agree. Qed.
Lemma add_agree e v : agree (add_components d e v) (add_components r e v).
Proof. unfold add_components. mproj. agree. Qed.
Lemma remove_agree e v : agree (remove_components d e v) (remove_components r e v).
Proof. unfold remove_components. mproj. agree. Qed.
Lemma set_agree e v : agree (set_components d e v) (set_components r e v).
Proof. unfold set_components. mproj. agree. Qed.
Hint Resolve create_agree create_with_agree destroy_agree add_agree remove_agree set_agree : agree.
Lemma order_agree g e : agree (add_order d g e) (add_order r g e).
Proof. unfold add_order, on_orders, orders_add. mproj. agree. Qed.
Lemma order_next_agree g e t : agree (add_order_next d g e t) (add_order_next r g e t).
Proof. unfold add_order_next, on_orders, orders_add_next. mproj. agree. Qed.
Lemma order_prev_agree g e t : agree (add_order_prev d g e t) (add_order_prev r g e t).
Proof. unfold add_order_prev, on_orders, orders_add_prev. mproj. agree. Qed.
Hint Resolve order_agree order_next_agree order_prev_agree : agree.
Lemma valid_for_query_agree q s e : pagree (valid_for_query d q s e) (valid_for_query r q s e).
Proof. unfold valid_for_query. apply pagree_bind; [apply arch_agree|intros [a|]]; agree. Qed.
Hint Resolve valid_for_query_agree : agree.
Lemma eq_extend_agree s pi l : pagree (eq_extend d s pi l) (eq_extend r s pi l).
Proof. induction l as [|e l IH]; [done|]. cbn [eq_extend]. agree. Qed.
Hint Resolve eq_extend_agree : agree.
Lemma eq_ranges_agree q s l fuel i : pagree (eq_ranges d q s l fuel i) (eq_ranges r q s l fuel i).
Proof. revert i. induction fuel as [|fuel IH]; intros i; [done|]. cbn [eq_ranges]. agree. Qed.
Lemma entity_query_agree q s l : pagree (entity_query d q s l) (entity_query r q s l).
Proof. unfold entity_query. agree. apply eq_ranges_agree. Qed.
Lemma write_agree q f : agree (query_write d q f) (query_write r q f).
Proof. unfold query_write. agree. Qed.
Hint Resolve write_agree : agree.
Lemma step_agree o : agree (step d o) (step r o).
Proof. destruct o; unfold step, no_out, add_tag, remove_tag, remove_order; mproj; agree. Qed.
Lemma run_release cap tr s : run d cap tr s → run r cap tr s.
Proof.
  induction 1 as [s H|tr s o s' x _ IH Hs].
  - apply run_init. revert H. unfold store_with_capacity. cbn. by destruct (0 <? cap).
  - eapply run_step; [exact IH|]. pose proof (step_agree o s) as Ha. by rewrite Hs in Ha.
Qed.
End cfg.

Lemma rs_index_agree {T} (s : rs T) e : pagree (rs_index Debug s e) (rs_index Release s e).
Proof. unfold rs_index. agree. Qed.
Global Hint Resolve rs_index_agree : agree.
Lemma rstep_agree {T} (o : rop T) : agree (rstep Debug o) (rstep Release o).
Proof. destruct o; unfold rstep, rs_create, rs_release, rs_assign; agree. Qed.
Lemma rrun_release {T} (s0 : rs T) tr s : rrun Debug s0 tr s → rrun Release s0 tr s.
Proof.
  induction 1 as [|tr s o s' x _ IH Hs]; [by constructor|].
  eapply rrun_step; [exact IH|]. pose proof (rstep_agree o s) as Ha. by rewrite Hs in Ha.
Qed.
Lemma pagree_ok {A} (x y : pres A) a : pagree x y → x = POk a → y = POk a.
Proof. intros H ->. by rewrite H. Qed.
Lemma step_release c o s s' r : step (in_mode Debug c) o s = ROk s' r → step (in_mode Release c) o s = ROk s' r.
Proof. intros H. pose proof (step_agree c o s) as Ha. by rewrite H in Ha. Qed.
Lemma observers_release c s :
  let d := in_mode Debug c in let r := in_mode Release c in
  (∀ e b, is_alive d s e = POk b → is_alive r s e = POk b) ∧
  (∀ e T x, get_components_refs d s e T = POk x → get_components_refs r s e T = POk x) ∧
  (∀ e T x, read_components d s e T = POk x → read_components r s e T = POk x) ∧
  (∀ e x, get_entity_archetype d s e = POk x → get_entity_archetype r s e = POk x) ∧
  (∀ q l x, entity_query d q s l = POk x → entity_query r q s l = POk x) ∧
  (∀ q, component_query d q s = component_query r q s) ∧
  (∀ fuel q g, ordered_query fuel d q s g = ordered_query fuel r q s g) ∧
  (∀ t e, has_tag d s t e = has_tag r s t e) ∧
  (∀ g e, next_ordered d s g e = next_ordered r s g e ∧ previous_ordered d s g e = previous_ordered r s g e) ∧
  (∀ g, first_ordered d s g = first_ordered r s g ∧ last_ordered d s g = last_ordered r s g).
Proof.
  intros d r. split_and!.
  - intros e b. apply pagree_ok, is_alive_agree.
  - intros e T x. apply pagree_ok, refs_agree.
  - intros e T x. apply pagree_ok, read_agree.
  - intros e x. apply pagree_ok, arch_agree.
  - intros q l x. apply pagree_ok, entity_query_agree.
  - intros q. unfold d, r. by rewrite !component_query_mode.
  - intros fuel q g. unfold d, r. by rewrite !ordered_query_mode.
  - done.
  - done.
  - done.
Qed.
