(** Transform queries through a tree view (C21). *)
From stdpp Require Import prelude strings gmap.
From Verif Require Import ListLib Outcome Digraph Bfs TreeView GraphModel GraphOps GraphWf GraphStep SpecObs GraphRefine GraphThms
  SpecWalk WalkThms BfsThms BfsFind SpecSearch GraphSearch SpecTree BuildThms SyncThms SpecView VisitThms
  TransformModel SpecTransform TransformThms.

Section thms.
Context {D T : Type} (d0 : D) (one : T) (mul : T -> T -> T) (inv : T -> T).
Local Notation einv := (@tf_inverse T inv).
Local Notation dg_wf := (dg_wf einv).
Local Notation get_transform := (get_transform one mul).
Local Notation get_transform_view := (get_transform_view one mul inv).
Local Notation to_root := (to_root mul).
Local Notation edge_tf := (edge_tf one).
Local Notation route_tf := (route_tf one mul).
Implicit Types (s : gst D (tf T)).

Lemma to_root_eq s w l : dg_wf (gs_dg s) -> is_tree w -> (forall p c, child w p c -> adjacent (gs_dg s) p c) ->
  forall v fuel acc, route (child w) (tv_root w) v l -> length l <= S fuel ->
  to_root fuel s w v acc =
  Ret (foldl mul acc (zip_with (edge_tf s) (bg_name (gs_dg s) <$> reverse l) (tail (bg_name (gs_dg s) <$> reverse l)))).
Proof.
  intros Hwf Ht Hadj. induction l as [|x l IH] using rev_ind; intros v fuel acc Hr Hlen; [by apply route_nil in Hr|].
  apply route_inv_snoc in Hr as [[Hl Hv]|(l' & b & Hl & Hr & Hb)].
  - rewrite Hl. subst v. destruct fuel; cbn; unfold tv_is_root; by rewrite Nat.eqb_refl.
  - apply app_inj_tail in Hl as [<- ->]. destruct (it_child _ Ht _ _ Hb) as [Hnr Hp].
    destruct fuel as [|fuel].
    { rewrite app_length in Hlen. cbn in Hlen. destruct l; [by apply route_nil in Hr|]. cbn in Hlen. lia. }
    cbn [TransformModel.to_root]. unfold tv_is_root. rewrite (proj2 (Nat.eqb_neq _ _) Hnr), Hp. cbn [obind].
    assert (Hvb : vnext (gs_dg s) v b) by (apply (vnext_sym einv); [done|]; apply vnext_adjacent; by apply Hadj).
    destruct (vnext_alive einv _ _ _ Hwf Hvb) as [Hva Hba]. apply (vnext_edge einv) in Hvb as [e He]; [|done].
    rewrite (find_edge_alive s v b Hva), He. cbn [obind].
    rewrite (IH b) by (try done; rewrite app_length in Hlen; cbn in Hlen; lia).
    rewrite reverse_snoc. destruct Hr as (_ & Hlast & _).
    assert (Hh : head (reverse l) = Some b) by by rewrite head_reverse. destruct (reverse l) as [|y l0]; [done|].
    injection Hh as ->. cbn [fmap list_fmap tail zip_with foldl].
    rewrite (edge_tf_some one inv s _ _ v b e) by eauto using (alive_name inv). done.
Qed.

Lemma route_size w v l : is_tree w -> route (child w) (tv_root w) v l -> length l <= size (tv_tree w).
Proof.
  intros Ht Hr. assert (Hnd : NoDup l).
  { apply (shortest_NoDup (child w) (tv_root w) v). split; [done|]. intros l' Hl'. by rewrite (route_unique w Ht l v l'). }
  rewrite <- size_dom, <- (size_list_to_set (C := gset vid)) by done. apply subseteq_size. intros x Hx%elem_of_list_to_set.
  apply (below_in w Ht (tv_root w)); [apply Ht|]. apply elem_of_list_split in Hx as (l1 & l2 & ->).
  exists (l1 ++ [x]). destruct Hr as (Hh & _ & Hc). split; [by destruct l1|]. split; [by rewrite last_snoc|].
  apply chain_app in Hc as (H1 & H2 & H3). apply chain_app. split; [done|]. split; [done|].
  intros p q Hp [= <-]. by apply H3.
Qed.

(** The frames from a vertex up to the root of the view. *)
Lemma root_route s w v : dg_wf (gs_dg s) -> in_sync (gs_dg s) w -> tv_vertex_exists w v = true ->
  exists l, route (joined s) (bg_name (gs_dg s) v) (bg_name (gs_dg s) (tv_root w)) l /\
    to_root (S (size (tv_tree w))) s w v one = Ret (route_tf s l).
Proof.
  intros Hwf Hs Hv. pose proof (sy_tree _ _ Hs) as Ht. destruct (it_below _ Ht v Hv) as [l Hl].
  exists (bg_name (gs_dg s) <$> reverse l). split.
  - destruct (route_reverse _ _ _ _ Hl) as (H1 & H2 & H3). split; [|split].
    + destruct (reverse l); [done|]. cbn in *. congruence.
    + rewrite fmap_last, H2. done.
    + eapply chain_fmap; [|exact H3]. intros x y _ _ Hxy. cbn in Hxy. apply (sy_edge _ _ Hs) in Hxy.
      apply vnext_adjacent, (vnext_sym einv) in Hxy; [|done]. destruct (vnext_alive einv _ _ _ Hwf Hxy) as [Hx Hy].
      apply (joined_vnext einv); [done|]. exists x, y. eauto using (alive_name inv).
  - apply to_root_eq; [done|done|apply Hs|done|]. pose proof (route_size w v l Ht Hl). lia.
Qed.

Lemma edges_of_joined s a b : dg_wf (gs_dg s) -> joined s a b -> num_edges s <> 0.
Proof.
  intros Hwf (u & v & _ & _ & (e & He & _)%vnext_iff)%(joined_vnext einv); [|done].
  unfold num_edges. rewrite (wf_ne einv _ Hwf). destruct (dg_edges (gs_dg s)); [by apply elem_of_nil in He|done].
Qed.

Lemma edges_of_linked s a b : dg_wf (gs_dg s) -> a <> b -> linked (joined s) a b -> num_edges s <> 0.
Proof.
  intros Hwf Hab [l Hl]. apply route_inv_snoc in Hl as [[_ ?]|(l' & c & _ & _ & Hc)]; [done|]. by eapply edges_of_joined.
Qed.

(** C21 *)
Lemma view_transform s w a b u v : group one mul inv -> reachable d0 einv s -> in_sync (gs_dg s) w -> consistent one mul s ->
  get_vertex s a = Ret u -> get_vertex s b = Ret v -> tv_vertex_exists w u = true -> tv_vertex_exists w v = true -> a <> b ->
  exists p q, get_transform_view s a b w = Ret p /\ get_transform s a b = Ret q /\ tf_tr p = tf_tr q /\ tf_time p = 0%Z.
Proof.
  intros G Hwf%reachable_wf Hs Hc Hga Hgb Hu Hv Hab.
  pose proof (get_vertex_inv s a u Hga) as Ha. pose proof (get_vertex_inv s b v Hgb) as Hb.
  destruct (root_route s w u Hwf Hs Hu) as (lu & Hru & Hpu). destruct (root_route s w v Hwf Hs Hv) as (lv & Hrv & Hpv).
  rewrite (bg_name_map einv _ _ _ Hwf Ha) in Hru. rewrite (bg_name_map einv _ _ _ Hwf Hb) in Hrv.
  assert (Hrev : route (joined s) (bg_name (gs_dg s) (tv_root w)) b (reverse lv)).
  { destruct (route_reverse _ _ _ _ Hrv) as (X1 & X2 & X3). split; [done|]. split; [done|]. eapply chain_impl; [|done].
    intros x y _ _ Hxy. by apply (joined_sym einv). }
  pose proof (route_app _ _ _ _ _ _ Hru Hrev) as Hr.
  assert (Hka : contains_frame s a = true) by (rewrite (contains_frame_map einv) by done; apply bool_decide_eq_true; eauto).
  assert (Hkb : contains_frame s b = true) by (rewrite (contains_frame_map einv) by done; apply bool_decide_eq_true; eauto).
  destruct (get_transform_route one mul inv s a b G Hwf Hka Hkb) as (q & l & Hq & Hl & Htf).
  { eapply edges_of_linked; [done|exact Hab|by eexists]. } { by eexists. }
  eexists _, q. split; [|split; [done|]].
  - unfold TransformModel.get_transform_view. rewrite Hga, Hgb. cbn [obind]. unfold get_transform_view_v.
    rewrite (proj2 (Nat.eqb_neq u v)) by (intros ->; apply Hab; by eapply wf_map_inj). rewrite Hpu. cbn [obind]. rewrite Hpv. done.
  - split; [|done]. cbn. rewrite Htf, (consistent_routes one mul inv G s a b l _ Hwf Hc Hl Hr). unfold SpecTransform.route_tf.
    rewrite (product_app one mul inv G _ _ _ _ _ _ _ _ Hru Hrev). f_equal. symmetry.
    apply (product_reverse one mul inv G _ _ (joined s)); [apply Hrv|]. intros x y Hxy. by apply (edge_tf_inv one mul inv).
Qed.

Lemma view_transform_self s w a u : get_vertex s a = Ret u -> get_transform_view s a a w = Ret (Tf 0 one).
Proof. intros Ha. unfold TransformModel.get_transform_view. rewrite Ha. cbn. unfold get_transform_view_v. by rewrite Nat.eqb_refl. Qed.

Lemma to_root_outside s w v n acc : is_tree w -> tv_vertex_exists w v = false -> to_root (S n) s w v acc = Throw XRuntime.
Proof.
  intros Ht Hv. cbn. unfold tv_is_root. destruct (Nat.eqb_spec v (tv_root w)) as [->|_].
  { rewrite (it_rootin _ Ht) in Hv. done. }
  unfold tv_get_parent. destruct (Nat.eqb v null_vertex); [done|]. unfold tv_vertex_exists in Hv.
  apply bool_decide_eq_false in Hv. destruct (tv_tree w !! v); [|done]. exfalso. eauto.
Qed.

Lemma view_transform_outside s w a b u v : reachable d0 einv s -> in_sync (gs_dg s) w ->
  get_vertex s a = Ret u -> get_vertex s b = Ret v -> a <> b ->
  tv_vertex_exists w u = false \/ tv_vertex_exists w v = false ->
  get_transform_view s a b w = Throw XRuntime.
Proof.
  intros Hwf%reachable_wf Hs Hga Hgb Hab Hout. pose proof (sy_tree _ _ Hs) as Ht.
  pose proof (get_vertex_inv s a u Hga) as Ha. pose proof (get_vertex_inv s b v Hgb) as Hb.
  unfold TransformModel.get_transform_view. rewrite Hga, Hgb. cbn [obind]. unfold get_transform_view_v.
  rewrite (proj2 (Nat.eqb_neq u v)) by (intros ->; apply Hab; by eapply wf_map_inj).
  destruct (tv_vertex_exists w u) eqn:Hu.
  - destruct Hout as [?|Hv]; [done|]. destruct (root_route s w u Hwf Hs Hu) as (lu & Hru & Hpu). rewrite Hpu. cbn [obind].
    by rewrite to_root_outside.
  - by rewrite to_root_outside.
Qed.

Lemma view_transform_unknown s w a b : reachable d0 einv s -> 
  (contains_frame s a = false -> get_transform_view s a b w = Throw (XUnknownFrame a)) /\
  (contains_frame s a = true -> contains_frame s b = false -> get_transform_view s a b w = Throw (XUnknownFrame b)).
Proof.
  intros Hwf%reachable_wf. rewrite !(contains_frame_map einv) by done. unfold TransformModel.get_transform_view.
  destruct (get_vertex_cases einv s a Hwf) as [(u & Ha & ->)|[Ha ->]].
  - split; [intros Hn%bool_decide_eq_false; exfalso; eauto|]. intros _ Hn%bool_decide_eq_false. cbn [obind].
    destruct (get_vertex_cases einv s b Hwf) as [(v & Hb & ->)|[Hb ->]]; [exfalso; eauto|done].
  - split; [done|]. intros [? ?]%bool_decide_eq_true. congruence.
Qed.

(** A way to show consistency: a pose for every frame. *)
Lemma poses_consistent s (h : frameid -> T) : group one mul inv ->
  (forall a b, joined s a b -> edge_tf s a b = mul (inv (h a)) (h b)) -> consistent one mul s.
Proof.
  intros G Hh. assert (Hgen : forall l a b, route (joined s) a b l -> route_tf s l = mul (inv (h a)) (h b)).
  { intros l. induction l as [|x l IH]; intros a b Hr; [by apply route_nil in Hr|].
    destruct Hr as ([= ->] & Hl & Hx & Hc). destruct l as [|y l].
    - injection Hl as ->. by rewrite (gr_inv_l _ _ _ G).
    - rewrite last_cons_cons in Hl. unfold SpecTransform.route_tf. rewrite (product_cons one mul inv G). fold (route_tf s (y :: l)).
      rewrite (IH y b) by done. rewrite Hh by done.
      by rewrite (gr_assoc _ _ _ G), <- (gr_assoc _ _ _ G (inv (h a))), (gr_inv_r _ _ _ G), (gr_one_r _ _ _ G). }
  intros a l Hr. rewrite (Hgen l a a Hr). apply (gr_inv_l _ _ _ G).
Qed.

Lemma poses_check s (h : frameid -> T) : dg_wf (gs_dg s) ->
  Forall (fun e => tf_tr (e_prop e) = mul (inv (h (bg_name (gs_dg s) (e_src e)))) (h (bg_name (gs_dg s) (e_tgt e)))) (dg_edges (gs_dg s)) ->
  forall a b, joined s a b -> edge_tf s a b = mul (inv (h a)) (h b).
Proof.
  intros Hwf Hall a b (u & v & Ha & Hb & [e He]%(vnext_edge einv))%(joined_vnext einv); [|done..].
  rewrite (edge_tf_some one inv s a b u v e) by done. apply (bg_edge_iff einv) in He as (He & <- & <-); [|done].
  rewrite Forall_forall in Hall. rewrite (Hall e He). by rewrite (bg_name_map einv _ _ _ Hwf Ha), (bg_name_map einv _ _ _ Hwf Hb).
Qed.

(** A way to show that there is no cycle: a star. *)
Lemma star_forest s c : dg_wf (gs_dg s) -> (forall a b, joined s a b -> a = c \/ b = c) -> forest s.
Proof.
  intros Hwf Hstar a b l (Hh & Hl & Hc) Hnd Hlen Hba.
  destruct l as [|x [|y [|z l]]]; cbn in Hlen; try lia. injection Hh as ->.
  destruct Hc as [H1 [H2 [H3 _]]].
  assert (a <> y /\ a <> z /\ y <> z) as (? & ? & ?).
  { apply NoDup_cons in Hnd as [N1 Hnd]. apply NoDup_cons in Hnd as [N2 Hnd]. set_solver. }
  assert (y = c) as ->. { destruct (Hstar _ _ H1), (Hstar _ _ H2); congruence. }
  destruct l as [|t l].
  - injection Hl as ->. destruct (Hstar _ _ Hba); congruence.
  - assert (t <> c). { apply NoDup_cons in Hnd as [_ Hnd]. apply NoDup_cons in Hnd as [N _]. set_solver. }
    destruct (Hstar _ _ H3); congruence.
Qed.

Lemma star_check s c : dg_wf (gs_dg s) ->
  Forall (fun e => bg_name (gs_dg s) (e_src e) = c \/ bg_name (gs_dg s) (e_tgt e) = c) (dg_edges (gs_dg s)) ->
  forall a b, joined s a b -> a = c \/ b = c.
Proof.
  intros Hwf Hall a b (u & v & Ha & Hb & (e & He & <- & <-)%vnext_iff)%(joined_vnext einv); [|done].
  rewrite Forall_forall in Hall. specialize (Hall e He).
  by rewrite (bg_name_map einv _ _ _ Hwf Ha), (bg_name_map einv _ _ _ Hwf Hb) in Hall.
Qed.

End thms.
