(** Transform queries (C11-C15, C21). *)
From stdpp Require Import prelude strings gmap.
From Verif Require Import ListLib Outcome Digraph Bfs TreeView GraphModel GraphOps GraphWf GraphStep SpecObs GraphRefine GraphThms
  SpecWalk WalkThms BfsThms BfsFind SpecSearch GraphSearch SpecTree BuildThms SyncThms SpecView VisitThms TransformModel SpecTransform.

Section product.
Context {A T : Type} (one : T) (mul : T -> T -> T) (inv : T -> T).
Hypothesis G : group one mul inv.
Notation product := (product one mul).
Implicit Types (f : A -> A -> T) (l : list A).

Lemma foldl_mul acc xs : foldl mul acc xs = mul acc (foldl mul one xs).
Proof.
  revert acc. induction xs as [|x xs IH]; intros acc; cbn; [by rewrite (gr_one_r _ _ _ G)|].
  rewrite IH, (IH (mul one x)), (gr_one_l _ _ _ G), (gr_assoc _ _ _ G). done.
Qed.

Lemma product_one f a : product f [a] = one.
Proof. done. Qed.

Lemma product_cons f a b l : product f (a :: b :: l) = mul (f a b) (product f (b :: l)).
Proof. unfold SpecTransform.product. cbn. rewrite foldl_mul, (gr_one_l _ _ _ G). done. Qed.

Lemma product_app f a b c l1 l2 R1 R2 : route R1 a b l1 -> route R2 b c l2 ->
  product f (l1 ++ tail l2) = mul (product f l1) (product f l2).
Proof.
  intros H1 H2. destruct l2 as [|x l2]; [by apply route_nil in H2|]. destruct H2 as ([= ->] & _ & _). cbn [tail].
  destruct H1 as (_ & Hl & _). induction l1 as [|y l1 IH]; [done|].
  destruct l1 as [|z l1].
  - injection Hl as ->. cbn [app]. rewrite product_one, (gr_one_l _ _ _ G). done.
  - cbn [app]. rewrite last_cons_cons in Hl. rewrite !product_cons. cbn [app] in IH. rewrite IH by done.
    by rewrite (gr_assoc _ _ _ G).
Qed.

Lemma inv_unique x y : mul x y = one -> y = inv x.
Proof.
  intros H. rewrite <- (gr_one_l _ _ _ G y), <- (gr_inv_l _ _ _ G x), <- (gr_assoc _ _ _ G), H. apply (gr_one_r _ _ _ G).
Qed.
Lemma inv_mul x y : inv (mul x y) = mul (inv y) (inv x).
Proof.
  symmetry. apply inv_unique. rewrite (gr_assoc _ _ _ G), <- (gr_assoc _ _ _ G x), (gr_inv_r _ _ _ G), (gr_one_r _ _ _ G).
  apply (gr_inv_r _ _ _ G).
Qed.
Lemma inv_inv x : inv (inv x) = x.
Proof. symmetry. apply inv_unique, (gr_inv_l _ _ _ G). Qed.
Lemma inv_one : inv one = one.
Proof. symmetry. apply inv_unique, (gr_one_l _ _ _ G). Qed.

Lemma product_snoc f l a b : last l = Some a -> product f (l ++ [b]) = mul (product f l) (f a b).
Proof.
  intros Hl. assert (H1 : exists x, route (fun _ _ => True) x a l).
  { destruct l as [|x l]; [done|]. exists x. split; [done|]. split; [done|]. clear. generalize (x :: l). clear.
    intros l. induction l as [|y l IH]; [done|]. cbn. split; [by destruct l|done]. }
  destruct H1 as [x H1]. change [b] with (tail [a; b]). rewrite (product_app f x a b l [a; b] _ (fun _ _ => True) H1); [|done].
  rewrite product_cons, product_one, (gr_one_r _ _ _ G). done.
Qed.

Lemma product_reverse f l R : chain R l -> (forall x y, R x y -> f y x = inv (f x y)) ->
  product f (reverse l) = inv (product f l).
Proof.
  intros Hc Hf. induction l as [|a l IH]; [symmetry; apply inv_one|].
  destruct Hc as [Hab Hc]. rewrite reverse_cons. destruct l as [|b l]; [symmetry; apply inv_one|].
  rewrite (product_snoc f _ b).
  - rewrite IH by done. rewrite product_cons, inv_mul, Hf by done. done.
  - rewrite last_reverse. done.
Qed.

End product.

Section thms.
Context {D T : Type} (d0 : D) (one : T) (mul : T -> T -> T) (inv : T -> T).
Local Notation einv := (@tf_inverse T inv).
Local Notation dg_wf := (dg_wf einv).
Local Notation get_transform := (get_transform one mul).
Local Notation get_transform_v := (get_transform_v one mul).
Local Notation compose_along := (compose_along mul).
Local Notation edge_tf := (edge_tf one).
Local Notation route_tf := (route_tf one mul).
Implicit Types (s : gst D (tf T)).

Lemma edge_tf_some s a b u v e : dg_wf (gs_dg s) -> dg_map (gs_dg s) !! a = Some u -> dg_map (gs_dg s) !! b = Some v ->
  bg_edge (gs_dg s) u v = Some e -> edge_tf s a b = tf_tr (e_prop e).
Proof. intros Hwf Ha Hb He. unfold SpecTransform.edge_tf. by rewrite (get_edge_property_eq einv), Ha, Hb, He by done. Qed.

Lemma alive_name s u : dg_wf (gs_dg s) -> bg_alive (gs_dg s) u = true -> dg_map (gs_dg s) !! bg_name (gs_dg s) u = Some u.
Proof.
  intros Hwf Hu. destruct (wf_alive_map einv _ _ Hwf Hu) as (f & Hf & _).
  by rewrite (bg_name_map einv _ _ _ Hwf Hf).
Qed.

Lemma compose_along_cons s acc a b l : compose_along s acc (a :: b :: l) =
  obind (find_edge s a b) (fun e =>
    match e with Some e => compose_along s (mul acc (tf_tr (e_prop e))) (b :: l) | None => UB end).
Proof. done. Qed.

Lemma compose_along_eq s l : dg_wf (gs_dg s) -> chain (vnext (gs_dg s)) l -> forall acc,
  compose_along s acc l =
  Ret (foldl mul acc (zip_with (edge_tf s) (bg_name (gs_dg s) <$> l) (tail (bg_name (gs_dg s) <$> l)))).
Proof.
  intros Hwf. induction l as [|a l IH]; intros Hc acc; [done|]. destruct Hc as [Hab Hc].
  destruct l as [|b l]; [done|]. rewrite compose_along_cons.
  destruct (vnext_alive einv _ _ _ Hwf Hab) as [Ha Hb]. apply (vnext_edge einv) in Hab as [e He]; [|done].
  rewrite (find_edge_alive s a b Ha), He. cbn [obind]. rewrite IH by done. cbn [fmap list_fmap tail zip_with foldl].
  rewrite (edge_tf_some s _ _ a b e) by eauto using alive_name. done.
Qed.

(** getTransform on known frames *)
Lemma get_transform_cases s a b : dg_wf (gs_dg s) -> contains_frame s a = true -> contains_frame s b = true ->
  (num_edges s = 0 /\ get_transform s a b = Throw (XUnknownTransform a b)) \/
  (num_edges s <> 0 /\ joined s a b /\ exists p, get_edge_property s a b = Ret p /\ get_transform s a b = Ret p) \/
  (num_edges s <> 0 /\ ~ joined s a b /\ exists l, shortest (joined s) a b l /\
     get_transform s a b = Ret (tf_of (route_tf s l))) \/
  (num_edges s <> 0 /\ ~ joined s a b /\ ~ linked (joined s) a b /\
     get_transform s a b = Throw (XUnknownTransform a b)).
Proof.
  intros Hwf. rewrite !(contains_frame_map einv) by done. rewrite !bool_decide_eq_true. intros [u Ha] [v Hb].
  assert (Hthrow : throw_unknown_transform s u v = Throw (XUnknownTransform a b)).
  { unfold throw_unknown_transform. rewrite (get_frame_id_some einv s a u), (get_frame_id_some einv s b v) by done. done. }
  unfold TransformModel.get_transform. rewrite (get_vertex_some einv s a u), (get_vertex_some einv s b v) by done. cbn [obind].
  unfold TransformModel.get_transform_v. destruct (Nat.eqb_spec (num_edges s) 0) as [H0|H0]; [by left|right].
  assert (Hu : bg_alive (gs_dg s) u = true) by by eapply wf_map_alive.
  rewrite (find_edge_alive s u v Hu). cbn [obind].
  assert (Hj : joined s a b <-> is_Some (bg_edge (gs_dg s) u v)).
  { rewrite (joined_vnext einv), <- (vnext_edge einv) by done. split.
    - intros (u' & v' & ? & ? & ?). congruence.
    - intros ?. eauto. }
  destruct (bg_edge (gs_dg s) u v) as [e|] eqn:He.
  - left. split; [done|]. split; [by apply Hj|]. exists (e_prop e). split; [|done].
    by rewrite (get_edge_property_eq einv), Ha, Hb, He by done.
  - right. assert (Hnj : ~ joined s a b) by (rewrite Hj; by intros [? ?]).
    destruct (get_frames_known einv s a b u v Hwf Ha Hb) as (_ & Hyes & Hno).
    destruct (get_frames_dec einv s a b u v Hwf Ha Hb) as [Hlk|Hlk].
    + left. split; [done|]. split; [done|]. destruct (decide (a = b)) as [->|Hab].
      * assert (u = v) as -> by congruence. exists [b]. split.
        { split; [apply route_refl|]. intros l' Hl'. destruct l'; [by apply route_nil in Hl'|cbn; lia]. }
        destruct (bfs_find_spec einv (gs_dg s) v v Hwf Hu) as [H1 _].
        destruct H1 as (l & Hl & Hr & Hs); [apply linked_refl|]. rewrite Hl. cbn [obind].
        specialize (Hs [v] (route_refl _ v)). destruct l as [|x [|y l]]; cbn in Hs; [|done|lia].
        by apply route_nil in Hr.
      * destruct (Hyes Hab Hlk) as (l & _ & Hf & [Hr _] & Hs). exists (bg_name (gs_dg s) <$> l). split; [done|].
        rewrite Hf. cbn [obind]. rewrite compose_along_eq; [done|done|]. apply Hr.
    + right. destruct (Hno Hlk) as [_ Hf]. rewrite Hf. cbn [obind]. done.
Qed.

(** C11 *)
Lemma get_transform_composes s a b : reachable d0 einv s -> contains_frame s a = true -> contains_frame s b = true ->
  (forall p, get_transform s a b = Ret p ->
     (joined s a b /\ get_edge_property s a b = Ret p) \/
     (~ joined s a b /\ exists l, shortest (joined s) a b l /\ tf_tr p = route_tf s l)) /\
  (get_transform s a b = Throw (XUnknownTransform a b) <-> num_edges s = 0 \/ ~ linked (joined s) a b) /\
  ((exists p, get_transform s a b = Ret p) \/ get_transform s a b = Throw (XUnknownTransform a b)).
Proof.
  intros Hwf%reachable_wf Ha Hb.
  destruct (get_transform_cases s a b Hwf Ha Hb) as [[H0 H]|[(H0 & Hj & p & Hp & H)|[(H0 & Hj & l & Hl & H)|(H0 & Hj & Hl & H)]]];
    rewrite H; (split; [|split; [|eauto]]).
  - done.
  - split; auto.
  - intros q [= <-]. left. done.
  - split; [done|]. intros [?|Hn]; [done|]. exfalso. apply Hn. by apply linked_step.
  - intros q [= <-]. right. split; [done|]. eauto.
  - split; [done|]. intros [?|Hn]; [done|]. exfalso. apply Hn. exists l. apply Hl.
  - done.
  - split; auto.
Qed.

(** Any result of getTransform is the product along some route. *)
Lemma get_transform_route s a b : group one mul inv -> dg_wf (gs_dg s) -> contains_frame s a = true -> contains_frame s b = true -> num_edges s <> 0 ->
  linked (joined s) a b -> exists p l, get_transform s a b = Ret p /\ route (joined s) a b l /\ tf_tr p = route_tf s l.
Proof.
  intros G Hwf Ha Hb H0 Hlk.
  destruct (get_transform_cases s a b Hwf Ha Hb) as [[? H]|[(_ & Hj & p & Hp & H)|[(_ & Hj & l & Hl & H)|(_ & Hj & Hl & H)]]]; try done.
  - exists p, [a; b]. split; [done|]. split; [by eapply route_cons, route_refl|].
    unfold SpecTransform.route_tf. rewrite (product_cons one mul inv G), (product_one one mul), (gr_one_r _ _ _ G). unfold SpecTransform.edge_tf. by rewrite Hp.
  - exists (tf_of (route_tf s l)), l. split; [done|]. split; [apply Hl|done].
Qed.

Section group.
Hypothesis G : group one mul inv.

Lemma edge_tf_inv s a b : dg_wf (gs_dg s) -> joined s a b -> edge_tf s b a = inv (edge_tf s a b).
Proof.
  intros Hwf (u & v & Ha & Hb & Hn)%(joined_vnext einv); [|done].
  apply (vnext_edge einv) in Hn as [e He]; [|done]. destruct (edge_rev einv _ _ _ _ Hwf He) as [e' He'].
  rewrite (edge_tf_some s b a v u e'), (edge_tf_some s a b u v e) by done.
  apply (bg_edge_iff einv) in He as (Hin & Hs & Ht); [|done]. apply (bg_edge_iff einv) in He' as (Hin' & Hs' & Ht'); [|done].
  destruct (wf_inv einv _ Hwf e Hin) as (e2 & Hin2 & Hs2 & Ht2 & Hp).
  assert (e2 = e') as -> by (apply (edge_by_ends einv (gs_dg s)); congruence).
  destruct Hp as [->| ->]; [done|]. cbn. by rewrite (inv_inv one mul inv G).
Qed.

(** Path independence. *)
Lemma consistent_routes s a b l1 l2 : dg_wf (gs_dg s) -> consistent one mul s ->
  route (joined s) a b l1 -> route (joined s) a b l2 -> route_tf s l1 = route_tf s l2.
Proof.
  intros Hwf Hc H1 H2. pose proof (route_reverse _ _ _ _ H2) as H2r.
  assert (Hrev : route_tf s (reverse l2) = inv (route_tf s l2)).
  { apply (product_reverse one mul inv G _ _ (joined s)); [apply H2|]. intros x y Hxy. by apply edge_tf_inv. }
  assert (H2j : route (joined s) b a (reverse l2)).
  { destruct H2r as (X1 & X2 & X3). split; [done|]. split; [done|]. eapply chain_impl; [|done].
    intros x y _ _ Hxy. by apply (joined_sym einv). }
  pose proof (Hc a _ (route_app _ _ _ _ _ _ H1 H2j)) as Hone.
  unfold SpecTransform.route_tf in Hone, Hrev |- *. rewrite (product_app one mul inv G _ a b a _ _ _ _ H1 H2j), Hrev in Hone.
  apply (inv_unique one mul inv G) in Hone. rewrite <- (inv_inv one mul inv G (product _ _ _ l1)), <- Hone.
  by rewrite (inv_inv one mul inv G).
Qed.

Lemma linked_known s a b : contains_frame s a = true -> linked (joined s) a b -> contains_frame s b = true.
Proof.
  intros Ha. revert b. apply linked_ind_r; [done|]. intros x y _ _ Hxy. by apply joined_known in Hxy as [_ ?].
Qed.

(** C12 *)
Lemma transforms_coherent s a b c : reachable d0 einv s -> consistent one mul s -> num_edges s <> 0 ->
  contains_frame s a = true -> linked (joined s) a b -> linked (joined s) b c ->
  exists pab pbc pac pba, get_transform s a b = Ret pab /\ get_transform s b c = Ret pbc /\
    get_transform s a c = Ret pac /\ get_transform s b a = Ret pba /\
    tf_tr pac = mul (tf_tr pab) (tf_tr pbc) /\ tf_tr pba = inv (tf_tr pab).
Proof.
  intros Hwf%reachable_wf Hc H0 Ha Hab Hbc.
  assert (Hb : contains_frame s b = true) by by eapply linked_known.
  assert (Hcc : contains_frame s c = true) by by eapply linked_known.
  assert (Hac : linked (joined s) a c) by by eapply linked_trans.
  assert (Hba : linked (joined s) b a). { apply linked_sym; [|done]. intros x y. by apply (joined_sym einv). }
  destruct (get_transform_route s a b) as (pab & lab & Eab & Rab & Tab); try done.
  destruct (get_transform_route s b c) as (pbc & lbc & Ebc & Rbc & Tbc); try done.
  destruct (get_transform_route s a c) as (pac & lac & Eac & Rac & Tac); try done.
  destruct (get_transform_route s b a) as (pba & lba & Eba & Rba & Tba); try done.
  exists pab, pbc, pac, pba. repeat (split; [done|]). split.
  - rewrite Tac, Tab, Tbc. unfold SpecTransform.route_tf. rewrite <- (product_app one mul inv G _ a b c _ _ _ _ Rab Rbc).
    apply (consistent_routes s a c); try done. by eapply route_app.
  - rewrite Tba, Tab. apply (inv_unique one mul inv G). unfold SpecTransform.route_tf.
    rewrite <- (product_app one mul inv G _ a b a _ _ _ _ Rab Rba). apply (Hc a). by eapply route_app.
Qed.

(** C13: in a forest every route can be shortened to one without repetition with the same transform. *)
Lemma no_self s a : dg_wf (gs_dg s) -> ~ joined s a a.
Proof.
  intros Hwf (u & v & Ha & Hb & (e & He & Hs & Ht)%vnext_iff)%(joined_vnext einv); [|done].
  apply (wf_noself einv _ Hwf e He). congruence.
Qed.

Lemma forest_reduce s a b l : dg_wf (gs_dg s) -> forest s -> route (joined s) a b l ->
  exists l', route (joined s) a b l' /\ NoDup l' /\ route_tf s l' = route_tf s l.
Proof.
  intros Hwf Hf. revert a. induction l as [|x l IH]; intros a Hr; [by apply route_nil in Hr|].
  destruct Hr as ([= ->] & Hl & Hx & Hc). destruct l as [|y l].
  - exists [a]. split; [by split|]. split; [apply NoDup_singleton|done].
  - rewrite last_cons_cons in Hl. destruct (IH y) as (l' & Hr' & Hnd & Htf); [by split|].
    assert (Hprod : route_tf s (a :: y :: l) = mul (edge_tf s a y) (route_tf s l')).
    { rewrite Htf. by apply (product_cons one mul inv G). }
    destruct (decide (a ∈ l')) as [Hin|Hin].
    + apply elem_of_list_split in Hin as (l1 & l2 & ->).
      assert (Hl1 : l1 = [y]).
      { destruct Hr' as (Hh & Hla & Hch). apply chain_app in Hch as (Hch1 & Hch2 & Hb).
        destruct l1 as [|z l1]; [cbn in Hh; injection Hh as ->; by apply no_self in Hx|].
        cbn in Hh. injection Hh as ->. destruct l1 as [|z2 l1]; [done|]. exfalso.
        apply (Hf y a (y :: z2 :: l1 ++ [a])).
        - split; [done|]. split; [rewrite !app_comm_cons; apply last_snoc|].
          rewrite !app_comm_cons. apply chain_app. split; [done|]. split; [done|].
          intros p q Hp [= <-]. by apply Hb.
        - change (y :: z2 :: l1 ++ [a]) with ((y :: z2 :: l1) ++ [a]).
          change ((y :: z2 :: l1) ++ a :: l2) with ((y :: z2 :: l1) ++ ([a] ++ l2)) in Hnd.
          rewrite app_assoc in Hnd. by apply NoDup_app in Hnd as [? _].
        - cbn. rewrite app_length. cbn. lia.
        - done. }
      subst l1. exists (a :: l2). split; [|split].
      * destruct Hr' as (_ & Hla & Hch). split; [done|]. cbn [app] in Hla, Hch. rewrite last_cons_cons in Hla.
        split; [done|]. by destruct Hch.
      * cbn in Hnd. by apply NoDup_cons in Hnd as [_ ?].
      * rewrite Hprod. cbn [app]. unfold SpecTransform.route_tf.
        rewrite (product_cons one mul inv G _ y a l2), (gr_assoc _ _ _ G), (edge_tf_inv s a y) by done.
        by rewrite (gr_inv_r _ _ _ G), (gr_one_l _ _ _ G).
    + exists (a :: l'). split; [by eapply route_cons|]. split; [by constructor|]. rewrite Hprod.
      destruct l' as [|z l']; [by apply route_nil in Hr'|]. destruct Hr' as ([= ->] & _).
      by apply (product_cons one mul inv G).
Qed.

Lemma forest_consistent s : reachable d0 einv s -> forest s -> consistent one mul s.
Proof.
  intros Hwf%reachable_wf Hf a l Hr. destruct (forest_reduce s a a l Hwf Hf Hr) as (l' & Hr' & Hnd & <-).
  destruct Hr' as (Hh & Hl & _). destruct l' as [|x l']; [done|]. injection Hh as ->.
  destruct l' as [|y l' _] using rev_ind; [done|]. rewrite app_comm_cons, last_snoc in Hl. injection Hl as ->.
  apply NoDup_cons in Hnd as [Hn _]. exfalso. apply Hn. apply elem_of_app. right. by left.
Qed.

End group.

(** C14 *)
Lemma self_transform s a : reachable d0 einv s -> contains_frame s a = true ->
  (num_edges s <> 0 -> get_transform s a a = Ret (Tf 0 one)) /\
  (num_edges s = 0 -> get_transform s a a = Throw (XUnknownTransform a a)).
Proof.
  intros Hwf%reachable_wf Ha.
  destruct (get_transform_cases s a a Hwf Ha Ha) as [[H0 H]|[(H0 & Hj & _)|[(H0 & Hj & l & [Hr Hl] & H)|(H0 & Hj & Hl & H)]]].
  - done.
  - by apply no_self in Hj.
  - split; [|done]. intros _. rewrite H. specialize (Hl [a] (route_refl _ a)).
    destruct l as [|x [|y l]]; cbn in Hl; [by apply route_nil in Hr|done|lia].
  - exfalso. apply Hl, linked_refl.
Qed.

(** C15 *)
Lemma transform_times s a b p : reachable d0 einv s -> get_transform s a b = Ret p ->
  (joined s a b -> exists q, get_edge_property s a b = Ret q /\ tf_time p = tf_time q) /\
  (~ joined s a b -> tf_time p = 0%Z).
Proof.
  intros Hwf%reachable_wf Hp.
  assert (Ha : contains_frame s a = true).
  { unfold TransformModel.get_transform in Hp. destruct (get_vertex_cases einv s a Hwf) as [(u & Ha & Hu)|[_ Hu]]; rewrite Hu in Hp; [|done].
    rewrite (contains_frame_map einv) by done. apply bool_decide_eq_true. eauto. }
  assert (Hb : contains_frame s b = true).
  { unfold TransformModel.get_transform in Hp. destruct (get_vertex_cases einv s a Hwf) as [(u & _ & Hu)|[_ Hu]]; rewrite Hu in Hp; [|done].
    destruct (get_vertex_cases einv s b Hwf) as [(v & Hb & Hv)|[_ Hv]]; rewrite Hv in Hp; [|done].
    rewrite (contains_frame_map einv) by done. apply bool_decide_eq_true. eauto. }
  destruct (get_transform_cases s a b Hwf Ha Hb) as [[H0 H]|[(H0 & Hj & q & Hq & H)|[(H0 & Hj & l & _ & H)|(H0 & Hj & Hl & H)]]];
    rewrite H in Hp; try done; injection Hp as <-.
  - split; [|done]. intros _. eauto.
  - split; [done|]. done.
Qed.

Lemma product_time (x y : tf T) : tf_time (tf_mul mul x y) = Z.max (tf_time x) (tf_time y) /\
  tf_tr (tf_mul mul x y) = mul (tf_tr x) (tf_tr y) /\
  tf_time (tf_inverse inv x) = tf_time x /\ tf_tr (tf_inverse inv x) = inv (tf_tr x).
Proof. split; [|done]. unfold tf_mul. cbn. destruct (Z.ltb_spec (tf_time y) (tf_time x)); lia. Qed.

End thms.
