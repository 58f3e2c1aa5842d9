(** Proofs about Transform::setIdentity. *)
From stdpp Require Import prelude strings gmap.
From Coq Require Import ZArith.
From Verif Require Import Outcome Digraph Bfs TreeView GraphModel GraphOps GraphWf SpecStore SpecObs GraphStep GraphRefine GraphThms TransformModel SpecTransform
  FollowThms SpecWalk SpecSearch TransformThms IdentityModel SpecIdentity.

Lemma fmap_zip_with {A B X Y : Type} (f : X -> Y) (g : A -> B -> X) l : forall k, f <$> zip_with g l k = zip_with (fun u v => f (g u v)) l k.
Proof. induction l as [|u l IH]; intros [|v k]; [done..|]. cbn. by rewrite <- IH. Qed.

Section identity.
Context {P C : Type} (pone : P) (pmul : P -> P -> P) (pinv : P -> P) (mul : twc P C -> twc P C -> twc P C) (inv : twc P C -> twc P C).
Implicit Types x y : tf (twc P C).

Lemma identity_pose x y : group pone pmul pinv -> acts_on_poses pmul pinv mul inv ->
  let e := set_identity pone x in
  tf_pose e = pone /\ tf_pose (tf_mul mul e y) = tf_pose y /\ tf_pose (tf_mul mul y e) = tf_pose y /\ tf_pose (tf_inverse inv e) = pone.
Proof.
  intros Hg [Hm Hi] e. unfold tf_pose, e. cbn. rewrite !Hm, Hi. cbn. split; [done|]. split; [apply (gr_one_l _ _ _ Hg)|]. split; [apply (gr_one_r _ _ _ Hg)|].
  rewrite <- (gr_one_l _ _ _ Hg (pinv pone)). apply (gr_inv_r _ _ _ Hg).
Qed.
Lemma identity_keeps x : let e := set_identity pone x in
  tf_time e = tf_time x /\ tw_cov (tf_tr e) = tw_cov (tf_tr x) /\ set_identity pone e = e /\ (tf_pose x = pone -> e = x).
Proof. split_and!; try done. destruct x as [t [p c]]. unfold tf_pose. cbn. by intros ->. Qed.

Lemma identity_neutral x y : let e := set_identity pone x in
  (tf_mul mul e y = y <-> (tf_time x <= tf_time y)%Z /\ mul (Twc pone (tw_cov (tf_tr x))) (tf_tr y) = tf_tr y) /\
  (tf_mul mul y e = y <-> (tf_time x <= tf_time y)%Z /\ mul (tf_tr y) (Twc pone (tw_cov (tf_tr x))) = tf_tr y).
Proof.
  intros e. destruct x as [t [p c]], y as [u q]. unfold e, set_identity, tf_mul. cbn. split; split.
  - intros [= H1 H2]. split; [|done]. destruct (Z.ltb_spec u t); lia.
  - intros [H1 ->]. f_equal. destruct (Z.ltb_spec u t); lia.
  - intros [= H1 H2]. split; [|done]. destruct (Z.ltb_spec t u); lia.
  - intros [H1 ->]. f_equal. destruct (Z.ltb_spec t u); lia.
Qed.
Lemma identity_late x y : (tf_time y < tf_time x)%Z -> let e := set_identity pone x in tf_mul mul e y <> y /\ tf_mul mul y e <> y.
Proof. intros Ht e. destruct (identity_neutral x y) as [H1 H2]. split; intros H; [apply H1 in H|apply H2 in H]; lia. Qed.
Lemma identity_covariance (cadd : C -> C -> C) x y : (forall u v, mul u v = Twc (pmul (tw_pose u) (tw_pose v)) (cadd (tw_cov u) (tw_cov v))) ->
  cadd (tw_cov (tf_tr x)) (tw_cov (tf_tr y)) <> tw_cov (tf_tr y) -> tf_mul mul (set_identity pone x) y <> y.
Proof. intros Hm Hc H. apply (proj1 (identity_neutral x y)) in H as [_ H]. rewrite Hm in H. apply (f_equal tw_cov) in H. by cbn in H. Qed.

Context {D : Type} (d0 : D).
Lemma edge_read one (s : gst D (tf (twc P C))) a b p : reachable d0 (tf_inverse inv) s -> get_edge_property s a b = Ret p -> get_transform one mul s a b = Ret p.
Proof.
  intros Hs Hp. assert (He : exists e, get_edge s a b = Ret e). { unfold get_edge_property in Hp. destruct (get_edge s a b) as [e| | |]; [by exists e|done..]. }
  destruct He as [e He]. destruct (edge_transforms d0 one mul inv s a b e Hs He) as (q & Hq & Ht & _). congruence.
Qed.
Lemma identity_edge one (s s' : gst D (tf (twc P C))) a b p ev : group pone pmul pinv -> acts_on_poses pmul pinv mul inv ->
  reachable d0 (tf_inverse inv) s -> get_transform one mul s a b = Ret p -> contains_edge s a b = Ret true ->
  update_transform inv a b (set_identity pone p) s = (s', ev, Ret tt) ->
  exists q q', get_transform one mul s' a b = Ret q /\ get_transform one mul s' b a = Ret q' /\
    tf_pose q = pone /\ tf_pose q' = pone /\ tf_time q = tf_time p /\ tf_time q' = tf_time p /\ tw_cov (tf_tr q) = tw_cov (tf_tr p).
Proof.
  intros Hg Ha Hs Hp Hc Hu. pose proof (reachable_wf d0 _ s Hs) as Hwf. set (x := set_identity pone p) in *.
  destruct (store_exists (tf_inverse inv) s Hwf) as [st Ho]. pose proof (observes_dgrepr (tf_inverse inv) _ _ Hwf Ho) as Hr.
  assert (Hst : gstep d0 (tf_inverse inv) (fun _ _ _ l => l) (call_of (SSetProp a b x)) s = (s', ev, Ret tt)) by exact Hu.
  destruct (sop_sim d0 (tf_inverse inv) _ (SSetProp a b x) s st s' ev (Ret tt) Hwf Hr I Hst) as [[_ Hr'] _].
  assert (Hs' : reachable d0 (tf_inverse inv) s') by (eapply (reachable_step d0 (tf_inverse inv)); [exact Hs| |exact Hst|done]; done).
  pose proof (dgrepr_observes (tf_inverse inv) s' _ (reachable_wf d0 _ s' Hs') Hr') as Ho'.
  rewrite (ob_contains_edge _ _ Ho) in Hc. destruct (decide (known st a)) as [Hka|]; [|done]. destruct (decide (known st b)) as [Hkb|]; [|done].
  injection Hc as [p0 Hp0]%bool_decide_eq_true. 
  assert (Hsp : (spec_step d0 (tf_inverse inv) (SSetProp a b x) st).1 = Store (st_frames st) (<[(a, b) := x]> (<[(b, a) := tf_inverse inv x]> (st_edges st)))).
  { cbn [spec_step]. destruct (decide (known st a)); [|done]. destruct (decide (known st b)); [|done]. by rewrite Hp0. }
  rewrite Hsp in Ho'.
  assert (Hab : a <> b).
  { intros <-. apply (run_noself_end d0 _ s Hs a). rewrite (ob_contains_edge _ _ Ho), decide_True, decide_True by done. f_equal. apply bool_decide_eq_true. by eexists. }
  exists x, (tf_inverse inv x). split; [|split].
  - apply edge_read; [done|]. rewrite (ob_edge _ _ Ho'). do 2 (rewrite decide_True by done). cbn [st_edges]. by rewrite lookup_insert.
  - apply edge_read; [done|]. rewrite (ob_edge _ _ Ho'). do 2 (rewrite decide_True by done). cbn [st_edges].
    rewrite lookup_insert_ne by congruence. by rewrite lookup_insert.
  - destruct (identity_pose p x Hg Ha) as (H1 & _ & _ & H4). by split_and!.
Qed.

(** Paths *)
Lemma pose_product `{!EqDecision P} (l : list (twc P C)) : group pone pmul pinv -> acts_on_poses pmul pinv mul inv -> forall acc,
  tw_pose (foldl mul acc l) = foldl pmul (tw_pose acc) (filter (fun q => q <> pone) (tw_pose <$> l)).
Proof.
  intros Hg Ha. induction l as [|x l IH]; intros acc; [done|]. cbn [foldl fmap list_fmap]. rewrite IH, (proj1 Ha), filter_cons. case_decide as Hd.
  - done.
  - f_equal. destruct (decide (tw_pose x = pone)) as [->|]; [apply (gr_one_r _ _ _ Hg)|done].
Qed.
Lemma identity_path `{!EqDecision P} one (s : gst D (tf (twc P C))) a b p : group pone pmul pinv -> acts_on_poses pmul pinv mul inv -> tw_pose one = pone ->
  reachable d0 (tf_inverse inv) s -> contains_frame s a = true -> contains_frame s b = true -> get_transform one mul s a b = Ret p ->
  exists l, route (joined s) a b l /\
    tf_pose p = foldl pmul pone (filter (fun q => q <> pone) (zip_with (fun u v => tw_pose (edge_tf one s u v)) l (tail l))).
Proof.
  intros Hg Ha Ho Hs Hfa Hfb Hp. assert (Hfm : forall l, tw_pose <$> zip_with (edge_tf one s) l (tail l) = zip_with (fun u v => tw_pose (edge_tf one s u v)) l (tail l)).
  { intros l. apply fmap_zip_with. }
  destruct (proj1 (get_transform_composes d0 one mul inv s a b Hs Hfa Hfb) p Hp) as [[Hj He]|[_ (l & [Hl _] & Ht)]].
  - exists [a; b]. split; [split; [done|split; [done|by split; [|split]]]|]. rewrite <- Hfm. rewrite <- Ho at 1. rewrite <- pose_product by done.
    cbn. rewrite (proj1 Ha), Ho, (gr_one_l _ _ _ Hg). unfold tf_pose, edge_tf. by rewrite He.
  - exists l. split; [done|]. rewrite <- Hfm. rewrite <- Ho at 1. rewrite <- pose_product by done. unfold tf_pose. rewrite Ht. done.
Qed.
End identity.
