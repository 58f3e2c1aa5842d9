(** Property C109: Transform::setIdentity. *)
From stdpp Require Import prelude strings gmap.
From Coq Require Import ZArith.
From Verif Require Import Outcome Digraph Bfs TreeView GraphModel GraphOps SpecObs SpecWalk SpecSearch TransformModel SpecTransform IdentityModel SpecIdentity IdentityThms
  ExGraph ExTransform ExIdentity.

(* The pose becomes the identity: composing with it, on either side, keeps the pose of the other transform; so does its inverse. *)
Theorem C109_pose {P C : Type} (pone : P) (pmul : P -> P -> P) (pinv : P -> P) (mul : twc P C -> twc P C -> twc P C) (inv : twc P C -> twc P C) (x y : tf (twc P C)) :
  group pone pmul pinv -> acts_on_poses pmul pinv mul inv ->
  let e := set_identity pone x in
  tf_pose e = pone /\ tf_pose (tf_mul mul e y) = tf_pose y /\ tf_pose (tf_mul mul y e) = tf_pose y /\ tf_pose (tf_inverse inv e) = pone.
Proof. exact (identity_pose pone pmul pinv mul inv x y). Qed.
Print Assumptions C109_pose.

(* Time and covariance stay; a second call does nothing, nor does a call on a transform that has the identity pose. *)
Theorem C109_keeps {P C : Type} (pone : P) (x : tf (twc P C)) : let e := set_identity pone x in
  tf_time e = tf_time x /\ tw_cov (tf_tr e) = tw_cov (tf_tr x) /\ set_identity pone e = e /\ (tf_pose x = pone -> e = x).
Proof. exact (identity_keeps pone x). Qed.
Print Assumptions C109_keeps.

(* Exactly when it is neutral for another transform: it is not newer, and its old covariance changes nothing. *)
Theorem C109_neutral {P C : Type} (pone : P) (mul : twc P C -> twc P C -> twc P C) (x y : tf (twc P C)) : let e := set_identity pone x in
  (tf_mul mul e y = y <-> (tf_time x <= tf_time y)%Z /\ mul (Twc pone (tw_cov (tf_tr x))) (tf_tr y) = tf_tr y) /\
  (tf_mul mul y e = y <-> (tf_time x <= tf_time y)%Z /\ mul (tf_tr y) (Twc pone (tw_cov (tf_tr x))) = tf_tr y).
Proof. exact (identity_neutral pone mul x y). Qed.
Print Assumptions C109_neutral.

(* Refuted: composing with it gives the other transform.  Its old time makes an older transform newer. *)
Theorem C109_time_refuted {P C : Type} (pone : P) (mul : twc P C -> twc P C -> twc P C) (x y : tf (twc P C)) :
  (tf_time y < tf_time x)%Z -> let e := set_identity pone x in tf_mul mul e y <> y /\ tf_mul mul y e <> y.
Proof. exact (identity_late pone mul x y). Qed.
Print Assumptions C109_time_refuted.

(* Its old covariance is passed on. *)
Theorem C109_covariance_refuted {P C : Type} (pone : P) (pmul : P -> P -> P) (mul : twc P C -> twc P C -> twc P C) (cadd : C -> C -> C) (x y : tf (twc P C)) :
  (forall u v, mul u v = Twc (pmul (tw_pose u) (tw_pose v)) (cadd (tw_cov u) (tw_cov v))) ->
  cadd (tw_cov (tf_tr x)) (tw_cov (tf_tr y)) <> tw_cov (tf_tr y) -> tf_mul mul (set_identity pone x) y <> y.
Proof. exact (identity_covariance pone pmul mul cadd x y). Qed.
Print Assumptions C109_covariance_refuted.

Example C109_case : let x := Tf 11 (Twc (true, 3%Z) 5%Z) in let y := Tf 9 (Twc (false, 2%Z) 7%Z) in
  group mot_one mot_mul mot_inv /\ acts_on_poses mot_mul mot_inv cmul cinv /\ tf_pose x <> mot_one /\ (tf_time y < tf_time x)%Z /\
  (forall u v, cmul u v = Twc (mot_mul (tw_pose u) (tw_pose v)) (tw_cov u + tw_cov v)%Z) /\ (tw_cov (tf_tr x) + tw_cov (tf_tr y))%Z <> tw_cov (tf_tr y) /\
  tf_mul cmul (set_identity mot_one x) y = Tf 11 (Twc (false, 2%Z) 12%Z).
Proof. split; [exact mot_group|]. split; [exact cmul_acts|]. by split_and!. Qed.

(* In a graph: after an edge was updated with the transform it had, made identity, both directions have the identity pose and the old time. *)
Theorem C109_edge {D P C : Type} (d0 : D) (pone : P) (pmul : P -> P -> P) (pinv : P -> P) (mul : twc P C -> twc P C -> twc P C) (inv : twc P C -> twc P C)
    (one : twc P C) (s s' : gst D (tf (twc P C))) a b p ev :
  group pone pmul pinv -> acts_on_poses pmul pinv mul inv ->
  reachable d0 (tf_inverse inv) s -> get_transform one mul s a b = Ret p -> contains_edge s a b = Ret true ->
  update_transform inv a b (set_identity pone p) s = (s', ev, Ret tt) ->
  exists q q', get_transform one mul s' a b = Ret q /\ get_transform one mul s' b a = Ret q' /\
    tf_pose q = pone /\ tf_pose q' = pone /\ tf_time q = tf_time p /\ tf_time q' = tf_time p /\ tw_cov (tf_tr q) = tw_cov (tf_tr p).
Proof. exact (identity_edge pone pmul pinv mul inv d0 one s s' a b p ev). Qed.
Print Assumptions C109_edge.

Example C109_case_edge : let one := Twc mot_one 0%Z in let p := Tf 11 (Twc (true, 3%Z) 5%Z) in let q := update_transform cinv fa fb (set_identity mot_one p) cstate in
  reachable 0 (tf_inverse cinv) cstate /\ get_transform one cmul cstate fa fb = Ret p /\ contains_edge cstate fa fb = Ret true /\ snd q = Ret tt /\
  get_transform one cmul (fst (fst q)) fa fc = Ret (Tf 0 (Twc (false, 2%Z) 12%Z)).
Proof. cbv zeta. split; [exact cstate_reachable|]. split_and!; by vm_compute. Qed.

(* Along paths: the pose between two frames is the product of the poses of the edges of a route, in order, and edges with the identity pose may be left out. *)
Theorem C109_path {D P C : Type} {HP : EqDecision P} (d0 : D) (pone : P) (pmul : P -> P -> P) (pinv : P -> P) (mul : twc P C -> twc P C -> twc P C)
    (inv : twc P C -> twc P C) (one : twc P C) (s : gst D (tf (twc P C))) a b p :
  group pone pmul pinv -> acts_on_poses pmul pinv mul inv -> tw_pose one = pone ->
  reachable d0 (tf_inverse inv) s -> contains_frame s a = true -> contains_frame s b = true -> get_transform one mul s a b = Ret p ->
  exists l, route (joined s) a b l /\
    tf_pose p = foldl pmul pone (filter (fun q => q <> pone) (zip_with (fun u v => tw_pose (edge_tf one s u v)) l (tail l))).
Proof. exact (identity_path pone pmul pinv mul inv d0 one s a b p). Qed.
Print Assumptions C109_path.

Example C109_case_path : let one := Twc mot_one 0%Z in
  tw_pose one = mot_one /\ reachable 0 (tf_inverse cinv) cstate /\ contains_frame cstate fa = true /\ contains_frame cstate fc = true /\
  get_transform one cmul cstate fa fc = Ret (Tf 0 (Twc (true, 1%Z) 12%Z)).
Proof. cbv zeta. split; [done|]. split; [exact cstate_reachable|]. split_and!; by vm_compute. Qed.
