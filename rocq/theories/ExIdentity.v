(** Example: a graph whose transforms have a pose and a covariance. *)
From stdpp Require Import prelude strings gmap.
From Coq Require Import ZArith.
From Verif Require Import Outcome Digraph Bfs TreeView GraphModel GraphOps SpecObs TransformModel SpecTransform IdentityModel SpecIdentity ExGraph ExTransform.

(* Example for /repo/src/items/Transform.hpp:97: poses are composed, covariances added up. *)
Definition cmul (x y : twc mot Z) : twc mot Z := Twc (mot_mul (tw_pose x) (tw_pose y)) (tw_cov x + tw_cov y)%Z.
(* Example for /repo/src/items/Transform.hpp:102: the pose is inverted, the covariance kept. *)
Definition cinv (x : twc mot Z) : twc mot Z := Twc (mot_inv (tw_pose x)) (tw_cov x).
Lemma cmul_acts : acts_on_poses mot_mul mot_inv cmul cinv.
Proof. done. Qed.
(* Example client of /repo/src/graph/TransformGraph.hpp: three frames in a row. *)
Definition cops : list (gop nat (tf (twc mot Z))) := [OAddEdge fa fb (Tf 11 (Twc (true, 3%Z) 5%Z)); OAddEdge fb fc (Tf 12 (Twc (false, 2%Z) 7%Z))].
(* Same client: final state. *)
Definition cstate : gst nat (tf (twc mot Z)) := fst (fst (run 0 (tf_inverse cinv) ((fun op => (xord, op)) <$> cops) gst0)).
Lemma cstate_reachable : reachable 0 (tf_inverse cinv) cstate.
Proof.
  unfold reachable, cstate. assert (Hr : snd (run 0 (tf_inverse cinv) ((fun op => (xord, op)) <$> cops) gst0) = Ret tt) by (by vm_compute).
  destruct (run 0 (tf_inverse cinv) ((fun op => (xord, op)) <$> cops) gst0) as [[s ev] r] eqn:H.
  exists ((fun op => (xord, op)) <$> cops), ev, r. split; [by repeat constructor|]. split; [done|]. left. exact Hr.
Qed.
