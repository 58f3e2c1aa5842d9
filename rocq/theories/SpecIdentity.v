(** Vocabulary for identity transforms. *)
From stdpp Require Import prelude.
From Verif Require Import TransformModel SpecTransform IdentityModel.

(** Composing and inverting transforms composes and inverts their poses, whatever it does to covariances. *)
Definition acts_on_poses {P C : Type} (pmul : P -> P -> P) (pinv : P -> P) (mul : twc P C -> twc P C -> twc P C) (inv : twc P C -> twc P C) : Prop :=
  (forall x y, tw_pose (mul x y) = pmul (tw_pose x) (tw_pose y)) /\ (forall x, tw_pose (inv x) = pinv (tw_pose x)).

(** The pose of a transform with time. *)
Definition tf_pose {P C : Type} (x : tf (twc P C)) : P := tw_pose (tf_tr x).
