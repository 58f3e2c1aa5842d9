(** Model of Transform::setIdentity and of the parts of a transform it touches.  Executable definitions only. *)
From stdpp Require Import prelude.
From Verif Require Import TransformModel.

(* base::TransformWithCovariance: translation and orientation together as the pose [P], and the covariance [C].  Simplification: the class is not
   part of the repository; the pose is valid or not as its value says.  /repo/src/items/Transform.hpp:47. *)
Record twc (P C : Type) := Twc { tw_pose : P; tw_cov : C }.
Global Arguments Twc {_ _} _ _.
Global Arguments tw_pose {_ _} _.
Global Arguments tw_cov {_ _} _.

(* Transform::setIdentity: translation zero, orientation identity ([one]); the other members are not written.
   /repo/src/items/Transform.hpp:115-119. *)
Definition set_identity {P C : Type} (one : P) (x : tf (twc P C)) : tf (twc P C) := Tf (tf_time x) (Twc one (tw_cov (tf_tr x))).
