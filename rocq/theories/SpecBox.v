(** Specification of boxes as sets of points. *)
From stdpp Require Import prelude.
From Coq Require Import QArith.
From Verif Require Import Outcome BoxModel.

(** The point lies between the corners in every coordinate. *)
Definition inside (b : box) (p : vec) : Prop := forall k, (bmin b k <= p k)%Q /\ (p k <= bmax b k)%Q.
(** The box has a point. *)
Definition inhabited_box (b : box) : Prop := exists p, inside b p.
(** [e] is the smallest box around the set [S] of points. *)
Definition hull (S : vec -> Prop) (e : box) : Prop :=
  (forall p, S p -> inside e p) /\
  forall c, (forall p, S p -> inside c p) -> forall p, inside e p -> inside c p.
(** Coordinates that are finite doubles; [big] is the largest one. *)
Definition finite_vec (big : Q) (p : vec) : Prop := forall k, (- big <= p k)%Q /\ (p k <= big)%Q.
Definition finite_box (big : Q) (b : box) : Prop := finite_vec big (bmin b) /\ finite_vec big (bmax b).
(** Square of the distance between two points. *)
Definition distance_sq (p q : vec) : Q :=
  ((p AX - q AX) * (p AX - q AX) + (p AY - q AY) * (p AY - q AY) + (p AZ - q AZ) * (p AZ - q AZ))%Q.

(** Boxes made by clear and by extending such boxes with points and such boxes. *)
Inductive built (big : Q) : box -> Prop :=
| built_clear : built big (box_clear big)
| built_point b p : built big b -> finite_vec big p -> built big (box_extend_point b p)
| built_box a b : built big a -> built big b -> built big (box_extend a b)
| built_given b : finite_box big b -> inhabited_box b -> built big b.
