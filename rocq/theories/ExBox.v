(** Boxes of the examples beside the theorems. *)
From stdpp Require Import prelude.
From Coq Require Import QArith.
From Verif Require Import BoxModel.

(* Example of Eigen::Vector3d, /repo/src/items/AlignedBoundingBox.hpp:48. *)
Definition pt (x y z : Q) : vec := fun k => match k with AX => x | AY => y | AZ => z end.
(* Example boxes, /repo/src/items/AlignedBoundingBox.hpp:47. *)
Definition unit_box : box := Box (pt 0 0 0) (pt 1 1 1).
Definition far_box : box := Box (pt 4 0 0) (pt 5 1 3).
