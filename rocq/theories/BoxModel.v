(** Model of AlignedBoundingBox (/repo/src/items/AlignedBoundingBox.cpp) with the operations of Eigen::AlignedBox it
    uses, and of SpatialItem (/repo/src/items/SpatialItem.hpp).  Executable definitions only. *)
From stdpp Require Import prelude.
From Coq Require Import QArith.
From Verif Require Import Outcome.

(* The three coordinates of Eigen::Vector3d, /repo/src/items/AlignedBoundingBox.hpp:48. *)
Inductive axis := AX | AY | AZ.
(* Eigen::Vector3d.  Every finite double is a rational number; NaN and infinities are not modelled, and sums are exact
   (rounding is not modelled).  /repo/src/items/AlignedBoundingBox.hpp:48. *)
Definition vec := axis -> Q.
(* Eigen::AlignedBox<double,3>: corners m_min and m_max.  /repo/src/items/AlignedBoundingBox.hpp:43. *)
Record box := Box { bmin : vec; bmax : vec }.

(* std::min and std::max on coordinates, used by cwiseMin and cwiseMax of Eigen inside AlignedBox::extend and
   AlignedBox::intersection.  /repo/src/items/AlignedBoundingBox.cpp:46, 51, 82. *)
Definition qmin (x y : Q) : Q := if Qle_bool x y then x else y.
Definition qmax (x y : Q) : Q := if Qle_bool x y then y else x.
(* The test on all three coordinates, Eigen's (...).all().  /repo/src/items/AlignedBoundingBox.cpp:58, 63. *)
Definition on_all (f : axis -> bool) : bool := f AX && f AY && f AZ.
(* (...).any().  /repo/src/items/AlignedBoundingBox.cpp:91 (isEmpty). *)
Definition on_any (f : axis -> bool) : bool := f AX || f AY || f AZ.

(* AlignedBoundingBox::clear, /repo/src/items/AlignedBoundingBox.cpp:99-102: AlignedBox::setEmpty sets m_min to the
   highest and m_max to the lowest finite double; [big] is the highest. *)
Definition box_clear (big : Q) : box := Box (fun _ => big) (fun _ => - big)%Q.
(* AlignedBox::isEmpty, used in /repo/src/items/AlignedBoundingBox.cpp:91: m_min > m_max in some coordinate. *)
Definition box_is_empty (b : box) : bool := on_any (fun k => negb (Qle_bool (bmin b k) (bmax b k))).
(* AlignedBoundingBox::extend(bv), /repo/src/items/AlignedBoundingBox.cpp:42-47. *)
Definition box_extend (a b : box) : box :=
  Box (fun k => qmin (bmin a k) (bmin b k)) (fun k => qmax (bmax a k) (bmax b k)).
(* AlignedBoundingBox::extend(point), /repo/src/items/AlignedBoundingBox.cpp:49-52. *)
Definition box_extend_point (a : box) (p : vec) : box :=
  Box (fun k => qmin (bmin a k) (p k)) (fun k => qmax (bmax a k) (p k)).
(* AlignedBoundingBox::contains(bv), /repo/src/items/AlignedBoundingBox.cpp:54-59. *)
Definition box_contains (a b : box) : bool :=
  on_all (fun k => Qle_bool (bmin a k) (bmin b k)) && on_all (fun k => Qle_bool (bmax b k) (bmax a k)).
(* AlignedBoundingBox::contains(point), /repo/src/items/AlignedBoundingBox.cpp:61-64. *)
Definition box_contains_point (a : box) (p : vec) : bool :=
  on_all (fun k => Qle_bool (bmin a k) (p k)) && on_all (fun k => Qle_bool (p k) (bmax a k)).
(* AlignedBoundingBox::intersection, /repo/src/items/AlignedBoundingBox.cpp:78-84. *)
Definition box_intersection (a b : box) : box :=
  Box (fun k => qmax (bmin a k) (bmin b k)) (fun k => qmin (bmax a k) (bmax b k)).
(* AlignedBoundingBox::intersects, /repo/src/items/AlignedBoundingBox.cpp:86-92: computes the intersection and then asks
   whether the argument is empty. *)
Definition box_intersects (a b : box) : bool :=
  let _ := box_intersection a b in negb (box_is_empty b).

(* AlignedBoundingBox::center, /repo/src/items/AlignedBoundingBox.cpp:94-97: (m_min + m_max) / 2. *)
Definition box_center (a : box) : vec := fun k => ((bmin a k + bmax a k) / 2)%Q.

(* Gap between two intervals in one coordinate as computed by AlignedBox::squaredExteriorDistance, used in
   /repo/src/items/AlignedBoundingBox.cpp:66-76. *)
Definition gap (lo hi lo' hi' : Q) : Q :=
  if negb (Qle_bool lo hi') then (lo - hi')%Q else if negb (Qle_bool lo' hi) then (lo' - hi)%Q else 0%Q.
(* Sum of the squares of three numbers, same lines. *)
Definition sum_sq (f : axis -> Q) : Q := (f AX * f AX + f AY * f AY + f AZ * f AZ)%Q.
(* AlignedBoundingBox::exteriorDistance(bv), /repo/src/items/AlignedBoundingBox.cpp:66-71; the square of the result, the
   final square root is not modelled. *)
Definition box_distance_sq (a b : box) : Q := sum_sq (fun k => gap (bmin a k) (bmax a k) (bmin b k) (bmax b k)).
(* AlignedBoundingBox::exteriorDistance(point), /repo/src/items/AlignedBoundingBox.cpp:73-76; squared. *)
Definition box_distance_point_sq (a : box) (p : vec) : Q := sum_sq (fun k => gap (bmin a k) (bmax a k) (p k) (p k)).

(** SpatialItem: the member [boundary] is a shared_ptr, [None] stands for NULL. *)

(* SpatialItem::checkBoundingVolume, /repo/src/items/SpatialItem.hpp:126-130, followed by the use of the boundary. *)
Definition with_boundary {A} (me : option box) (k : box -> outcome A) : outcome A :=
  match me with None => Throw XRuntime | Some a => k a end.
(* The boundary of the other item, whose NULL pointer is dereferenced after the dynamic_pointer_cast without a test:
   aligned_box->box in /repo/src/items/AlignedBoundingBox.cpp:46, 58, 70, 82, 91. *)
Definition deref_other {A} (other : option box) (k : box -> outcome A) : outcome A :=
  match other with None => UB | Some b => k b end.
(* SpatialItem::extendBoundary(point), /repo/src/items/SpatialItem.hpp:66-70; new boundary. *)
Definition si_extend_point (me : option box) (p : vec) : outcome box :=
  with_boundary me (fun a => Ret (box_extend_point a p)).
(* SpatialItem::extendBoundary(item), /repo/src/items/SpatialItem.hpp:72-77. *)
Definition si_extend (me other : option box) : outcome box :=
  with_boundary me (fun a => deref_other other (fun b => Ret (box_extend a b))).
(* SpatialItem::intersects, /repo/src/items/SpatialItem.hpp:79-84. *)
Definition si_intersects (me other : option box) : outcome bool :=
  with_boundary me (fun a => deref_other other (fun b => Ret (box_intersects a b))).
(* SpatialItem::intersection, /repo/src/items/SpatialItem.hpp:86-91. *)
Definition si_intersection (me other : option box) : outcome box :=
  with_boundary me (fun a => deref_other other (fun b => Ret (box_intersection a b))).
(* SpatialItem::contains(point), /repo/src/items/SpatialItem.hpp:93-97. *)
Definition si_contains_point (me : option box) (p : vec) : outcome bool :=
  with_boundary me (fun a => Ret (box_contains_point a p)).
(* SpatialItem::contains(item), /repo/src/items/SpatialItem.hpp:99-104. *)
Definition si_contains (me other : option box) : outcome bool :=
  with_boundary me (fun a => deref_other other (fun b => Ret (box_contains a b))).
(* SpatialItem::exteriorDistance(point), /repo/src/items/SpatialItem.hpp:106-110; squared. *)
Definition si_distance_point_sq (me : option box) (p : vec) : outcome Q :=
  with_boundary me (fun a => Ret (box_distance_point_sq a p)).
(* SpatialItem::exteriorDistance(item), /repo/src/items/SpatialItem.hpp:112-117; squared. *)
Definition si_distance_sq (me other : option box) : outcome Q :=
  with_boundary me (fun a => deref_other other (fun b => Ret (box_distance_sq a b))).
(* SpatialItem::centerOfBoundary, /repo/src/items/SpatialItem.hpp:119-123. *)
Definition si_center (me : option box) : outcome vec := with_boundary me (fun a => Ret (box_center a)).
