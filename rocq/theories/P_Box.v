(** Properties of bounding boxes: C55, C56, C65-C67. *)
From stdpp Require Import prelude.
From Coq Require Import QArith Lqa.
From Verif Require Import Outcome BoxModel SpecBox BoxThms ExBox.

(** ** C55: bounding box algebra *)
(* Boxes made by clear and extend, and given non-empty boxes. *)
Theorem C55_extend_smallest_partial big a b : (0 < big)%Q -> built big a -> built big b ->
  hull (fun p => inside a p \/ inside b p) (box_extend a b).
Proof. exact (extend_built big a b). Qed.
Print Assumptions C55_extend_smallest_partial.

Theorem C55_extend_point_smallest_partial big a p : (0 < big)%Q -> built big a -> finite_vec big p ->
  hull (fun q => inside a q \/ q = p) (box_extend_point a p).
Proof. exact (extend_point_built big a p). Qed.
Print Assumptions C55_extend_point_smallest_partial.

Example C55_case_extend : built 100 unit_box /\ built 100 (box_clear 100) /\ finite_vec 100 (pt 7 (-3) 2) /\
  inside (box_extend_point (box_clear 100) (pt 7 (-3) 2)) (pt 7 (-3) 2) /\
  ~ inside (box_extend_point (box_clear 100) (pt 7 (-3) 2)) (pt 7 (-3) 3) /\
  inside (box_extend unit_box far_box) (pt 3 0 2).
Proof.
  split; [apply built_given; [split; intros []; cbn; lra|exists (pt 0 0 0); intros []; cbn; lra]|]. split; [apply built_clear|].
  split; [intros []; cbn; lra|]. rewrite <- !contains_point_inside. split; [done|]. split; [done|]. done.
Qed.

(* Missing in the two theorems above: an empty box that came out of an intersection.  There the claim is false. *)
Theorem C55_extend_intersection_refuted : exists a b p, built 100 a /\ built 100 b /\ finite_vec 100 p /\
  ~ inhabited_box (box_intersection a b) /\
  ~ hull (fun q => inside (box_intersection a b) q \/ q = p) (box_extend_point (box_intersection a b) p).
Proof.
  exists unit_box, far_box, (pt 2 0 0).
  assert (Hn : ~ inhabited_box (box_intersection unit_box far_box)).
  { intros H%not_empty_inhabited. by vm_compute in H. }
  split; [apply built_given; [split; intros []; cbn; lra|exists (pt 0 0 0); intros []; cbn; lra]|].
  split; [apply built_given; [split; intros []; cbn; lra|exists (pt 4 0 0); intros []; cbn; lra]|].
  split; [intros []; cbn; lra|]. split; [done|]. intros [_ H].
  assert (Hc : inside (Box (pt 2 0 0) (pt 2 0 0)) (pt 2 (1#2) 0)).
  { apply H; [intros p [Hp| ->]; [destruct Hn; by exists p|apply point_box]|]. by apply contains_point_inside. }
  apply contains_point_inside in Hc. by vm_compute in Hc.
Qed.
Print Assumptions C55_extend_intersection_refuted.

Theorem C55_contains_point_exact a p : box_contains_point a p = true <-> inside a p.
Proof. exact (contains_point_inside a p). Qed.
Print Assumptions C55_contains_point_exact.

Theorem C55_contains_box_exact a b : inhabited_box b -> box_contains a b = true <-> forall p, inside b p -> inside a p.
Proof. exact (contains_box_inside a b). Qed.
Print Assumptions C55_contains_box_exact.

Theorem C55_intersection_exact a b p : inside (box_intersection a b) p <-> inside a p /\ inside b p.
Proof. exact (intersection_inside a b p). Qed.
Print Assumptions C55_intersection_exact.

Example C55_case : inhabited_box unit_box /\ box_contains (box_extend unit_box far_box) unit_box = true /\
  box_contains unit_box (box_extend unit_box far_box) = false /\
  box_contains_point unit_box (pt (1#2) 1 0) = true /\ box_contains_point unit_box (pt (3#2) 1 0) = false.
Proof. split; [exists (pt 0 0 0); by apply contains_point_inside|]. by vm_compute. Qed.

(** ** C56: intersects tells whether two boxes share a point *)
(* Only one direction holds: boxes with a common point intersect. *)
Theorem C56_common_point_intersects_partial a b : (exists p, inside a p /\ inside b p) -> box_intersects a b = true.
Proof. exact (fun '(ex_intro _ p (conj _ Hp)) => proj2 (intersects_eq a b) (ex_intro _ p Hp)). Qed.
Print Assumptions C56_common_point_intersects_partial.

(* The other direction is false for every pair of disjoint boxes of which the second is not empty: the answer only
   depends on the second box. *)
Theorem C56_intersects_refuted a b : inhabited_box b -> ~ (exists p, inside a p /\ inside b p) ->
  box_intersects a b = true /\ box_is_empty (box_intersection a b) = true.
Proof.
  exact (fun Hb Hn => conj (proj2 (intersects_eq a b) Hb)
           (not_false_is_true _ (fun H => Hn (proj1 (intersection_empty a b) H)))).
Qed.
Print Assumptions C56_intersects_refuted.

Example C56_case : inhabited_box far_box /\ ~ (exists p, inside unit_box p /\ inside far_box p) /\
  (exists p, inside unit_box p /\ inside (box_extend unit_box far_box) p).
Proof.
  split; [exists (pt 4 0 0); by apply contains_point_inside|]. split.
  - intros (p & Hp & Hq). specialize (Hp AX). specialize (Hq AX). cbn in *. lra.
  - exists (pt 0 0 0). split; by apply contains_point_inside.
Qed.

(** ** C65: exteriorDistance is the distance of the closest points *)
Theorem C65_distance_is_minimal a b : inhabited_box a -> inhabited_box b ->
  (forall p q, inside a p -> inside b q -> (box_distance_sq a b <= distance_sq p q)%Q) /\
  (exists p q, inside a p /\ inside b q /\ (box_distance_sq a b == distance_sq p q)%Q) /\
  ((box_distance_sq a b == 0)%Q <-> exists p, inside a p /\ inside b p).
Proof. exact (fun Ha Hb => conj (distance_min a b) (conj (distance_attained a b Ha Hb) (distance_zero a b Ha Hb))). Qed.
Print Assumptions C65_distance_is_minimal.

Theorem C65_point_distance_is_minimal a p : inhabited_box a ->
  (forall q, inside a q -> (box_distance_point_sq a p <= distance_sq q p)%Q) /\
  (exists q, inside a q /\ (box_distance_point_sq a p == distance_sq q p)%Q) /\
  ((box_distance_point_sq a p == 0)%Q <-> inside a p).
Proof. exact (distance_point a p). Qed.
Print Assumptions C65_point_distance_is_minimal.

Example C65_case : inhabited_box unit_box /\ inhabited_box far_box /\ (box_distance_sq unit_box far_box == 9)%Q /\
  (box_distance_point_sq unit_box (pt 2 (-1) (1#2)) == 2)%Q.
Proof.
  split; [exists (pt 0 0 0); by apply contains_point_inside|]. split; [exists (pt 4 0 0); by apply contains_point_inside|]. by vm_compute.
Qed.

(** ** C66: the center lies in the box and is its point of symmetry *)
Theorem C66_center a : inhabited_box a -> inside a (box_center a) /\
  forall p, inside a p -> inside a (fun k => (2 * box_center a k - p k)%Q).
Proof. exact (center_inside a). Qed.
Print Assumptions C66_center.

Example C66_case : inhabited_box far_box /\ (box_center far_box AX == 9 # 2)%Q.
Proof. split; [exists (pt 4 0 0); by apply contains_point_inside|done]. Qed.

(** ** C67: a spatial item without boundary refuses boundary operations *)
(* Own boundary missing: every operation throws.  Both present: every operation is that of the boxes.  Missing: the
   other item has no boundary, see below. *)
Theorem C67_boundary_checked_partial me other p :
  (me = None -> si_extend_point me p = Throw XRuntime /\ si_extend me other = Throw XRuntime /\ si_intersects me other = Throw XRuntime /\
     si_intersection me other = Throw XRuntime /\ si_contains_point me p = Throw XRuntime /\ si_contains me other = Throw XRuntime /\
     si_distance_point_sq me p = Throw XRuntime /\ si_distance_sq me other = Throw XRuntime /\ si_center me = Throw XRuntime) /\
  (forall a b, me = Some a -> other = Some b ->
     (exists e, si_extend me other = Ret e /\ forall q, inside a q \/ inside b q -> inside e q) /\
     (exists i, si_intersection me other = Ret i /\ forall q, inside i q <-> inside a q /\ inside b q) /\
     (exists c, si_contains_point me p = Ret c /\ (c = true <-> inside a p)) /\
     (inhabited_box b -> exists c, si_contains me other = Ret c /\ (c = true <-> forall q, inside b q -> inside a q))).
Proof. exact (spatial_checked me other p). Qed.
Print Assumptions C67_boundary_checked_partial.

(* The boundary of the argument is dereferenced without a test. *)
Theorem C67_other_boundary_refuted a : si_extend (Some a) None = UB /\ si_intersects (Some a) None = UB /\
  si_intersection (Some a) None = UB /\ si_contains (Some a) None = UB /\ si_distance_sq (Some a) None = UB.
Proof. exact (conj eq_refl (conj eq_refl (conj eq_refl (conj eq_refl eq_refl)))). Qed.
Print Assumptions C67_other_boundary_refuted.

Example C67_case : si_contains (Some (box_extend unit_box far_box)) (Some far_box) = Ret true /\ si_contains None (Some far_box) = Throw XRuntime.
Proof. by vm_compute. Qed.
