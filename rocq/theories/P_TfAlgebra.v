(** Property C110: products and inverses of transforms with time. *)
From stdpp Require Import prelude.
From Coq Require Import ZArith.
From Verif Require Import TransformModel SpecTransform TfAlgebra ExTransform.

(* Products may be bracketed in any way. *)
Theorem C110_associative {T : Type} (one : T) (mul : T -> T -> T) (inv : T -> T) (x y z : tf T) : group one mul inv ->
  tf_mul mul x (tf_mul mul y z) = tf_mul mul (tf_mul mul x y) z.
Proof. exact (fun Hg => tf_assoc one mul inv Hg x y z). Qed.
Print Assumptions C110_associative.

(* The inverse of a product is the product of the inverses in the other order; inverting twice gives the transform back, with its time. *)
Theorem C110_inverse {T : Type} (one : T) (mul : T -> T -> T) (inv : T -> T) (x y : tf T) : group one mul inv ->
  tf_inverse inv (tf_mul mul x y) = tf_mul mul (tf_inverse inv y) (tf_inverse inv x) /\ tf_inverse inv (tf_inverse inv x) = x.
Proof. exact (fun Hg => conj (tf_inverse_mul one mul inv Hg x y) (tf_inverse_twice one mul inv Hg x)). Qed.
Print Assumptions C110_inverse.

(* A transform and its inverse give the identity with the time of the transform. *)
Theorem C110_cancel {T : Type} (one : T) (mul : T -> T -> T) (inv : T -> T) (x : tf T) : group one mul inv ->
  tf_mul mul x (tf_inverse inv x) = Tf (tf_time x) one /\ tf_mul mul (tf_inverse inv x) x = Tf (tf_time x) one.
Proof. exact (fun Hg => tf_inverse_product one mul inv Hg x). Qed.
Print Assumptions C110_cancel.

(* An identity with time t is neutral exactly for the transforms that are not older. *)
Theorem C110_unit {T : Type} (one : T) (mul : T -> T -> T) (inv : T -> T) (t : Z) (x : tf T) : group one mul inv ->
  (tf_mul mul (Tf t one) x = x <-> (t <= tf_time x)%Z) /\ (tf_mul mul x (Tf t one) = x <-> (t <= tf_time x)%Z).
Proof. exact (fun Hg => tf_unit one mul inv Hg t x). Qed.
Print Assumptions C110_unit.

(* Undoing a product with the inverse gives the other factor, with the later of the two times. *)
Theorem C110_undo_partial {T : Type} (one : T) (mul : T -> T -> T) (inv : T -> T) (x y : tf T) : group one mul inv ->
  tf_mul mul (tf_inverse inv x) (tf_mul mul x y) = Tf (Z.max (tf_time x) (tf_time y)) (tf_tr y).
Proof. exact (fun Hg => tf_undo one mul inv Hg x y). Qed.
Print Assumptions C110_undo_partial.

(* Refuted: it gives the other factor.  Not if that was the older one: transforms with time have no inverses. *)
Theorem C110_undo_refuted {T : Type} (one : T) (mul : T -> T -> T) (inv : T -> T) (x y : tf T) : group one mul inv -> (tf_time y < tf_time x)%Z ->
  tf_mul mul (tf_inverse inv x) (tf_mul mul x y) <> y.
Proof. exact (fun Hg => tf_undo_late one mul inv Hg x y). Qed.
Print Assumptions C110_undo_refuted.

Example C110_case : let x := Tf 11 (true, 3%Z) in let y := Tf 9 (false, 2%Z) in
  group mot_one mot_mul mot_inv /\ (tf_time y < tf_time x)%Z /\ tf_mul mot_mul x y <> tf_mul mot_mul y x /\
  tf_mul mot_mul x y = Tf 11 (true, 1%Z) /\ tf_mul mot_mul (tf_inverse mot_inv x) (tf_mul mot_mul x y) = Tf 11 (false, 2%Z).
Proof. split; [exact mot_group|]. by split_and!. Qed.
