(** Proofs about products and inverses of transforms with time. *)
From stdpp Require Import prelude.
From Coq Require Import ZArith.
From Verif Require Import TransformModel SpecTransform.

Section algebra.
Context {T : Type} (one : T) (mul : T -> T -> T) (inv : T -> T).
Hypothesis Hg : group one mul inv.
Implicit Types x y z : tf T.

Lemma tf_ext x y : tf_time x = tf_time y -> tf_tr x = tf_tr y -> x = y.
Proof. destruct x, y. cbn. by intros -> ->. Qed.
Lemma time_max x y : tf_time (tf_mul mul x y) = Z.max (tf_time x) (tf_time y).
Proof. unfold tf_mul. cbn. destruct (Z.ltb_spec (tf_time y) (tf_time x)); lia. Qed.
Lemma inv_unique a b : mul a b = one -> b = inv a.
Proof. intros H. rewrite <- (gr_one_l _ _ _ Hg b), <- (gr_inv_l _ _ _ Hg a), <- (gr_assoc _ _ _ Hg), H. apply (gr_one_r _ _ _ Hg). Qed.

Lemma tf_assoc x y z : tf_mul mul x (tf_mul mul y z) = tf_mul mul (tf_mul mul x y) z.
Proof. apply tf_ext; [rewrite !time_max; lia|]. cbn. apply (gr_assoc _ _ _ Hg). Qed.
Lemma tf_inverse_mul x y : tf_inverse inv (tf_mul mul x y) = tf_mul mul (tf_inverse inv y) (tf_inverse inv x).
Proof.
  apply tf_ext.
  - rewrite time_max. cbn [tf_inverse tf_time]. change (tf_time (tf_inverse inv y)) with (tf_time y). change (tf_time (tf_inverse inv x)) with (tf_time x).
    change (tf_time (tf_mul mul x y) = Z.max (tf_time y) (tf_time x)). rewrite time_max. lia.
  - cbn. symmetry. apply inv_unique.
    rewrite (gr_assoc _ _ _ Hg), <- (gr_assoc _ _ _ Hg (tf_tr x)), (gr_inv_r _ _ _ Hg), (gr_one_r _ _ _ Hg). apply (gr_inv_r _ _ _ Hg).
Qed.
Lemma tf_inverse_twice x : tf_inverse inv (tf_inverse inv x) = x.
Proof. apply tf_ext; [done|]. cbn. symmetry. apply inv_unique. apply (gr_inv_l _ _ _ Hg). Qed.
Lemma tf_inverse_product x : tf_mul mul x (tf_inverse inv x) = Tf (tf_time x) one /\ tf_mul mul (tf_inverse inv x) x = Tf (tf_time x) one.
Proof.
  split; apply tf_ext; try (rewrite time_max; cbn; lia); cbn; [apply (gr_inv_r _ _ _ Hg)|apply (gr_inv_l _ _ _ Hg)].
Qed.
Lemma tf_unit t x : (tf_mul mul (Tf t one) x = x <-> (t <= tf_time x)%Z) /\ (tf_mul mul x (Tf t one) = x <-> (t <= tf_time x)%Z).
Proof.
  split; split.
  - intros H%(f_equal tf_time). rewrite time_max in H. cbn in H. lia.
  - intros H. apply tf_ext; [rewrite time_max; cbn; lia|apply (gr_one_l _ _ _ Hg)].
  - intros H%(f_equal tf_time). rewrite time_max in H. cbn in H. lia.
  - intros H. apply tf_ext; [rewrite time_max; cbn; lia|apply (gr_one_r _ _ _ Hg)].
Qed.
(** Undoing a product: the transform comes back, the time does not when the other was newer. *)
Lemma tf_undo x y : tf_mul mul (tf_inverse inv x) (tf_mul mul x y) = Tf (Z.max (tf_time x) (tf_time y)) (tf_tr y).
Proof.
  apply tf_ext.
  - rewrite !time_max. cbn. lia.
  - cbn. by rewrite (gr_assoc _ _ _ Hg), (gr_inv_l _ _ _ Hg), (gr_one_l _ _ _ Hg).
Qed.
Lemma tf_undo_late x y : (tf_time y < tf_time x)%Z -> tf_mul mul (tf_inverse inv x) (tf_mul mul x y) <> y.
Proof. intros Ht H. rewrite tf_undo in H. apply (f_equal tf_time) in H. cbn in H. lia. Qed.
End algebra.
