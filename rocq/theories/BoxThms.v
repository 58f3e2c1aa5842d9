(** Proofs about boxes. *)
From stdpp Require Import prelude.
From Coq Require Import QArith Lqa.
From Verif Require Import Outcome BoxModel SpecBox.

Lemma on_all_true f : on_all f = true <-> forall k, f k = true.
Proof. unfold on_all. rewrite !andb_true_iff. split; [by intros [[? ?] ?] []|]. intros Hf. by rewrite !Hf. Qed.
Lemma on_any_true f : on_any f = true <-> exists k, f k = true.
Proof.
  unfold on_any. rewrite !orb_true_iff. split; [intros [[?|?]|?]; eauto|]. intros [[] ?]; auto.
Qed.
Lemma on_any_false f : on_any f = false <-> forall k, f k = false.
Proof.
  unfold on_any. rewrite !orb_false_iff. split; [by intros [[? ?] ?] []|]. intros Hf. by rewrite !Hf.
Qed.

Lemma qle_false x y : Qle_bool x y = false -> (y < x)%Q.
Proof. intros Hx. apply Qnot_le_lt. intros Hle%Qle_bool_iff. congruence. Qed.
Lemma qle_true x y : Qle_bool x y = true -> (x <= y)%Q.
Proof. apply Qle_bool_iff. Qed.

(* Cases of every comparison in sight. *)
Ltac qcases := unfold qmin, qmax, gap in *; repeat match goal with
  | H : context [Qle_bool ?x ?y] |- _ => let E := fresh in destruct (Qle_bool x y) eqn:E; [apply qle_true in E|apply qle_false in E]; cbn [negb] in *
  | |- context [Qle_bool ?x ?y] => let E := fresh in destruct (Qle_bool x y) eqn:E; [apply qle_true in E|apply qle_false in E]; cbn [negb] in *
  end.

Lemma contains_point_inside b p : box_contains_point b p = true <-> inside b p.
Proof.
  unfold box_contains_point, inside. rewrite andb_true_iff, !on_all_true.
  split; [intros [H1 H2] k; split; apply Qle_bool_iff; auto|]. intros H. split; intros k; apply Qle_bool_iff; apply H.
Qed.

Lemma not_empty b : box_is_empty b = false <-> forall k, (bmin b k <= bmax b k)%Q.
Proof.
  unfold box_is_empty. rewrite on_any_false. split; intros H k; specialize (H k).
  - apply Qle_bool_iff. by apply negb_false_iff.
  - apply negb_false_iff. by apply Qle_bool_iff.
Qed.
Lemma not_empty_inhabited b : box_is_empty b = false <-> inhabited_box b.
Proof.
  rewrite not_empty. split.
  - intros H. exists (bmin b). intros k. split; [lra|apply H].
  - intros [p Hp] k. destruct (Hp k). lra.
Qed.
Lemma inhabited_le b : inhabited_box b -> forall k, (bmin b k <= bmax b k)%Q.
Proof. intros [p Hp] k. destruct (Hp k). lra. Qed.

Lemma contains_box_inside a b : inhabited_box b -> box_contains a b = true <-> forall p, inside b p -> inside a p.
Proof.
  intros Hb. unfold box_contains. rewrite andb_true_iff, !on_all_true. split.
  - intros [H1 H2] p Hp k. specialize (H1 k). specialize (H2 k). apply qle_true in H1, H2. destruct (Hp k). split; lra.
  - intros H. pose proof (inhabited_le b Hb) as Hle.
    assert (H1 : inside a (bmin b)) by (apply H; intros k; specialize (Hle k); split; lra).
    assert (H2 : inside a (bmax b)) by (apply H; intros k; specialize (Hle k); split; lra).
    split; intros k; apply Qle_bool_iff; [apply H1|apply H2].
Qed.
(* Containment of boxes is containment of points in any case in one direction. *)
Lemma contains_box_points a b : box_contains a b = true -> forall p, inside b p -> inside a p.
Proof. intros H p Hp. by apply (contains_box_inside a b); [exists p| |]. Qed.

Lemma intersection_inside a b p : inside (box_intersection a b) p <-> inside a p /\ inside b p.
Proof.
  unfold inside, box_intersection. cbn. split.
  - intros H. split; intros k; specialize (H k); qcases; lra.
  - intros [H1 H2] k. specialize (H1 k). specialize (H2 k). qcases; lra.
Qed.

(** extend *)
Definition regular (big : Q) (b : box) : Prop :=
  finite_box big b /\ (inhabited_box b \/ forall k, (bmin b k == big)%Q /\ (bmax b k == - big)%Q).

Lemma clear_regular big : (0 < big)%Q -> regular big (box_clear big).
Proof. intros Hb. split; [|by right]. split; intros k; cbn; lra. Qed.

Lemma point_box (p : vec) : inside (Box p p) p.
Proof. intros k. cbn. lra. Qed.

Lemma extend_regular big a b : regular big a -> regular big b -> regular big (box_extend a b).
Proof.
  intros [[A1 A2] HA] [[B1 B2] HB]. split.
  - split; intros k; cbn; specialize (A1 k); specialize (A2 k); specialize (B1 k); specialize (B2 k); qcases; lra.
  - destruct HA as [HA|HA]; [left|destruct HB as [HB|HB]; [left|right]].
    + exists (bmin a). intros k. pose proof (inhabited_le a HA k). cbn. qcases; lra.
    + exists (bmin b). intros k. pose proof (inhabited_le b HB k). cbn. qcases; lra.
    + intros k. specialize (HA k). specialize (HB k). cbn. qcases; lra.
Qed.
Lemma point_regular big p : finite_vec big p -> regular big (Box p p).
Proof. intros Hp. split; [by split|]. left. exists p. apply point_box. Qed.
Lemma extend_point_box a p : box_extend_point a p = box_extend a (Box p p).
Proof. done. Qed.
Lemma built_regular big b : (0 < big)%Q -> built big b -> regular big b.
Proof.
  intros Hb. induction 1 as [|b p Hbt IH Hp|a b Ha IHa Hbt IHb|b Hf Hi].
  - by apply clear_regular.
  - rewrite extend_point_box. apply extend_regular; [done|]. by apply point_regular.
  - by apply extend_regular.
  - split; [done|]. by left.
Qed.

Lemma extend_hull big a b : (0 < big)%Q -> regular big a -> regular big b ->
  hull (fun p => inside a p \/ inside b p) (box_extend a b).
Proof.
  intros Hbig [[A1 A2] HA] [[B1 B2] HB]. split.
  - intros p [Hp|Hp] k; specialize (Hp k); cbn; qcases; lra.
  - intros c Hc p Hp k. specialize (Hp k). cbn in Hp. specialize (A1 k). specialize (A2 k). specialize (B1 k). specialize (B2 k).
    assert (HA' : inhabited_box a -> (bmin c k <= bmin a k)%Q /\ (bmax a k <= bmax c k)%Q /\ (bmin a k <= bmax a k)%Q).
    { intros Hi. pose proof (inhabited_le a Hi) as Hle.
      assert (H1 : inside c (bmin a)) by (apply Hc; left; intros j; specialize (Hle j); split; lra).
      assert (H2 : inside c (bmax a)) by (apply Hc; left; intros j; specialize (Hle j); split; lra).
      specialize (H1 k). specialize (H2 k). specialize (Hle k). lra. }
    assert (HB' : inhabited_box b -> (bmin c k <= bmin b k)%Q /\ (bmax b k <= bmax c k)%Q /\ (bmin b k <= bmax b k)%Q).
    { intros Hi. pose proof (inhabited_le b Hi) as Hle.
      assert (H1 : inside c (bmin b)) by (apply Hc; right; intros j; specialize (Hle j); split; lra).
      assert (H2 : inside c (bmax b)) by (apply Hc; right; intros j; specialize (Hle j); split; lra).
      specialize (H1 k). specialize (H2 k). specialize (Hle k). lra. }
    destruct HA as [HA|HA]; [apply HA' in HA|specialize (HA k)]; (destruct HB as [HB|HB]; [apply HB' in HB|specialize (HB k)]);
      qcases; lra.
Qed.

Lemma hull_ext S S' e : (forall p, S p <-> S' p) -> hull S e -> hull S' e.
Proof.
  intros HS [H1 H2]. split; [intros p Hp; by apply H1, HS|]. intros c Hc. apply H2. intros p Hp. by apply Hc, HS.
Qed.

Lemma extend_built big a b : (0 < big)%Q -> built big a -> built big b -> hull (fun p => inside a p \/ inside b p) (box_extend a b).
Proof. intros Hb Ha Hb'. apply (extend_hull big); [done| |]; by apply built_regular. Qed.

Lemma point_box_inside (p q : vec) : inside (Box p p) q <-> forall k, (q k == p k)%Q.
Proof. unfold inside. cbn. split; intros H k; specialize (H k); lra. Qed.
Lemma inside_ext b (p q : vec) : (forall k, (q k == p k)%Q) -> inside b p -> inside b q.
Proof. intros He H k. specialize (H k). specialize (He k). lra. Qed.

Lemma extend_point_built big a p : (0 < big)%Q -> built big a -> finite_vec big p ->
  hull (fun q => inside a q \/ q = p) (box_extend_point a p).
Proof.
  intros Hb Ha Hp. rewrite extend_point_box.
  destruct (extend_hull big a (Box p p) Hb (built_regular big a Hb Ha) (point_regular big p Hp)) as [H1 H2]. split.
  - intros q [Hq| ->]; apply H1; [by left|right; apply point_box].
  - intros c Hc. apply H2. intros q [Hq|Hq]; [apply Hc; by left|]. apply (inside_ext c p); [by apply point_box_inside|]. apply Hc. by right.
Qed.

Lemma intersection_empty a b : box_is_empty (box_intersection a b) = false <-> exists p, inside a p /\ inside b p.
Proof.
  rewrite not_empty_inhabited. unfold inhabited_box. split; intros [p Hp]; exists p; by apply intersection_inside.
Qed.

Lemma intersects_eq a b : box_intersects a b = true <-> inhabited_box b.
Proof. unfold box_intersects. rewrite negb_true_iff. apply not_empty_inhabited. Qed.

(** distances *)
Definition touch (lo hi lo' hi' : Q) : Q * Q :=
  if negb (Qle_bool lo hi') then (lo, hi') else if negb (Qle_bool lo' hi) then (hi, lo') else (qmax lo lo', qmax lo lo').

Lemma touch_in lo hi lo' hi' : (lo <= hi)%Q -> (lo' <= hi')%Q -> let '(x, y) := touch lo hi lo' hi' in
  (lo <= x)%Q /\ (x <= hi)%Q /\ (lo' <= y)%Q /\ (y <= hi')%Q /\ ((x - y) * (x - y) == gap lo hi lo' hi' * gap lo hi lo' hi')%Q.
Proof.
  intros H1 H2. unfold touch. qcases; repeat split; try lra; try ring.
Qed.
Lemma sq_le x y : (0 <= x)%Q -> (x <= y \/ x <= - y)%Q -> (x * x <= y * y)%Q.
Proof. intros H1 H2. destruct H2; nra. Qed.
Lemma gap_min lo hi lo' hi' x y : (lo <= x)%Q -> (x <= hi)%Q -> (lo' <= y)%Q -> (y <= hi')%Q ->
  (gap lo hi lo' hi' * gap lo hi lo' hi' <= (x - y) * (x - y))%Q.
Proof.
  intros. apply sq_le; qcases; lra.
Qed.

Lemma distance_min a b p q : inside a p -> inside b q -> (box_distance_sq a b <= distance_sq p q)%Q.
Proof.
  intros Hp Hq. unfold box_distance_sq, sum_sq, distance_sq.
  assert (G : forall k, (gap (bmin a k) (bmax a k) (bmin b k) (bmax b k) * gap (bmin a k) (bmax a k) (bmin b k) (bmax b k) <= (p k - q k) * (p k - q k))%Q).
  { intros k. destruct (Hp k), (Hq k). by apply gap_min. }
  pose proof (G AX). pose proof (G AY). pose proof (G AZ). lra.
Qed.

Lemma distance_attained a b : inhabited_box a -> inhabited_box b ->
  exists p q, inside a p /\ inside b q /\ (box_distance_sq a b == distance_sq p q)%Q.
Proof.
  intros Ha Hb. pose proof (inhabited_le a Ha) as La. pose proof (inhabited_le b Hb) as Lb.
  exists (fun k => fst (touch (bmin a k) (bmax a k) (bmin b k) (bmax b k))), (fun k => snd (touch (bmin a k) (bmax a k) (bmin b k) (bmax b k))).
  assert (G : forall k, let '(x, y) := touch (bmin a k) (bmax a k) (bmin b k) (bmax b k) in
     (bmin a k <= x)%Q /\ (x <= bmax a k)%Q /\ (bmin b k <= y)%Q /\ (y <= bmax b k)%Q /\
     ((x - y) * (x - y) == gap (bmin a k) (bmax a k) (bmin b k) (bmax b k) * gap (bmin a k) (bmax a k) (bmin b k) (bmax b k))%Q).
  { intros k. by apply touch_in. }
  split; [|split].
  - intros k. specialize (G k). destruct (touch _ _ _ _). cbn. tauto.
  - intros k. specialize (G k). destruct (touch _ _ _ _). cbn. tauto.
  - unfold box_distance_sq, sum_sq, distance_sq. pose proof (G AX) as GX. pose proof (G AY) as GY. pose proof (G AZ) as GZ. clear G.
    destruct (touch (bmin a AX) _ _ _) as [x1 y1], (touch (bmin a AY) _ _ _) as [x2 y2], (touch (bmin a AZ) _ _ _) as [x3 y3]. cbn.
    destruct GX as (_&_&_&_&GX), GY as (_&_&_&_&GY), GZ as (_&_&_&_&GZ). lra.
Qed.

Lemma distance_zero a b : inhabited_box a -> inhabited_box b -> (box_distance_sq a b == 0)%Q <-> exists p, inside a p /\ inside b p.
Proof.
  intros Ha Hb. split.
  - intros H0. destruct (distance_attained a b Ha Hb) as (p & q & Hp & Hq & He). exists p. split; [done|].
    apply (inside_ext b q); [|done]. rewrite H0 in He. unfold distance_sq in He.
    assert (Hs : forall x : Q, (0 <= x * x)%Q) by (intros x; nra).
    assert (Hz : forall x : Q, (x * x == 0)%Q -> (x == 0)%Q). { intros x Hx. apply Qmult_integral in Hx. tauto. }
    pose proof (Hs (p AX - q AX)%Q). pose proof (Hs (p AY - q AY)%Q). pose proof (Hs (p AZ - q AZ)%Q).
    assert (X0 : (p AX - q AX == 0)%Q) by (apply Hz; lra). assert (Y0 : (p AY - q AY == 0)%Q) by (apply Hz; lra).
    assert (Z0 : (p AZ - q AZ == 0)%Q) by (apply Hz; lra). intros []; lra.
  - intros (p & Hp & Hq). pose proof (distance_min a b p p Hp Hq) as H1.
    assert (H2 : (0 <= box_distance_sq a b)%Q). { unfold box_distance_sq, sum_sq. assert (Hs : forall x : Q, (0 <= x * x)%Q) by (intros x; nra).
      match goal with |- context [(?x * ?x + ?y * ?y + ?z * ?z)%Q] => pose proof (Hs x); pose proof (Hs y); pose proof (Hs z) end. lra. }
    unfold distance_sq in H1. assert ((p AX - p AX) * (p AX - p AX) + (p AY - p AY) * (p AY - p AY) + (p AZ - p AZ) * (p AZ - p AZ) == 0)%Q by ring. lra.
Qed.

Lemma distance_point_eq a p : box_distance_point_sq a p = box_distance_sq a (Box p p).
Proof. done. Qed.
Lemma distance_point a p : inhabited_box a ->
  (forall q, inside a q -> (box_distance_point_sq a p <= distance_sq q p)%Q) /\
  (exists q, inside a q /\ (box_distance_point_sq a p == distance_sq q p)%Q) /\
  ((box_distance_point_sq a p == 0)%Q <-> inside a p).
Proof.
  intros Ha. rewrite distance_point_eq. assert (Hp : inhabited_box (Box p p)) by (exists p; apply point_box). split; [|split].
  - intros q Hq. apply distance_min; [done|apply point_box].
  - destruct (distance_attained a (Box p p) Ha Hp) as (x & y & Hx & Hy & He). exists x. split; [done|]. rewrite He.
    pose proof (proj1 (point_box_inside p y) Hy) as Hy'. unfold distance_sq. by rewrite !Hy'.
  - rewrite distance_zero by done. split.
    + intros (q & Hq & Hqp). apply (inside_ext a q); [|done]. intros k. symmetry. by apply point_box_inside.
    + intros Hi. exists p. split; [done|apply point_box].
Qed.

Lemma center_inside a : inhabited_box a -> inside a (box_center a) /\
  forall p, inside a p -> inside a (fun k => (2 * box_center a k - p k)%Q).
Proof.
  intros Ha. pose proof (inhabited_le a Ha) as Hle. unfold box_center.
  assert (Hd : forall x : Q, (x / 2 == x * (1 # 2))%Q) by (intros x; unfold Qdiv; reflexivity).
  split; [|intros p Hp]; intros k; specialize (Hle k); cbn.
  - rewrite Hd. split; lra.
  - specialize (Hp k). rewrite Hd. split; lra.
Qed.

Lemma extend_covers a b q : inside a q \/ inside b q -> inside (box_extend a b) q.
Proof. intros [Hp|Hp] k; specialize (Hp k); cbn; qcases; lra. Qed.

Lemma spatial_checked me other p :
  (me = None -> si_extend_point me p = Throw XRuntime /\ si_extend me other = Throw XRuntime /\ si_intersects me other = Throw XRuntime /\
     si_intersection me other = Throw XRuntime /\ si_contains_point me p = Throw XRuntime /\ si_contains me other = Throw XRuntime /\
     si_distance_point_sq me p = Throw XRuntime /\ si_distance_sq me other = Throw XRuntime /\ si_center me = Throw XRuntime) /\
  (forall a b, me = Some a -> other = Some b ->
     (exists e, si_extend me other = Ret e /\ forall q, inside a q \/ inside b q -> inside e q) /\
     (exists i, si_intersection me other = Ret i /\ forall q, inside i q <-> inside a q /\ inside b q) /\
     (exists c, si_contains_point me p = Ret c /\ (c = true <-> inside a p)) /\
     (inhabited_box b -> exists c, si_contains me other = Ret c /\ (c = true <-> forall q, inside b q -> inside a q))).
Proof.
  split; [by intros ->|]. intros a b -> ->. split; [eexists; split; [done|apply extend_covers]|].
  split; [eexists; split; [done|apply intersection_inside]|]. split; [eexists; split; [done|apply contains_point_inside]|].
  intros Hb. eexists; split; [done|]. by apply contains_box_inside.
Qed.
