(** A group that is not commutative and concrete transform graphs, used by the examples beside the theorems. *)
From stdpp Require Import prelude strings gmap.
From Verif Require Import Outcome Digraph Bfs TreeView GraphModel GraphOps SpecStore SpecObs SpecWalk WalkThms SpecTree
  GraphThms ViewFollow SpecSearch TransformModel SpecTransform TransformThms TransformView ExGraph.

(* Example of base::TransformWithCovariance (/repo/src/items/Transform.hpp:47): the maps x |-> x + t and x |-> t - x
   of the line, given by (reflected?, t).  They form a group that is not commutative. *)
Definition mot : Type := bool * Z.
Global Instance mot_eq_dec : EqDecision mot.
Proof. unfold mot. apply _. Defined.
(* Same example: identity. *)
Definition mot_one : mot := (false, 0%Z).
(* Same example: composition. *)
Definition mot_mul (x y : mot) : mot := (xorb (fst x) (fst y), snd x + (if fst x then - snd y else snd y))%Z.
(* Same example: inverse. *)
Definition mot_inv (x : mot) : mot := (fst x, if fst x then snd x else - snd x)%Z.

Lemma mot_group : group mot_one mot_mul mot_inv.
Proof.
  split.
  - intros [[] x] [[] y] [[] z]; unfold mot_mul; cbn; f_equal; lia.
  - intros [[] x]; unfold mot_mul, mot_one; cbn; f_equal; lia.
  - intros [[] x]; unfold mot_mul, mot_one; cbn; f_equal; lia.
  - intros [[] x]; unfold mot_mul, mot_one, mot_inv; cbn; f_equal; lia.
  - intros [[] x]; unfold mot_mul, mot_one, mot_inv; cbn; f_equal; lia.
Qed.
Lemma mot_not_commutative : mot_mul (true, 1%Z) (false, 2%Z) <> mot_mul (false, 2%Z) (true, 1%Z).
Proof. by vm_compute. Qed.

(* Same example: edge properties of /repo/src/graph/TransformGraph.hpp:33 are transforms. *)
Definition mtf : Type := tf mot.
(* Same example: inverse of edge properties, /repo/src/items/Transform.hpp:100-103. *)
Definition mtf_inv : mtf -> mtf := tf_inverse mot_inv.
(* Example client of /repo/src/graph/TransformGraph.hpp: final state, events and outcome of a history. *)
Definition mrun (ops : list (gop nat mtf)) := run 0 mtf_inv ((fun op => (xord, op)) <$> ops) gst0.
(* Same client: final state. *)
Definition mstate (ops : list (gop nat mtf)) : gst nat mtf := fst (fst (mrun ops)).
(* Same client: the view object at an address. *)
Definition mview (i : viewid) (s : gst nat mtf) : tview := default tv_new (gs_views s !! i).
(* Same client: getTransform. *)
Definition mget (s : gst nat mtf) (a b : frameid) := get_transform mot_one mot_mul s a b.

Lemma mstate_reachable ops : Forall op_noself ops -> snd (mrun ops) = Ret tt -> reachable 0 mtf_inv (mstate ops).
Proof.
  intros Hns Hr. unfold reachable, mstate. unfold mrun in *.
  destruct (run 0 mtf_inv ((fun op => (xord, op)) <$> ops) gst0) as [[s ev] r] eqn:H.
  exists ((fun op => (xord, op)) <$> ops), ev, r. split.
  - apply Forall_fmap. eapply Forall_impl; [done|]. done.
  - split; [done|]. left. exact Hr.
Qed.

(* Same client: poses of the frames a, b, c, d. *)
Definition mpose (f : frameid) : mot :=
  if decide (f = fa) then (false, 0%Z) else if decide (f = fb) then (true, 3%Z)
  else if decide (f = fc) then (false, 5%Z) else (true, 1%Z).
(* Same client: the transform from one frame to another and a time stamp. *)
Definition mrel (n : Z) (a b : frameid) : mtf := Tf n (mot_mul (mot_inv (mpose a)) (mpose b)).

(* Same client: a cycle a-b-c with a tail c-d and another component, with consistent transforms; a view of the first. *)
Definition mops1 : list (gop nat mtf) :=
  [OAddEdge fa fb (mrel 11 fa fb); OAddEdge fb fc (mrel 12 fb fc); OAddEdge fa fc (mrel 13 fa fc);
   OAddEdge fd fc (mrel 14 fd fc); OAddEdge "e" "f" (mrel 15 "e" "f"); ONewView 1].
(* Same client: the view is filled. *)
Definition mops2 : list (gop nat mtf) := mops1 ++ [OGetTree fb true 1].
Lemma mops1_reachable : reachable 0 mtf_inv (mstate mops1).
Proof. apply mstate_reachable; [by repeat constructor|by vm_compute]. Qed.
Lemma mops2_reachable : reachable 0 mtf_inv (mstate mops2).
Proof. apply mstate_reachable; [by repeat constructor|by vm_compute]. Qed.

Lemma mops2_consistent : consistent mot_one mot_mul (mstate mops2).
Proof.
  apply (poses_consistent mot_one mot_mul mot_inv _ mpose mot_group).
  apply (poses_check mot_one mot_mul mot_inv); [apply (reachable_wf 0 mtf_inv), mops2_reachable|].
  apply (bool_decide_unpack _). by vm_compute.
Qed.

Lemma mops2_sync : in_sync (gs_dg (mstate mops2)) (mview 1 (mstate mops2)).
Proof.
  destruct (get_tree_ok mtf_inv (mstate mops1) fb 2 true 1 tv_new) as (s' & w' & Hg & Hdg & _ & Hw & _ & Hs & _).
  { apply (reachable_wf 0). apply mops1_reachable. }
  { by vm_compute. } { by vm_compute. } { done. } { done. } { done. }
  assert (Hx : mstate mops2 = s').
  { transitivity (fst (fst (get_tree fb true 1 (mstate mops1)))); [by vm_compute|by rewrite Hg]. }
  rewrite Hx, Hdg. unfold mview. rewrite Hw. exact Hs.
Qed.

(* Same client: a star around b with arbitrary transforms. *)
Definition mops3 : list (gop nat mtf) :=
  [OAddEdge fa fb (Tf 7 (true, 3%Z)); OAddEdge fb fc (Tf 8 (false, 4%Z)); OAddEdge fd fb (Tf 9 (true, 6%Z))].
Lemma mops3_reachable : reachable 0 mtf_inv (mstate mops3).
Proof. apply mstate_reachable; [by repeat constructor|by vm_compute]. Qed.
Lemma mops3_forest : forest (mstate mops3).
Proof.
  apply (star_forest mot_one mot_mul mot_inv _ fb); [apply (reachable_wf 0 mtf_inv), mops3_reachable|].
  apply (star_check mot_inv); [apply (reachable_wf 0 mtf_inv), mops3_reachable|].
  apply (bool_decide_unpack _). by vm_compute.
Qed.
