(** Concrete graphs used by the examples beside the theorems. *)
From stdpp Require Import prelude strings gmap.
From Verif Require Import Outcome Digraph Bfs TreeView GraphModel GraphOps SpecStore SpecObs.

(* Example client of /repo/src/graph/Graph.hpp:95-330: frame data are naturals, edge properties
   integers with negation as inverse; child sets are iterated in insertion order. *)
Definition xord : viewid -> order := fun _ _ _ l => l.
(* Same client: history with one iteration order for all calls. *)
Definition xhist (ops : list (gop nat Z)) : list ((viewid -> order) * gop nat Z) :=
  (fun op => (xord, op)) <$> ops.
(* Same client: final state, events and outcome of a history on the empty graph. *)
Definition xrun (ops : list (gop nat Z)) := run 0 Z.opp (xhist ops) gst0.
(* Same client: final state. *)
Definition xstate (ops : list (gop nat Z)) : gst nat Z := fst (fst (xrun ops)).

(* Same client: frame names. *)
Definition fa : frameid := "a".
(* Same client: a frame name. *)
Definition fb : frameid := "b".
(* Same client: a frame name. *)
Definition fc : frameid := "c".
(* Same client: a frame name. *)
Definition fd : frameid := "d".

(* Same client: a triangle a-b-c with a tail c-d, one edge property replaced. *)
Definition ops1 : list (gop nat Z) :=
  [OEmplaceFrame fa 7; OAddEdge fa fb 1%Z; OAddEdge fb fc 2%Z; OAddEdge fa fc 5%Z;
   OAddEdge fd fc 4%Z; OSetProp fc fa 9%Z].

Lemma xstate_reachable ops : Forall op_noself ops -> snd (xrun ops) = Ret tt ->
  reachable 0 Z.opp (xstate ops).
Proof.
  intros Hns Hr. unfold reachable, xstate. unfold xrun in *.
  destruct (run 0 Z.opp (xhist ops) gst0) as [[s ev] r] eqn:H.
  exists (xhist ops), ev, r. split.
  - apply Forall_fmap. eapply Forall_impl; [done|]. done.
  - split; [done|]. left. exact Hr.
Qed.

Lemma ops1_reachable : reachable 0 Z.opp (xstate ops1).
Proof. apply xstate_reachable; [by repeat constructor|by vm_compute]. Qed.
