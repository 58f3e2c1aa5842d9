(** A concrete program with three graphs, used by the examples beside the theorems. *)
From stdpp Require Import prelude strings gmap.
From Coq Require Import ZArith.
From Verif Require Import Outcome Digraph GraphModel AssignModel SpecAssign ExGraph.

(* Example client of /repo/src/graph/Graph.hpp:95-330: graph 1 has a frame of its own, graph 2 has three frames, one edge and a subscriber,
   graph 3 is a copy of graph 2. *)
Definition gprog : list (aop nat Z) :=
  [ANew 1; ANew 2; AEmplace 1 fd 7; AAddEdge 2 fa fb 5%Z; AEmplace 2 fc 3; AEmplace 2 fc 4; ASubscribe 9 2; ACopy 3 2; ANew 4].
(* Same client: its memory. *)
Definition gworld : aworld nat Z := fst (fst (awrun 0 Z.opp gprog aw_empty)).
Lemma gworld_made : made 0 Z.opp gworld.
Proof. exists gprog. split; [by repeat constructor|]. by vm_compute. Qed.

(* Same client: graph object 2 of it. *)
Definition gtwo : gobj := default (GObj ∅ 0 0 0 []) (aw_objs gworld !! 2).
(* Same client: graph object 3 of it. *)
Definition gthree : gobj := default (GObj ∅ 0 0 0 []) (aw_objs gworld !! 3).

Lemma surjective_out {A B C} (x : A * B * C) b c : snd (fst x) = b -> snd x = c -> x = (fst (fst x), b, c).
Proof. by destruct x as [[? ?] ?]; cbn; intros -> ->. Qed.
