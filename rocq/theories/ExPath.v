(** Concrete paths used by the examples beside the theorems. *)
From stdpp Require Import prelude strings gmap.
From Verif Require Import Outcome Digraph Bfs TreeView GraphModel GraphOps SpecStore SpecObs SpecWalk SpecSearch
  TransformModel SpecTransform PathModel SpecPath ExGraph ExTransform.

(* Example client of /repo/src/graph/TransformGraph.hpp:192-219: the path obtained by getPath. *)
Definition mpath (s : gst nat mtf) (a b : frameid) (auto : bool) : path :=
  match get_path s a b auto with Ret p => p | _ => path_new auto [] end.
(* Same client: a history of calls on the graph and queries of the path. *)
Definition mprun (h : list (pop mot nat)) (x : pst mot nat) := prun mot_one mot_mul mot_inv 0 h x.
(* Same client: calls on the graph. *)
Definition mg (op : gop nat mtf) : pop mot nat := PGraph xord op.

(* Same client: the chain a-b-c-d. *)
Definition pops1 : list (gop nat mtf) :=
  [OAddEdge fa fb (mrel 11 fa fb); OAddEdge fb fc (mrel 12 fb fc); OAddEdge fc fd (mrel 13 fc fd)].

Lemma pops1_reachable : reachable 0 mtf_inv (mstate pops1).
Proof. apply mstate_reachable; [|by vm_compute]. repeat constructor; by vm_compute. Qed.
