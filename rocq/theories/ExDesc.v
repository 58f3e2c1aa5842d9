(** A concrete history for the examples in P_Desc.v. *)
From stdpp Require Import prelude strings gmap.
From Verif Require Import Outcome ItemClass Digraph TreeView GraphModel GraphOps ItemsModel QueueModel ExGraph ExItems SpecDesc.

(* Example client of /repo/src/graph/EnvireGraph.hpp:71-215: an edge is added, set, removed and added again. *)
Definition dops : list (eop Z) :=
  [EGraph (OAddEdge fd fa 7%Z); EGraph (OSetProp fb fa 5%Z); EGraph (ORemoveEdge fb fc); EGraph (OSetProp fd fa 8%Z);
   EGraph (OAddEdge fc fb 9%Z); EGraph (ORemoveEdge fa fd); EGraph (OAddEdge fa fd 3%Z); ERemoveItem 1].
(* Example of a class derived from GraphEventQueue (/repo/src/events/GraphEventQueue.hpp:45-83) whose process calls
   the graph. *)
Definition dclient (s : est Z) (e : event) : list ((viewid -> order) * iorder * eop Z) :=
  match e with
  | EvFrameAdded f => if String.eqb f fb then ihist [EGraph (ORemoveEdge fa fd); EGraph (OAddEdge fc fa 4%Z)] else []
  | EvEdgeAdded o t i => if String.eqb o fc then ihist [EGraph (OSetProp fa fc 6%Z)] else []
  | _ => []
  end.
Lemma dclient_noself s e : enoself (dclient s e).
Proof. destruct e; cbn; repeat case_match; repeat constructor; done. Qed.
