(** Histories of public calls on a Graph and on the TreeViews attached to it.
    Executable definitions only. *)
From stdpp Require Import prelude strings gmap.
From Verif Require Import Outcome Digraph Bfs TreeView GraphModel.

Section ops.
Context {D E : Type} (d0 : D) (einv : E -> E).

(* The public mutating calls of Graph (/repo/src/graph/Graph.hpp:95-330) and of TreeView objects
   created by the user (/repo/src/graph/TreeView.hpp:84-120).  [OSetFrameData] stands for the writes of
   the derived class EnvireGraph to the content of a frame (/repo/src/graph/EnvireGraph.cpp:122). *)
Inductive gop : Type :=
| OAddFrame (f : frameid)
| OEmplaceFrame (f : frameid) (d : D)
| OAddEdge (o t : frameid) (p : E)
| OAddEdgeV (o t : vid) (p : E)
| ORemoveEdge (o t : frameid)
| ORemoveEdgeV (o t : vid)
| OSetProp (o t : frameid) (p : E)
| OSetPropV (o t : vid) (p : E)
| ODisconnect (f : frameid)
| ORemoveFrame (f : frameid)
| OSetFrameData (v : vid) (d : D)
| ONewView (i : viewid)
| OGetTree (root : frameid) (keep : bool) (i : viewid)
| OGetTreeV (root : vid) (keep : bool) (i : viewid)
| OUnsubscribeTreeView (i : viewid)
| OViewUnsubscribe (i : viewid)
| ODestroyView (i : viewid)
| OMoveView (i j : viewid)
| OCopyView (i j : viewid)
| OSlotView (i : viewid) (k : vsigkind) (on : bool) (c : nat).

(* Dispatch of one call; each branch is the function cited in GraphModel.v
   (/repo/src/graph/Graph.hpp:420-926).  [ord] are the iteration orders of the child sets. *)
Definition gstep (ord : viewid -> order) (op : gop) : call (gst D E) unit :=
  match op with
  | OAddFrame f => _ <-- add_frame d0 f ;; cret tt
  | OEmplaceFrame f d => _ <-- emplace_frame f d ;; cret tt
  | OAddEdge o t p => add_edge d0 einv o t p
  | OAddEdgeV o t p => add_edge_v einv o t p
  | ORemoveEdge o t => remove_edge ord o t
  | ORemoveEdgeV o t => remove_edge_v ord o t
  | OSetProp o t p => set_edge_property einv o t p
  | OSetPropV o t p => set_edge_property_v einv o t p
  | ODisconnect f => disconnect_frame ord f
  | ORemoveFrame f => remove_frame f
  | OSetFrameData v d => set_frame_data v d
  | ONewView i => new_view i
  | OGetTree root keep i => get_tree root keep i
  | OGetTreeV root keep i => get_tree_v root keep i
  | OUnsubscribeTreeView i => unsubscribe_tree_view i
  | OViewUnsubscribe i => view_unsubscribe i
  | ODestroyView i => destroy_view i
  | OMoveView i j => move_view i j
  | OCopyView i j => copy_view i j
  | OSlotView i k on c => slot_view i k on c
  end.

(* A history: the caller catches exceptions and goes on; undefined behaviour ends the history.
   Models client code, e.g. the calls in /repo/src/graph/EnvireGraph.cpp:216-241. *)
Fixpoint run (h : list ((viewid -> order) * gop)) : call (gst D E) unit := fun s =>
  match h with
  | [] => (s, [], Ret tt)
  | (ord, op) :: h' =>
      let '(s1, ev1, r) := gstep ord op s in
      match r with
      | Ret _ | Throw _ => let '(s2, ev2, r2) := run h' s1 in (s2, ev1 ++ ev2, r2)
      | UB => (s1, ev1, UB)
      | Fuel => (s1, ev1, Fuel)
      end
  end.

(* The call does not connect a frame to itself.  Restriction on clients of
   /repo/src/graph/Graph.hpp:630-682 (self edges are the subject of property C05). *)
Definition op_noself (op : gop) : Prop :=
  match op with
  | OAddEdge o t _ => o <> t
  | OAddEdgeV o t _ => o <> t
  | _ => True
  end.

(* All calls of a history satisfy [op_noself]; same source lines. *)
Definition hist_noself (h : list ((viewid -> order) * gop)) : Prop :=
  Forall (fun p => op_noself (snd p)) h.

End ops.
Global Arguments gop : clear implicits.
