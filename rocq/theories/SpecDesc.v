(** Vocabulary for the edge descriptors that events carry. *)
From stdpp Require Import prelude strings gmap.
From Verif Require Import Outcome Digraph TreeView GraphModel GraphOps ItemsModel QueueModel.

(** [i] is the descriptor getEdge(o, t) returns now. *)
Definition is_edge {D E} (s : gst D E) (o t : frameid) (i : eid) : Prop :=
  exists e, get_edge s o t = Ret e /\ e_id e = i.

(** The descriptors in the event are those of the edges between the frames it names, in the named direction (for the
    inverse edge: in the opposite one). *)
Definition current {D E} (s : gst D E) (e : event) : Prop :=
  match e with
  | EvEdgeAdded o t i => is_edge s o t i
  | EvEdgeModified o t i j => is_edge s o t i /\ is_edge s t o j
  | _ => True
  end.

(** The descriptors in the event. *)
Definition descriptors (e : event) : list eid :=
  match e with EvEdgeAdded _ _ i => [i] | EvEdgeModified _ _ i j => [i; j] | _ => [] end.

(** [x] says that the edge [e] is about was removed. *)
Definition removal_of (e x : event) : Prop :=
  match e with
  | EvEdgeAdded o t _ | EvEdgeModified o t _ _ => x = EvEdgeRemoved o t \/ x = EvEdgeRemoved t o
  | _ => False
  end.

(** No call connects a frame to itself. *)
Definition enoself {E} (h : list ((viewid -> order) * iorder * eop E)) : Prop :=
  Forall (fun c => match c.2 with EGraph op => op_noself op | _ => True end) h.

(** A receiver that makes calls to the same graph when it processes an event of its queue; it notes the state in which
    it was handed each event. *)
Definition busy {E} (einv : E -> E) (client : est E -> event -> list ((viewid -> order) * iorder * eop E))
    (h : est E * list (est E * event)) (e : event) : (est E * list (est E * event)) * list event :=
  let '(s', ev, _) := erun einv (client h.1 e) h.1 in ((s', h.2 ++ [(h.1, e)]), ev).
