(** What a user sees of a graph through its const calls, compared with the abstract store. *)
From stdpp Require Import prelude strings gmap.
From Verif Require Import Outcome Digraph TreeView GraphModel GraphOps SpecStore.

Section obs.
Context {D E : Type}.

Record observes (s : gst D E) (st : store D E) : Prop := Observes {
  ob_contains : forall f, contains_frame s f = bool_decide (known st f);
  ob_frame : forall f, get_frame_property s f =
               match st_frames st !! f with Some d => Ret d | None => Throw (XUnknownFrame f) end;
  ob_edge : forall a b, get_edge_property s a b =
               if decide (known st a) then
                 if decide (known st b) then
                   match st_edges st !! (a, b) with Some p => Ret p | None => Throw (XUnknownEdge a b) end
                 else Throw (XUnknownFrame b)
               else Throw (XUnknownFrame a);
  ob_contains_edge : forall a b, contains_edge s a b =
               if decide (known st a) then
                 if decide (known st b) then Ret (bool_decide (is_Some (st_edges st !! (a, b))))
                 else Throw (XUnknownFrame b)
               else Throw (XUnknownFrame a);
  ob_closed : forall a b, is_Some (st_edges st !! (a, b)) -> known st a /\ known st b;
  ob_num_vertices : num_vertices s = size (st_frames st);
  ob_num_edges : num_edges s = size (st_edges st) }.

(** States a user can bring a graph (with any attached tree views) into without connecting a
    frame to itself and without undefined behaviour. *)
Definition reachable (d0 : D) (einv : E -> E) (s : gst D E) : Prop :=
  exists h ev r, hist_noself h /\ run d0 einv h gst0 = (s, ev, r) /\
                 (r = Ret tt \/ exists x, r = Throw x).

(** The call of the model a call of the specification stands for. *)
Definition call_of (op : sop D E) : gop D E :=
  match op with
  | SEmplaceFrame f d => OEmplaceFrame f d
  | SAddEdge o t p => OAddEdge o t p
  | SRemoveEdge o t => ORemoveEdge o t
  | SSetProp o t p => OSetProp o t p
  | SDisconnect f => ODisconnect f
  | SRemoveFrame f => ORemoveFrame f
  end.

Definition sop_noself (op : sop D E) : Prop :=
  match op with SAddEdge o t _ => o <> t | _ => True end.

(** The documented conditions of the exceptions of the mutators
    (comments at /repo/src/graph/Graph.hpp:95-250), in terms of the const calls. *)
Definition documented (s : gst D E) (op : sop D E) (x : exn) : Prop :=
  match op, x with
  | SEmplaceFrame f _, XFrameAlreadyExists f' => f' = f /\ contains_frame s f = true
  | SAddEdge o t _, XEdgeAlreadyExists o' t' => o' = o /\ t' = t /\ contains_edge s o t = Ret true
  | (SRemoveEdge o t | SSetProp o t _), XUnknownFrame f =>
      (f = o /\ contains_frame s o = false) \/
      (f = t /\ contains_frame s o = true /\ contains_frame s t = false)
  | (SRemoveEdge o t | SSetProp o t _), XUnknownEdge o' t' =>
      o' = o /\ t' = t /\ contains_edge s o t = Ret false
  | (SDisconnect f | SRemoveFrame f), XUnknownFrame f' => f' = f /\ contains_frame s f = false
  | SRemoveFrame f, XFrameStillConnected f' =>
      f' = f /\ exists n, contains_edge s f n = Ret true
  | _, _ => False
  end.

End obs.
