(** Vocabulary for event handlers that run inside a call. *)
From stdpp Require Import prelude strings gmap.
From Verif Require Import Outcome Digraph TreeView GraphModel GraphOps HandlerModel.

Section spec.
Context {D E : Type}.
Local Notation gst := (gst D E).

(** A call that ended with one event, followed by what the handlers do about this event.  A call without an event or
    with an exception is left alone. *)
Definition handled_after {A} (h : event -> call gst unit) (x : gst * list event * outcome A)
  : gst * list event * outcome A :=
  match x with
  | (s1, [e], Ret a) =>
      let '(s2, ev, r) := h e s1 in
      (s2, e :: ev, match r with Ret _ => Ret a | Throw y => Throw y | UB => UB | Fuel => Fuel end)
  | _ => x
  end.

(** The calls that announce at most one event, which is not EdgeRemoved. *)
Definition one_event (s : gst) (op : gop D E) : Prop :=
  match op with
  | OAddEdge o t _ => contains_frame s o = true /\ contains_frame s t = true
  | ORemoveEdge _ _ | ORemoveEdgeV _ _ | ODisconnect _ => False
  | _ => True
  end.

(** Every edge has its inverse edge. *)
Definition paired (s : gst) : Prop :=
  forall e, e ∈ dg_edges (gs_dg s) -> exists e', e' ∈ dg_edges (gs_dg s) /\ e_src e' = e_tgt e /\ e_tgt e' = e_src e.

(** No call in the script, whatever it finds, connects a frame to itself. *)
Inductive script_noself : script D E -> Prop :=
| sn_end : script_noself SEnd
| sn_throw x : script_noself (SThrow x)
| sn_call ord op k : op_noself op -> (forall s r, script_noself (k s r)) -> script_noself (SCall ord op k).

(** Handlers that leave the graph alone when told about a removed edge, and never connect a frame to itself. *)
Definition tame (react : event -> gst -> script D E) : Prop :=
  (forall a b s, react (EvEdgeRemoved a b) s = SEnd) /\ (forall e s, script_noself (react e s)).

(** [s1] is [s] with one direction of the edge removed: the other one can neither be removed nor changed, and neither frame
    can be removed. *)
Record half_removed (einv : E -> E) (s s1 : gst) (a b : frameid) : Prop := {
  hr_ab : contains_edge s1 a b = Ret false;
  hr_ba : contains_edge s1 b a = Ret true;
  hr_rem_ab : forall ord, remove_edge ord a b s1 = (s1, [], Throw (XUnknownEdge a b));
  hr_rem_ba : forall ord, remove_edge ord b a s1 = (s1, [], Throw (XUnknownEdge b a));
  hr_set : forall p, snd (set_edge_property einv b a p s1) = UB;
  hr_frame_a : remove_frame a s1 = (s1, [], Throw (XFrameStillConnected a));
  hr_frame_b : remove_frame b s1 = (s1, [], Throw (XFrameStillConnected b));
  hr_views : gs_views s1 = gs_views s /\ gs_subs s1 = gs_subs s }.

(** The call returned or threw. *)
Definition ended {A} (r : outcome A) : Prop := (exists a, r = Ret a) \/ (exists x, r = Throw x).

End spec.
