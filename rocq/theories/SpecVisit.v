(** Vocabulary for visiting all frames of a graph. *)
From stdpp Require Import prelude strings gmap.
From Verif Require Import Outcome Digraph TreeView GraphModel GraphOps SpecObs HandlerModel SpecHandler VisitModel.

Section spec.
Context {D E : Type}.
Local Notation gst := (gst D E).

(** The vertex is that of a frame of the graph. *)
Definition frame_at (s : gst) (v : vid) : Prop := exists f, get_vertex s f = Ret v.

(** The announced additions and removals of frames. *)
Definition frame_added (e : event) : Prop := match e with EvFrameAdded _ => True | _ => False end.
Global Instance frame_added_dec e : Decision (frame_added e).
Proof. destruct e; apply _. Defined.
Definition frame_removed (e : event) : Prop := match e with EvFrameRemoved _ => True | _ => False end.

(** Every call the script makes, whatever it finds, is allowed. *)
Inductive calls_only (P : gop D E -> Prop) : script D E -> Prop :=
| co_end : calls_only P SEnd
| co_throw x : calls_only P (SThrow x)
| co_call ord op k : P op -> (forall s r, calls_only P (k s r)) -> calls_only P (SCall ord op k).

(** The calls that may add frames, and the one that removes a frame. *)
Definition may_add (op : gop D E) : Prop := match op with OAddFrame _ | OEmplaceFrame _ _ | OAddEdge _ _ _ => True | _ => False end.
Definition may_remove (op : gop D E) : Prop := match op with ORemoveFrame _ => True | _ => False end.

(** The visitor never connects a frame to itself. *)
Definition noself_visitor {C} (z : visitor D E C) : Prop := forall c v s, script_noself (vz_do z c v s).

(** What holds of every run of the visitor on a frame of a graph: of the state before, the vertex, the state after, the events and the
    result. *)
Definition each_run {C} (d0 : D) (einv : E -> E) (z : visitor D E C) (P : gst -> vid -> gst -> list event -> outcome unit -> Prop) : Prop :=
  forall c v s s' ev r, reachable d0 einv s -> frame_at s v -> body d0 einv (vz_do z c v s) s = (s', ev, r) -> P s v s' ev r.

(** It returns or throws (uses no descriptor of a removed frame and so on). *)
Definition run_ends (s : gst) (v : vid) (s' : gst) (ev : list event) (r : outcome unit) : Prop := ended r.
(** If it returns, the frame it was called for is still there. *)
Definition frame_stays (s : gst) (v : vid) (s' : gst) (ev : list event) (r : outcome unit) : Prop := r = Ret tt -> frame_at s' v.
(** It announces no frame added, no frame removed. *)
Definition none_added (s : gst) (v : vid) (s' : gst) (ev : list event) (r : outcome unit) : Prop := Forall (fun e => ~ frame_added e) ev.
Definition none_removed (s : gst) (v : vid) (s' : gst) (ev : list event) (r : outcome unit) : Prop := Forall (fun e => ~ frame_removed e) ev.

(** The frames a visit goes through, in the order of the list of vertices. *)
Definition frames_in_order (s : gst) : list vid := v_id <$> dg_verts (gs_dg s).

End spec.
