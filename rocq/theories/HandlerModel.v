(** The mutators of Graph<F,E> with event handlers that run inside notify.  Executable definitions only. *)
From stdpp Require Import prelude strings gmap.
From Verif Require Import Outcome Digraph Bfs TreeView GraphModel GraphOps.

Section handlers.
Context {D E : Type}.
Context (d0 : D) (einv : E -> E).

(* What all subscribers together do when they are told about an event: any calls, state changes, exceptions.
   GraphEventSubscriber::notifyGraphEvent, called at /repo/src/events/GraphEventPublisher.cpp:81-84. *)
Context (h : event -> call (gst D E) unit).

(* Bound on the iterations of the loop of disconnectFrame (a handler may add edges while it runs).
   /repo/src/graph/Graph.hpp:495-503. *)
Context (fuel : nat).

(* notify(event) with the handlers, /repo/src/events/GraphEventPublisher.cpp:76-103. *)
Definition hnotify (e : event) : call (gst D E) unit := cnotify e ;;; h e.

(* Graph::add_vertex, /repo/src/graph/Graph.hpp:437-444. *)
Definition add_vertex_h (f : frameid) (d : D) : call (gst D E) vid :=
  v <-- (fun s => let '(g, v) := bg_add_vertex f d (gs_dg s) in (gs_set_dg g s, [], Ret v)) ;;
  hnotify (EvFrameAdded f) ;;;
  cret v.

(* Graph::emplaceFrame and addFrame, /repo/src/graph/Graph.hpp:420-435, 909-926. *)
Definition emplace_frame_h (f : frameid) (d : D) : call (gst D E) vid := fun s =>
  if Nat.eqb (bg_vertex (gs_dg s) f) null_vertex then add_vertex_h f d s
  else (s, [], Throw (XFrameAlreadyExists f)).

(* Graph::add_edge(vertex, vertex, prop), /repo/src/graph/Graph.hpp:630-657. *)
Definition add_edge_v_h (o t : vid) (p : E) : call (gst D E) unit :=
  e <-- cread (fun s => find_edge s o t) ;;
  match e with
  | Some _ =>
      fo <-- cread (fun s => get_frame_id s o) ;;
      ft <-- cread (fun s => get_frame_id s t) ;;
      cread (fun _ => Throw (XEdgeAlreadyExists fo ft))
  | None =>
      cread (fun s => if bg_alive (gs_dg s) t then Ret tt else UB) ;;;
      i <-- (fun s => let '(g, i) := bg_add_edge o t p (gs_dg s) in (gs_set_dg g s, [], Ret i)) ;;
      cmodify (fun s => gs_set_dg (fst (bg_add_edge t o (einv p) (gs_dg s))) s) ;;;
      add_edge_to_tree_views (ERec i o t p) ;;;
      fo <-- cread (fun s => get_frame_id s o) ;;
      ft <-- cread (fun s => get_frame_id s t) ;;
      hnotify (EvEdgeAdded fo ft i)
  end.

(* Graph::add_edge(name, name, prop), /repo/src/graph/Graph.hpp:659-682.  Both labels are looked up before any
   frame is created, hence before any handler runs. *)
Definition add_edge_h (o t : frameid) (p : E) : call (gst D E) unit := fun s0 =>
  let o0 := bg_vertex (gs_dg s0) o in
  let t0 := bg_vertex (gs_dg s0) t in
  (vo <-- (if Nat.eqb o0 null_vertex then add_vertex_h o d0 else cret o0) ;;
   vt <-- (if Nat.eqb t0 null_vertex then add_vertex_h t d0 else cret t0) ;;
   add_edge_v_h vo vt p) s0.

(* Graph::remove_edge(name, name, vertex, vertex), /repo/src/graph/Graph.hpp:684-705. *)
Definition remove_edge_impl_h (ord : viewid -> order) (o t : frameid) (vo vt : vid) : call (gst D E) unit :=
  ot <-- cread (fun s => find_edge s vo vt) ;;
  to <-- cread (fun s => find_edge s vt vo) ;;
  match ot, to with
  | Some e1, Some e2 =>
      boost_remove_edge (e_id e1) ;;;
      hnotify (EvEdgeRemoved o t) ;;;
      boost_remove_edge (e_id e2) ;;;
      remove_edge_from_tree_views ord vo vt
  | _, _ => cread (fun _ => Throw (XUnknownEdge o t))
  end.

(* Graph::remove_edge(vertex, vertex), /repo/src/graph/Graph.hpp:707-712. *)
Definition remove_edge_v_h (ord : viewid -> order) (vo vt : vid) : call (gst D E) unit :=
  o <-- cread (fun s => get_frame_id s vo) ;;
  t <-- cread (fun s => get_frame_id s vt) ;;
  remove_edge_impl_h ord o t vo vt.

(* Graph::remove_edge(name, name), /repo/src/graph/Graph.hpp:714-719. *)
Definition remove_edge_h (ord : viewid -> order) (o t : frameid) : call (gst D E) unit :=
  vo <-- cread (fun s => get_vertex s o) ;;
  vt <-- cread (fun s => get_vertex s t) ;;
  remove_edge_impl_h ord o t vo vt.

(* Graph::setEdgeProperty(vertex, vertex, prop), /repo/src/graph/Graph.hpp:883-901. *)
Definition set_edge_property_v_h (o t : vid) (p : E) : call (gst D E) unit :=
  e <-- cread (fun s => find_edge s o t) ;;
  match e with
  | None =>
      fo <-- cread (fun s => get_frame_id s o) ;;
      ft <-- cread (fun s => get_frame_id s t) ;;
      cread (fun _ => Throw (XUnknownEdge fo ft))
  | Some e =>
      cmodify (fun s => gs_set_dg (bg_set_prop (e_id e) p (gs_dg s)) s) ;;;
      einv' <-- cread (fun s => find_edge s t o) ;;
      match einv' with
      | None => cread (fun _ => UB)
      | Some e' =>
          cmodify (fun s => gs_set_dg (bg_set_prop (e_id e') (einv p) (gs_dg s)) s) ;;;
          fo <-- cread (fun s => get_frame_id s o) ;;
          ft <-- cread (fun s => get_frame_id s t) ;;
          hnotify (EvEdgeModified fo ft (e_id e) (e_id e'))
      end
  end.

(* Graph::setEdgeProperty(name, name, prop), /repo/src/graph/Graph.hpp:873-881. *)
Definition set_edge_property_h (o t : frameid) (p : E) : call (gst D E) unit :=
  vo <-- cread (fun s => get_vertex s o) ;;
  vt <-- cread (fun s => get_vertex s t) ;;
  set_edge_property_v_h vo vt p.

(* The do-while loop of disconnectFrame, /repo/src/graph/Graph.hpp:495-503.  The out edges of a vertex that a
   handler has removed are not looked at again: [v] dead is UB. *)
Fixpoint disconnect_loop_h (n : nat) (ord : viewid -> order) (v : vid) : call (gst D E) unit := fun s =>
  if bg_alive (gs_dg s) v then
    match bg_out (gs_dg s) v with
    | [] => (s, [], Ret tt)
    | e :: _ =>
        match n with
        | O => (s, [], Fuel)
        | S n => (remove_edge_v_h ord v (e_tgt e) ;;; disconnect_loop_h n ord v) s
        end
    end
  else (s, [], UB).

(* Graph::disconnectFrame, /repo/src/graph/Graph.hpp:486-504. *)
Definition disconnect_frame_h (ord : viewid -> order) (f : frameid) : call (gst D E) unit :=
  v <-- cread (fun s => get_vertex s f) ;;
  disconnect_loop_h fuel ord v.

(* Graph::removeFrame, /repo/src/graph/Graph.hpp:506-524. *)
Definition remove_frame_h (f : frameid) : call (gst D E) unit :=
  v <-- cread (fun s => get_vertex s f) ;;
  cread (fun s =>
    if bg_alive (gs_dg s) v then
      if bool_decide (0 < bg_degree (gs_dg s) v) then Throw (XFrameStillConnected f) else Ret tt
    else UB) ;;;
  cmodify (fun s => gs_set_dg (bg_remove_vertex v f (gs_dg s)) s) ;;;
  hnotify (EvFrameRemoved f).

(* Dispatch of one call; the calls on views emit no event and are those of GraphOps.v.
   /repo/src/graph/Graph.hpp:420-926. *)
Definition gstep_h (ord : viewid -> order) (op : gop D E) : call (gst D E) unit :=
  match op with
  | OAddFrame f => _ <-- emplace_frame_h f d0 ;; cret tt
  | OEmplaceFrame f d => _ <-- emplace_frame_h f d ;; cret tt
  | OAddEdge o t p => add_edge_h o t p
  | OAddEdgeV o t p => add_edge_v_h o t p
  | ORemoveEdge o t => remove_edge_h ord o t
  | ORemoveEdgeV o t => remove_edge_v_h ord o t
  | OSetProp o t p => set_edge_property_h o t p
  | OSetPropV o t p => set_edge_property_v_h o t p
  | ODisconnect f => disconnect_frame_h ord f
  | ORemoveFrame f => remove_frame_h f
  | _ => gstep d0 einv ord op
  end.

End handlers.

(* What a handler does: calls on the graph, looking at the graph and at how each call ended before choosing the next,
   until it returns or throws.  A handler derived from GraphEventSubscriber, called at
   /repo/src/events/GraphEventPublisher.cpp:83. *)
Inductive script (D E : Type) : Type :=
| SEnd
| SThrow (x : exn)
| SCall (ord : viewid -> order) (op : gop D E) (k : gst D E -> outcome unit -> script D E).
Global Arguments SEnd {D E}.
Global Arguments SThrow {D E} _.
Global Arguments SCall {D E} _ _ _.

Section scripts.
Context {D E : Type} (d0 : D) (einv : E -> E).

(* Executing a script when [h] handles the events of the calls it makes (nested notify);
   /repo/src/events/GraphEventPublisher.cpp:76-103. *)
Fixpoint exec (h : event -> call (gst D E) unit) (fuel : nat) (sc : script D E) : call (gst D E) unit := fun s =>
  match sc with
  | SEnd => (s, [], Ret tt)
  | SThrow x => (s, [], Throw x)
  | SCall ord op k =>
      let '(s1, ev1, r) := gstep_h d0 einv h fuel ord op s in
      match r with
      | Ret _ | Throw _ => let '(s2, ev2, r2) := exec h fuel (k s1 r) s1 in (s2, ev1 ++ ev2, r2)
      | UB => (s1, ev1, UB)
      | Fuel => (s1, ev1, Fuel)
      end
  end.

(* The handlers, reacting also to the events of their own calls; [depth] bounds the nesting of notify (exceeding it
   is the outcome [Fuel], the C++ program would recurse further).
   /repo/src/events/GraphEventPublisher.cpp:76-103. *)
Fixpoint reactor (react : event -> gst D E -> script D E) (fuel depth : nat) (e : event) : call (gst D E) unit := fun s =>
  match depth with
  | O => (s, [], Fuel)
  | S n => exec (reactor react fuel n) fuel (react e s) s
  end.

End scripts.
