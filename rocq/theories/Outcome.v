(** Outcomes of modelled C++ calls.  No proofs in this file. *)
From stdpp Require Import prelude strings gmap.
From Verif Require Import ItemClass.

(* Frame names.  Models FrameId = std::string, /repo/src/items/ItemBase.hpp:43. *)
Definition frameid := string.

(* Vertex descriptors: pointers into boost's vertex list
   (/repo/src/graph/GraphTypes.hpp:126-155, vertices are stored in a listS).
   Simplification: a pointer is a natural number and allocation never reuses
   a number, so a stale pointer is always recognisable. *)
Definition vid := nat.

(* Edge descriptors; boost compares them by the address of the stored edge
   property, hence one number per stored edge.
   /repo/src/graph/GraphTypes.hpp:126-155; same simplification as [vid]. *)
Definition eid := nat.

(* GraphTraits::null_vertex(), i.e. the null pointer; /repo/src/graph/Graph.hpp:903-907. *)
Definition null_vertex : vid := 0.

(* Item types: std::type_index, /repo/src/items/ItemBase.hpp:120-123. *)
Notation tyid := iclass.

(* Item pointers: ItemBase::Ptr, /repo/src/items/ItemBase.hpp:56
   (shared_ptr identity only; null pointers are never in the heap). *)
Definition iptr := nat.

(* Exceptions thrown by the modelled code:
   /repo/src/graph/GraphExceptions.hpp:39-140, /repo/src/graph/Path.hpp:37-44 (EmptyPathException),
   std::out_of_range and std::runtime_error.
   Simplification: the message is dropped, only the arguments are kept. *)
Inductive exn : Type :=
| XUnknownFrame (f : frameid)
| XFrameAlreadyExists (f : frameid)
| XFrameStillConnected (f : frameid)
| XUnknownEdge (o t : frameid)
| XEdgeAlreadyExists (o t : frameid)
| XUnknownTransform (o t : frameid)
| XNullVertex
| XNoItemsOfType (f : frameid) (t : tyid)
| XUnknownItem (f : frameid) (i : iptr)
| XOutOfRange
| XInvalidPath
| XEmptyPath
| XRuntime.

(* Result of a call: normal return, C++ exception, undefined behaviour
   (including failed assert), or a model loop that ran out of fuel.
   Models no particular code of /repo; convention described in DESIGN.md section 1
   (e.g. the throw statements of /repo/src/graph/Graph.hpp:420-524). *)
Inductive outcome (A : Type) : Type :=
| Ret (a : A)
| Throw (x : exn)
| UB
| Fuel.
Global Arguments Ret {A} _.
Global Arguments Throw {A} _.
Global Arguments UB {A}.
Global Arguments Fuel {A}.

(* Sequencing of outcomes without state (C++ statement sequencing with exceptions,
   e.g. /repo/src/graph/Graph.hpp:446-453). *)
Definition obind {A B} (m : outcome A) (k : A -> outcome B) : outcome B :=
  match m with
  | Ret a => k a
  | Throw x => Throw x
  | UB => UB
  | Fuel => Fuel
  end.

(* Forgetting the returned value (a C++ call used as a statement),
   e.g. /repo/src/graph/EnvireGraph.cpp:343. *)
Definition ovoid {A} (m : outcome A) : outcome unit := obind m (fun _ => Ret tt).

(* Graph events handed to GraphEventPublisher::notify:
   /repo/src/events/GraphEvent.hpp:39-48 (kinds), EdgeEvents.hpp:74-123,
   FrameEvents.hpp:57-85, ItemAddedEvent.hpp:34-60, ItemRemovedEvent.hpp:34-62. *)
Inductive event : Type :=
| EvFrameAdded (f : frameid)
| EvFrameRemoved (f : frameid)
| EvEdgeAdded (o t : frameid) (e : eid)
| EvEdgeModified (o t : frameid) (e einv : eid)
| EvEdgeRemoved (o t : frameid)
| EvItemAdded (f : frameid) (i : iptr)
| EvItemRemoved (f : frameid) (i : iptr).

Global Instance event_eq_dec : EqDecision event.
Proof. solve_decision. Defined.
