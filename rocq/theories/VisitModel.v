(** Model of visitVertices, with a visitor that may use the graph.  Executable definitions only. *)
From stdpp Require Import prelude strings gmap.
From Verif Require Import Outcome Digraph TreeView GraphModel GraphOps HandlerModel.

Section visit.
Context {D E : Type} (d0 : D) (einv : E -> E).
Local Notation gst := (gst D E).

(* The body of a callable object, run to its end: calls of the graph, the next one chosen by what the last one did.  Client code, as the
   lambdas at /repo/test/test_graph.cpp:1217-1244; the calls are those of /repo/src/graph/Graph.hpp:95-330. *)
Fixpoint body (sc : script D E) : call gst unit := fun s =>
  match sc with
  | SEnd => (s, [], Ret tt)
  | SThrow x => (s, [], Throw x)
  | SCall ord op k =>
      let '(s1, ev1, r) := gstep d0 einv ord op s in
      match r with
      | Ret _ | Throw _ => let '(s2, ev2, r2) := body (k s1 r) s1 in (s2, ev1 ++ ev2, r2)
      | UB => (s1, ev1, UB)
      | Fuel => (s1, ev1, Fuel)
      end
  end.

(* The callable object handed to visitVertices, /repo/src/graph/Graph.hpp:306-309: what it does for a vertex and what it remembers, both
   any function of its memory, the vertex and the state of the graph. *)
Record visitor (C : Type) := Visitor { vz_do : C -> vid -> gst -> script D E; vz_memory : C -> vid -> gst -> C }.
Global Arguments vz_do {C} _ _ _ _.
Global Arguments vz_memory {C} _ _ _ _.

(* ++vert for the list of vertices: the next one, [Some None] is vertices.second (the end of the list stays where it is); [None] (UB) if the
   vertex was removed.  /repo/src/graph/Graph.hpp:1102, the list is selected at lines 391-392. *)
Fixpoint next_vertex (vs : list (vrec D)) (v : vid) : option (option vid) :=
  match vs with
  | [] => None
  | r :: vs' => if Nat.eqb (v_id r) v then Some (v_id <$> head vs') else next_vertex vs' v
  end.

(* The loop of visitVertices, /repo/src/graph/Graph.hpp:1102-1104.  [n] bounds the number of rounds; beside the graph the state holds the
   vertices visited so far, which no code reads. *)
Fixpoint visit_loop {C} (z : visitor C) (n : nat) (c : C) (cur : option vid) : call (gst * list vid) unit := fun s =>
  match cur with
  | None => (s, [], Ret tt)
  | Some v =>
      match n with
      | O => (s, [], Fuel)
      | S n' =>
          let '(s1, ev1, r) := body (vz_do z c v (fst s)) (fst s) in
          let s' := (s1, snd s ++ [v]) in
          match r with
          | Ret _ =>
              match next_vertex (dg_verts (gs_dg s1)) v with
              | None => (s', ev1, UB)
              | Some nx => let '(s2, ev2, r2) := visit_loop z n' (vz_memory z c v (fst s)) nx s' in (s2, ev1 ++ ev2, r2)
              end
          | Throw x => (s', ev1, Throw x)
          | UB => (s', ev1, UB)
          | Fuel => (s', ev1, Fuel)
          end
      end
  end.

(* visitVertices, /repo/src/graph/Graph.hpp:1097-1105. *)
Definition visit_vertices {C} (z : visitor C) (n : nat) (c : C) : call (gst * list vid) unit := fun s =>
  visit_loop z n c (v_id <$> head (dg_verts (gs_dg (fst s)))) s.

End visit.
Global Arguments visitor : clear implicits.
Global Arguments Visitor {D E C} _ _.
