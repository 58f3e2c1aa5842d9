(** boost::breadth_first_search and the two visitors of envire_core.
    Executable definitions only. *)
From stdpp Require Import prelude strings gmap.
From Verif Require Import Outcome Digraph.

Section bfs.
Context {D E : Type}.

(* Visitor call-backs made by boost::breadth_first_search, in call order.  Only the ones the
   visitors of /repo/src/graph/GraphVisitors.hpp:49-141 implement, plus finish_vertex. *)
Inductive bev : Type :=
| BDiscover (v : vid)
| BTree (e : erec E)
| BGray (e : erec E)
| BBlack (e : erec E)
| BFinish (v : vid).

(* Colours of the colour map; an absent key is white (value-initialised default_color_type).
   /repo/src/graph/Graph.hpp:1086-1090. *)
Inductive color : Type := CGray | CBlack.

(* Inner loop of breadth_first_search: examine the out-edges [es] of the current vertex.
   Called from /repo/src/graph/Graph.hpp:1094. *)
Fixpoint bfs_scan (es : list (erec E)) (col : gmap vid color) (q : list vid)
  : list bev * gmap vid color * list vid :=
  match es with
  | [] => ([], col, q)
  | e :: es' =>
      match col !! e_tgt e with
      | None =>
          let '(tr, c, q') := bfs_scan es' (<[e_tgt e := CGray]> col) (q ++ [e_tgt e]) in
          (BTree e :: BDiscover (e_tgt e) :: tr, c, q')
      | Some CGray =>
          let '(tr, c, q') := bfs_scan es' col q in (BGray e :: tr, c, q')
      | Some CBlack =>
          let '(tr, c, q') := bfs_scan es' col q in (BBlack e :: tr, c, q')
      end
  end.

(* Outer loop of breadth_first_search over the queue [q]; None = out of fuel.
   Called from /repo/src/graph/Graph.hpp:1094. *)
Fixpoint bfs_loop (fuel : nat) (out : vid -> list (erec E)) (col : gmap vid color)
    (q : list vid) : option (list bev) :=
  match q with
  | [] => Some []
  | u :: q' =>
      match fuel with
      | O => None
      | S n =>
          let '(tr, c, q2) := bfs_scan (out u) col q' in
          match bfs_loop n out (<[u := CBlack]> c) q2 with
          | Some tr2 => Some (tr ++ BFinish u :: tr2)
          | None => None
          end
      end
  end.

(* Graph::breadthFirstSearch on the graph restricted to the edges accepted by [flt]
   (constantly true for the unfiltered graph, EdgeFilter for boost::filtered_graph).
   /repo/src/graph/Graph.hpp:1075-1095, /repo/src/graph/GraphVisitors.hpp:144-158.
   Every vertex enters the queue at most once, so the number of vertices is enough fuel. *)
Definition bfs_trace (g : digraph D E) (flt : erec E -> bool) (root : vid)
  : outcome (list bev) :=
  if bg_alive g root then
    match bfs_loop (length (dg_verts g))
                   (fun u => filter (fun e => flt e = true) (bg_out g u))
                   {[ root := CGray ]} [root] with
    | Some tr => Ret (BDiscover root :: tr)
    | None => Fuel
    end
  else UB.

(* GraphBFSVisitor: tree_edge records the parent (unordered_map::insert keeps an existing
   entry), discover_vertex of the searched vertex stops the search by throwing
   FoundFrameException.  Result: the parent map at that moment, None if never found.
   /repo/src/graph/GraphVisitors.hpp:62-93. *)
Fixpoint search_visit (target : vid) (parent : gmap vid vid) (tr : list bev)
  : option (gmap vid vid) :=
  match tr with
  | [] => None
  | BDiscover v :: tr' =>
      if Nat.eqb target v then Some parent else search_visit target parent tr'
  | BTree e :: tr' =>
      search_visit target
        (match parent !! e_tgt e with
         | Some _ => parent
         | None => <[e_tgt e := e_src e]> parent
         end) tr'
  | _ :: tr' => search_visit target parent tr'
  end.

(* The loop building GraphBFSVisitor::tree by following the parent map from the target until
   null_vertex; /repo/src/graph/GraphVisitors.hpp:65-80.  None = out of fuel. *)
Fixpoint walk_up (fuel : nat) (parent : gmap vid vid) (v : vid) (acc : list vid)
  : option (list vid) :=
  if Nat.eqb v null_vertex then Some acc
  else match fuel with
       | O => None
       | S n => walk_up n parent (default null_vertex (parent !! v)) (v :: acc)
       end.

(* A breadth first search for [target] starting at [root] with GraphBFSVisitor, as in
   /repo/src/graph/Graph.hpp:596-600 and /repo/src/graph/TransformGraph.hpp:110-116.
   [Ret None]: search ended without FoundFrameException; [Ret (Some l)]: l is visit.tree. *)
Definition bfs_find (g : digraph D E) (root target : vid) : outcome (option (list vid)) :=
  obind (bfs_trace g (fun _ => true) root) (fun tr =>
    match search_visit target ∅ tr with
    | None => Ret None
    | Some parent =>
        match walk_up (S (size parent)) parent target [] with
        | Some l => Ret (Some l)
        | None => Fuel
        end
    end).

End bfs.
Global Arguments bev : clear implicits.
