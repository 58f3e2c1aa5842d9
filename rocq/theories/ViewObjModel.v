(** TreeView objects as values: assignment, clearing, getTree by value, rebuilding, destruction order.
    Executable definitions only. *)
From stdpp Require Import prelude strings gmap.
From Verif Require Import Outcome Digraph Bfs TreeView GraphModel.

Section viewobj.
Context {D E : Type}.
Implicit Types (s : gst D E).

(* TreeView::operator=: the view at [i] is assigned the view at [j].  publisher, tree, crossEdges and root are
   copied; the three signals (and the ghost history of what they emitted) stay those of the target, and the
   publisher is not told.  /repo/src/graph/TreeView.cpp:34-46. *)
Definition assign_view (i j : viewid) : call (gst D E) unit := fun s =>
  match gs_views s !! i, gs_views s !! j with
  | Some wi, Some wj =>
      (gs_set_view i (TView (tv_root wj) (tv_tree wj) (tv_cross wj) (tv_pub wj) (tv_log wi)
                            (tv_slots_cross wi) (tv_slots_added wi) (tv_slots_removed wi)) s, [], Ret tt)
  | _, _ => (s, [], UB)
  end.

(* TreeView::clear on the view at [i], /repo/src/graph/TreeView.cpp:97-102. *)
Definition clear_view (i : viewid) : call (gst D E) unit := fun s =>
  match gs_views s !! i with
  | Some w => (gs_set_view i (tv_clear w) s, [], Ret tt)
  | None => (s, [], UB)
  end.

(* TreeView::hasRoot, /repo/src/graph/TreeView.cpp:75-84. *)
Definition tv_has_root (w : tview) : bool := negb (Nat.eqb (tv_root w) null_vertex).

(* TreeView::TreeView(vertex_descriptor) at address [i], /repo/src/graph/TreeView.hpp:84. *)
Definition new_view_at (root : vid) (i : viewid) : call (gst D E) unit := fun s =>
  match gs_views s !! i with
  | Some _ => (s, [], UB)
  | None => (gs_set_view i (tv_set_root root tv_new) s, [], Ret tt)
  end.

(* Stack unwinding over the local view at [tmp]: it is destroyed whether the block returns or throws.
   C++ semantics of the local at /repo/src/graph/Graph.hpp:529-531. *)
Definition with_local (tmp : viewid) (m : call (gst D E) unit) : call (gst D E) unit := fun s =>
  let '(s1, ev1, r) := m s in
  match r with
  | Ret _ => let '(s2, ev2, r2) := destroy_view tmp s1 in (s2, ev1 ++ ev2, r2)
  | Throw x => let '(s2, ev2, r2) := destroy_view tmp s1 in
               (s2, ev1 ++ ev2, match r2 with Ret _ => Throw x | r' => r' end)
  | UB => (s1, ev1, UB)
  | Fuel => (s1, ev1, Fuel)
  end.

(* Graph::getTree(vertex) by value: a local view at [tmp], filled, moved into the result at [j], destroyed.
   /repo/src/graph/Graph.hpp:526-532. *)
Definition get_tree_value_v (root : vid) (tmp j : viewid) : call (gst D E) unit :=
  new_view_at root tmp ;;;
  with_local tmp (get_tree_v root false tmp ;;; move_view tmp j).

(* Graph::getTree(name) by value, /repo/src/graph/Graph.hpp:534-539. *)
Definition get_tree_value (root : frameid) (tmp j : viewid) : call (gst D E) unit :=
  v <-- cread (fun s => get_vertex s root) ;;
  get_tree_value_v v tmp j.

(* The loop of Graph::rebuildTreeViews over the remaining views [l], /repo/src/graph/Graph.hpp:833-837.  The
   root is read after clear. *)
Fixpoint rebuild_loop (l : list viewid) : call (gst D E) unit :=
  match l with
  | [] => cret tt
  | i :: l' =>
      clear_view i ;;;
      root <-- cread (fun s => match gs_views s !! i with Some w => Ret (tv_root w) | None => UB end) ;;
      get_tree_v root false i ;;;
      rebuild_loop l'
  end.

(* Graph::rebuildTreeViews, /repo/src/graph/Graph.hpp:830-838. *)
Definition rebuild_tree_views : call (gst D E) unit := fun s => rebuild_loop (gs_subs s) s.

End viewobj.

(* The objects of a program at the end of their lives: the graph, if it still exists, and the views.
   /repo/src/graph/Graph.hpp:358 (the graph knows its views), /repo/src/graph/TreeView.hpp:216 (a view knows its
   publisher). *)
Record world (D E : Type) := World { wd_graph : option (gst D E); wd_views : gmap viewid tview }.
Global Arguments World {D E} _ _.
Global Arguments wd_graph {D E} _.
Global Arguments wd_views {D E} _.

(* One end of life: of the graph or of one view.  /repo/src/graph/Graph.hpp:61 (implicit destructor),
   /repo/src/graph/TreeView.cpp:65-73. *)
Inductive death := DeadGraph | DeadView (i : viewid).

Section teardown.
Context {D E : Type}.

(* The program with graph object [s]; the views of [gs_views] are its views.  /repo/src/graph/Graph.hpp:358. *)
Definition world_of (s : gst D E) : world D E := World (Some s) (gs_views s).

(* Destroying one object.  The graph's implicit destructor does not touch the views; a view with a publisher calls
   unsubscribeTreeView on it, which is UB if the publisher is gone; destroying an object twice is UB.
   /repo/src/graph/TreeView.cpp:65-73, /repo/src/graph/Graph.hpp:573-579. *)
Definition die (x : death) (w : world D E) : outcome (world D E) :=
  match x with
  | DeadGraph => match wd_graph w with Some _ => Ret (World None (wd_views w)) | None => UB end
  | DeadView i =>
      match wd_views w !! i with
      | None => UB
      | Some v =>
          match wd_graph w with
          | Some s =>
              let '(s', _, r) := destroy_view i s in
              obind r (fun _ => Ret (World (Some s') (delete i (wd_views w))))
          | None => if tv_pub v then UB else Ret (World None (delete i (wd_views w)))
          end
      end
  end.

(* Destroying several objects in order; end of a scope of a client of /repo/src/graph/Graph.hpp:61. *)
Fixpoint teardown (l : list death) (w : world D E) : outcome (world D E) :=
  match l with
  | [] => Ret w
  | x :: l' => obind (die x w) (teardown l')
  end.

End teardown.
