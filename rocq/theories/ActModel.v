(** The calls of Graph with slots that act: what is connected to the signals of tree views runs inside the calls and may itself call the
    graph and the views.  Executable definitions only. *)
From stdpp Require Import prelude strings gmap.
From Verif Require Import Outcome Digraph Bfs TreeView GraphModel GraphOps HandlerModel.

(* What follows the edge [i] in a list of edges: the list iterator standing at that edge, incremented.  None: the edge is not in the list
   any more, its iterator is invalid.  The iterators of boost::breadth_first_search, called at /repo/src/graph/Graph.hpp:1094, over the
   out edges kept in a listS (/repo/src/graph/GraphTypes.hpp:126-155). *)
Fixpoint after {E} (i : eid) (l : list (erec E)) : option (list (erec E)) :=
  match l with
  | [] => None
  | e :: l' => if Nat.eqb (e_id e) i then Some l' else after i l'
  end.

Section acts.
Context {D E : Type} (d0 : D) (einv : E -> E).

(* The graph with its views, and how often the vector subscribedTreeViews has been changed: every push_back and every erase of an element
   makes the end iterators taken before it invalid.  /repo/src/graph/Graph.hpp:358, 573-587. *)
Definition ast : Type := gst D E * nat.

(* A call on the graph that emits no signal, e.g. /repo/src/graph/Graph.hpp:437-444; the vector was changed if its content differs
   (pushing or erasing elements always makes a difference, /repo/src/graph/Graph.hpp:573-587). *)
Definition alift {A} (m : call (gst D E) A) : call ast A := fun s =>
  let '(s', ev, r) := m (fst s) in
  ((s', if bool_decide (gs_subs s' = gs_subs (fst s)) then snd s else S (snd s)), ev, r).

(* Reading the state of the graph, e.g. /repo/src/graph/Graph.hpp:467-473. *)
Definition aread {A} (f : gst D E -> outcome A) : call ast A := cread (fun s => f (fst s)).

(* What all slots connected to a signal of a view do together when it is emitted: any calls, state changes, exceptions.
   /repo/src/graph/TreeView.hpp:185-201.  Simplification: the slots of one signal are one function. *)
Context (h : viewid -> vsig -> call ast unit).

(* Bound on the iterations of searches and of the loop of disconnectFrame (slots may add edges while they run).
   /repo/src/graph/Graph.hpp:495-503, 1094. *)
Context (fuel : nat).

(* Access to a TreeView through its pointer; a destroyed view is UB.  /repo/src/graph/Graph.hpp:724-737. *)
Definition aview (i : viewid) : call ast tview :=
  aread (fun s => match gs_views s !! i with Some w => Ret w | None => UB end).

(* Assignment to members of a view, /repo/src/graph/TreeView.cpp:149-155. *)
Definition aset (i : viewid) (w : tview) : call ast unit := cmodify (fun s => (gs_set_view i w (fst s), snd s)).

(* Emission of a signal: the slots run.  /repo/src/graph/TreeView.cpp:150, 156, 244. *)
Definition aemit (i : viewid) (g : vsig) (w : tview) : call ast unit := aset i (tv_emit g w) ;;; h i g.

(* TreeView::addCrossEdge, /repo/src/graph/TreeView.cpp:145-151. *)
Definition act_add_cross (i : viewid) (o t : vid) (e : eid) : call ast unit :=
  w <-- aview i ;;
  aemit i (SigCross (Cross o t e)) (tv_set_cross (tv_cross w ++ [Cross o t e]) w).

(* TreeView::addEdge, /repo/src/graph/TreeView.cpp:152-157. *)
Definition act_add_edge (i : viewid) (o t : vid) : call ast unit :=
  w <-- aview i ;;
  let ro := tv_rel (tv_tree w) o in
  let t1 := <[o := VRel (vr_parent ro) (set_insert t (vr_children ro))]> (tv_tree w) in
  let rt := tv_rel t1 t in
  aemit i (SigAdded o t) (tv_set_tree (<[t := VRel o (vr_children rt)]> t1) w).

(* The loop of TreeView::removeEdge over the vertices to be removed, /repo/src/graph/TreeView.cpp:231-244. *)
Fixpoint act_remove_vertices (i : viewid) (vs : list vid) : call ast unit :=
  match vs with
  | [] => cret tt
  | node :: vs' =>
      w <-- aview i ;;
      let parent := vr_parent (tv_rel (tv_tree w) node) in
      let rp := tv_rel (tv_tree w) parent in
      let t1 := <[parent := VRel (vr_parent rp) (set_erase node (vr_children rp))]> (tv_tree w) in
      if bool_decide (vr_children (tv_rel t1 node) = []) then
        aemit i (SigRemoved parent node) (tv_set_tree (delete node t1) w) ;;;
        act_remove_vertices i vs'
      else aread (fun _ => UB)
  end.

(* TreeView::removeEdge: the vertices to be removed are collected before the first signal.  /repo/src/graph/TreeView.cpp:161-253. *)
Definition act_tv_remove_edge (ord : order) (i : viewid) (o t : vid) : call ast unit :=
  w <-- aview i ;;
  let real :=
    if Nat.eqb (vr_parent (tv_rel (tv_tree w) t)) o then Some t
    else if Nat.eqb (vr_parent (tv_rel (tv_tree w) o)) t then Some o
    else None in
  match real with
  | None => aread (fun _ => UB)
  | Some rt =>
      let '(visited, r) := tv_visit_bfs (S (size (tv_tree w))) ord w [rt] in
      let is := mjoin ((fun vp => xs_touching (fst vp) (tv_cross w) 0) <$> visited) in
      match xs_steps is (XState (tv_cross w) (length (tv_cross w)) []) with
      | None => aread (fun _ => UB)
      | Some xs =>
          aset i (tv_set_cross (xs_cross xs) w) ;;;
          aread (fun _ => r) ;;;
          act_remove_vertices i (rev (fst <$> visited)) ;;;
          aread (fun _ => match xs_leaving xs with [] => Ret tt | _ => Throw XRuntime end)
      end
  end.

(* The inner loop of breadth_first_search with TreeBuilderVisitor over the out edges of [u] that follow [prev], read from the graph as it
   is after the slots of the last edge have run; an edge under the iterator that has been removed is UB.
   Called from /repo/src/graph/Graph.hpp:1094; /repo/src/graph/GraphVisitors.hpp:102-141. *)
Fixpoint act_scan (n : nat) (i : viewid) (flt : erec E -> bool) (u : vid) (prev : option eid) (col : gmap vid color) (q : list vid)
  : call ast (gmap vid color * list vid) := fun s =>
  if bg_alive (gs_dg (fst s)) u then
    match (match prev with None => Some (bg_out (gs_dg (fst s)) u) | Some e => after e (bg_out (gs_dg (fst s)) u) end) with
    | None => (s, [], UB)
    | Some es =>
        match filter (fun e => flt e = true) es with
        | [] => (s, [], Ret (col, q))
        | e :: _ =>
            match n with
            | O => (s, [], Fuel)
            | S n' =>
                match col !! e_tgt e with
                | None =>
                    (act_add_edge i (e_src e) (e_tgt e) ;;;
                     act_scan n' i flt u (Some (e_id e)) (<[e_tgt e := CGray]> col) (q ++ [e_tgt e])) s
                | Some CGray =>
                    (act_add_cross i (e_src e) (e_tgt e) (e_id e) ;;;
                     act_scan n' i flt u (Some (e_id e)) col q) s
                | Some CBlack => act_scan n' i flt u (Some (e_id e)) col q s
                end
            end
        end
    end
  else (s, [], UB).

(* The outer loop of breadth_first_search over its queue.  Called from /repo/src/graph/Graph.hpp:1094. *)
Fixpoint act_loop (n : nat) (i : viewid) (flt : erec E -> bool) (col : gmap vid color) (q : list vid) : call ast unit :=
  match q with
  | [] => cret tt
  | u :: q' =>
      match n with
      | O => aread (fun _ => Fuel)
      | S n' =>
          cq <-- act_scan fuel i flt u None col q' ;;
          act_loop n' i flt (<[u := CBlack]> (fst cq)) (snd cq)
      end
  end.

(* Graph::breadthFirstSearch with TreeBuilderVisitor, /repo/src/graph/Graph.hpp:1075-1095, /repo/src/graph/GraphVisitors.hpp:102-141. *)
Definition act_bfs (i : viewid) (flt : erec E -> bool) (root : vid) : call ast unit :=
  aread (fun s => if bg_alive (gs_dg s) root then Ret tt else UB) ;;;
  act_loop fuel i flt {[ root := CGray ]} [root].

(* The part of Graph::addEdgeToTreeView that adds a vertex to the view and, if more is connected to it, searches on from it.
   /repo/src/graph/Graph.hpp:793-827. *)
Definition act_grow (i : viewid) (inv notinv : vid) : call ast unit :=
  act_add_edge i inv notinv ;;;
  d <-- aread (fun s => if bg_alive (gs_dg s) notinv then Ret (bg_degree (gs_dg s) notinv) else UB) ;;
  if bool_decide (2 < d) then
    id1 <-- aread (fun s => get_frame_id s inv) ;;
    id2 <-- aread (fun s => get_frame_id s notinv) ;;
    e1 <-- aread (fun s => get_edge s id1 id2) ;;
    e2 <-- aread (fun s => get_edge s id2 id1) ;;
    act_bfs i (fun e => negb (Nat.eqb (e_id e) (e_id e1)) && negb (Nat.eqb (e_id e) (e_id e2))) notinv
  else cret tt.

(* Graph::addEdgeToTreeView, /repo/src/graph/Graph.hpp:740-828. *)
Definition act_add_to_view (ne : erec E) (i : viewid) : call ast unit :=
  w <-- aview i ;;
  let src := get_source_vertex ne in
  let tar := get_target_vertex ne in
  match tv_vertex_exists w src, tv_vertex_exists w tar with
  | true, true =>
      b <-- aread (fun _ => tv_edge_exists w src tar) ;;
      if b : bool then cret tt else act_add_cross i src tar (e_id ne)
  | true, false => act_grow i src tar
  | false, true => act_grow i tar src
  | false, false => cret tt
  end.

(* The body of the loop of Graph::removeEdgeFromTreeViews, /repo/src/graph/Graph.hpp:724-728. *)
Definition act_remove_from_view (ord : viewid -> order) (o t : vid) (i : viewid) : call ast unit :=
  w <-- aview i ;;
  b <-- aread (fun _ => tv_edge_exists w o t) ;;
  if b : bool then act_tv_remove_edge (ord i) i o t else cret tt.

(* for(TreeView* view : subscribedTreeViews): begin and end are taken once; after the body the iterator is incremented and compared with
   the end, which is UB if the vector was changed since the count [n].  /repo/src/graph/Graph.hpp:724-728, 734-737. *)
Fixpoint act_views (f : viewid -> call ast unit) (n : nat) (l : list viewid) : call ast unit :=
  match l with
  | [] => cret tt
  | i :: l' =>
      f i ;;;
      (fun s => if Nat.eqb (snd s) n then act_views f n l' s else (s, [], UB))
  end.

(* Graph::add_edge(vertex, vertex, prop), /repo/src/graph/Graph.hpp:630-657. *)
Definition act_add_edge_v (o t : vid) (p : E) : call ast unit :=
  e <-- aread (fun s => find_edge s o t) ;;
  match e with
  | Some _ =>
      fo <-- aread (fun s => get_frame_id s o) ;;
      ft <-- aread (fun s => get_frame_id s t) ;;
      aread (fun _ => Throw (XEdgeAlreadyExists fo ft))
  | None =>
      aread (fun s => if bg_alive (gs_dg s) t then Ret tt else UB) ;;;
      i <-- alift (fun s => let '(g, i) := bg_add_edge o t p (gs_dg s) in (gs_set_dg g s, [], Ret i)) ;;
      alift (cmodify (fun s => gs_set_dg (fst (bg_add_edge t o (einv p) (gs_dg s))) s)) ;;;
      (fun s => act_views (act_add_to_view (ERec i o t p)) (snd s) (gs_subs (fst s)) s) ;;;
      fo <-- aread (fun s => get_frame_id s o) ;;
      ft <-- aread (fun s => get_frame_id s t) ;;
      cnotify (EvEdgeAdded fo ft i)
  end.

(* Graph::add_edge(name, name, prop), /repo/src/graph/Graph.hpp:659-682. *)
Definition act_add_edge_n (o t : frameid) (p : E) : call ast unit := fun s0 =>
  let o0 := bg_vertex (gs_dg (fst s0)) o in
  let t0 := bg_vertex (gs_dg (fst s0)) t in
  (vo <-- (if Nat.eqb o0 null_vertex then alift (add_vertex o d0) else cret o0) ;;
   vt <-- (if Nat.eqb t0 null_vertex then alift (add_vertex t d0) else cret t0) ;;
   act_add_edge_v vo vt p) s0.

(* Graph::remove_edge(name, name, vertex, vertex), /repo/src/graph/Graph.hpp:684-705. *)
Definition act_remove_impl (ord : viewid -> order) (o t : frameid) (vo vt : vid) : call ast unit :=
  ot <-- aread (fun s => find_edge s vo vt) ;;
  to <-- aread (fun s => find_edge s vt vo) ;;
  match ot, to with
  | Some e1, Some e2 =>
      alift (boost_remove_edge (e_id e1)) ;;;
      cnotify (EvEdgeRemoved o t) ;;;
      alift (boost_remove_edge (e_id e2)) ;;;
      (fun s => act_views (act_remove_from_view ord vo vt) (snd s) (gs_subs (fst s)) s)
  | _, _ => aread (fun _ => Throw (XUnknownEdge o t))
  end.

(* Graph::remove_edge(vertex, vertex), /repo/src/graph/Graph.hpp:707-712. *)
Definition act_remove_v (ord : viewid -> order) (vo vt : vid) : call ast unit :=
  o <-- aread (fun s => get_frame_id s vo) ;;
  t <-- aread (fun s => get_frame_id s vt) ;;
  act_remove_impl ord o t vo vt.

(* Graph::remove_edge(name, name), /repo/src/graph/Graph.hpp:714-719. *)
Definition act_remove_n (ord : viewid -> order) (o t : frameid) : call ast unit :=
  vo <-- aread (fun s => get_vertex s o) ;;
  vt <-- aread (fun s => get_vertex s t) ;;
  act_remove_impl ord o t vo vt.

(* The loop of Graph::disconnectFrame, /repo/src/graph/Graph.hpp:495-503; a vertex that a slot has removed is UB. *)
Fixpoint act_disconnect_loop (n : nat) (ord : viewid -> order) (v : vid) : call ast unit := fun s =>
  if bg_alive (gs_dg (fst s)) v then
    match bg_out (gs_dg (fst s)) v with
    | [] => (s, [], Ret tt)
    | e :: _ =>
        match n with
        | O => (s, [], Fuel)
        | S n' => (act_remove_v ord v (e_tgt e) ;;; act_disconnect_loop n' ord v) s
        end
    end
  else (s, [], UB).

(* Graph::disconnectFrame, /repo/src/graph/Graph.hpp:486-504. *)
Definition act_disconnect (ord : viewid -> order) (f : frameid) : call ast unit :=
  v <-- aread (fun s => get_vertex s f) ;;
  act_disconnect_loop fuel ord v.

(* Graph::getTree(vertex, keepTreeUpdated, TreeView* ), /repo/src/graph/Graph.hpp:548-556, 565-571. *)
Definition act_get_tree_v (root : vid) (keep : bool) (i : viewid) : call ast unit :=
  w <-- aview i ;;
  aset i (tv_add_root root w) ;;;
  act_bfs i (fun _ => true) root ;;;
  if keep then alift (subscribe_tree_view i) else cret tt.

(* One public call with slots that run inside it; the other calls emit no signals and are those of GraphOps.v.
   /repo/src/graph/Graph.hpp:95-330, /repo/src/graph/TreeView.hpp:84-120. *)
Definition gact (ord : viewid -> order) (op : gop D E) : call ast unit :=
  match op with
  | OAddEdge o t p => act_add_edge_n o t p
  | OAddEdgeV o t p => act_add_edge_v o t p
  | ORemoveEdge o t => act_remove_n ord o t
  | ORemoveEdgeV o t => act_remove_v ord o t
  | ODisconnect f => act_disconnect ord f
  | OGetTree root keep i => v <-- aread (fun s => get_vertex s root) ;; act_get_tree_v v keep i
  | OGetTreeV root keep i => act_get_tree_v root keep i
  | _ => alift (gstep d0 einv ord op)
  end.

End acts.
Global Arguments ast : clear implicits.

Section programs.
Context {D E : Type} (d0 : D) (einv : E -> E).

(* Executing what a slot does (HandlerModel.v, script) when [h] are the slots of the signals emitted by the calls it makes.
   /repo/src/graph/TreeView.hpp:185-201. *)
Fixpoint act_exec (h : viewid -> vsig -> call (ast D E) unit) (fuel : nat) (sc : script D E) : call (ast D E) unit := fun s =>
  match sc with
  | SEnd => (s, [], Ret tt)
  | SThrow x => (s, [], Throw x)
  | SCall ord op k =>
      let '(s1, ev1, r) := gact d0 einv h fuel ord op s in
      match r with
      | Ret _ | Throw _ => let '(s2, ev2, r2) := act_exec h fuel (k (fst s1) r) s1 in (s2, ev1 ++ ev2, r2)
      | UB => (s1, ev1, UB)
      | Fuel => (s1, ev1, Fuel)
      end
  end.

(* Slots that decide by the view, the signal and the state what to do, and react to the signals of their own calls as well; [depth] bounds
   the nesting.  /repo/src/graph/TreeView.hpp:185-201. *)
Fixpoint act_slots (react : viewid -> vsig -> gst D E -> script D E) (fuel depth : nat) (i : viewid) (g : vsig) : call (ast D E) unit :=
  fun s =>
  match depth with
  | O => (s, [], Fuel)
  | S n => act_exec (act_slots react fuel n) fuel (react i g (fst s)) s
  end.

(* A program of calls made while such slots are connected, exceptions caught by the caller; as [run] of GraphOps.v.
   Models client code, e.g. the calls in /repo/src/graph/EnvireGraph.cpp:216-241. *)
Definition act_run (react : viewid -> vsig -> gst D E -> script D E) (fuel depth : nat) (sc : script D E) : call (ast D E) unit :=
  act_exec (act_slots react fuel depth) fuel sc.

End programs.
