(** What the slots connected to the signals of tree views can see: the calls of Graph and TreeView with the state at every emission.
    Executable definitions only. *)
From stdpp Require Import prelude strings gmap.
From Verif Require Import Outcome Digraph Bfs TreeView GraphModel GraphOps.

(* An emission of a signal and the view at that moment, /repo/src/graph/TreeView.hpp:185-201. *)
Definition sight : Type := vsig * tview.

(* TreeView::addCrossEdge: the entry is put into crossEdges first, /repo/src/graph/TreeView.cpp:145-151. *)
Definition see_add_cross (o t : vid) (e : eid) (w : tview) : tview * list sight :=
  let w1 := tv_set_cross (tv_cross w ++ [Cross o t e]) w in
  (tv_emit (SigCross (Cross o t e)) w1, [(SigCross (Cross o t e), w1)]).

(* TreeView::addEdge: both entries are written first, /repo/src/graph/TreeView.cpp:152-157. *)
Definition see_add_edge (o t : vid) (w : tview) : tview * list sight :=
  let ro := tv_rel (tv_tree w) o in
  let t1 := <[o := VRel (vr_parent ro) (set_insert t (vr_children ro))]> (tv_tree w) in
  let rt := tv_rel t1 t in
  let w1 := tv_set_tree (<[t := VRel o (vr_children rt)]> t1) w in
  (tv_emit (SigAdded o t) w1, [(SigAdded o t, w1)]).

(* The loop of TreeView::removeEdge over the vertices to be removed: the vertex leaves the tree, then the signal is emitted.
   /repo/src/graph/TreeView.cpp:231-244. *)
Fixpoint see_remove_vertices (vs : list vid) (w : tview) : tview * list sight * outcome unit :=
  match vs with
  | [] => (w, [], Ret tt)
  | node :: vs' =>
      let parent := vr_parent (tv_rel (tv_tree w) node) in
      let rp := tv_rel (tv_tree w) parent in
      let t1 := <[parent := VRel (vr_parent rp) (set_erase node (vr_children rp))]> (tv_tree w) in
      if bool_decide (vr_children (tv_rel t1 node) = []) then
        let w1 := tv_set_tree (delete node t1) w in
        let '(w2, l, r) := see_remove_vertices vs' (tv_emit (SigRemoved parent node) w1) in
        (w2, (SigRemoved parent node, w1) :: l, r)
      else (w, [], UB)
  end.

(* TreeView::removeEdge, /repo/src/graph/TreeView.cpp:161-253. *)
Definition see_remove_edge (ord : order) (o t : vid) (w : tview) : tview * list sight * outcome unit :=
  let real :=
    if Nat.eqb (vr_parent (tv_rel (tv_tree w) t)) o then Some t
    else if Nat.eqb (vr_parent (tv_rel (tv_tree w) o)) t then Some o
    else None in
  match real with
  | None => (w, [], UB)
  | Some rt =>
      let '(visited, r) := tv_visit_bfs (S (size (tv_tree w))) ord w [rt] in
      let is := mjoin ((fun vp => xs_touching (fst vp) (tv_cross w) 0) <$> visited) in
      match xs_steps is (XState (tv_cross w) (length (tv_cross w)) []) with
      | None => (w, [], UB)
      | Some xs =>
          let w1 := tv_set_cross (xs_cross xs) w in
          match r with
          | Ret _ =>
              let '(w2, l, r2) := see_remove_vertices (rev (fst <$> visited)) w1 in
              match r2 with
              | Ret _ =>
                  match xs_leaving xs with
                  | [] => (w2, l, Ret tt)
                  | _ => (w2, l, Throw XRuntime)
                  end
              | _ => (w2, l, r2)
              end
          | _ => (w1, [], r)
          end
      end
  end.

(* TreeBuilderVisitor over the call-backs of one search, /repo/src/graph/GraphVisitors.hpp:102-141. *)
Fixpoint see_build {E} (tr : list (bev E)) (w : tview) : tview * list sight :=
  match tr with
  | [] => (w, [])
  | b :: tr' =>
      let '(w1, l1) :=
        match b with
        | BTree e => see_add_edge (e_src e) (e_tgt e) w
        | BGray e => see_add_cross (e_src e) (e_tgt e) (e_id e) w
        | _ => (w, [])
        end in
      let '(w2, l2) := see_build tr' w1 in (w2, l1 ++ l2)
  end.

Section slots.
Context {D E : Type} (d0 : D) (einv : E -> E).

(* An emission as the slots of the view [sn_view] find it: the graph, the views and the list of subscribed views.
   /repo/src/graph/TreeView.hpp:185-201. *)
Record seen : Type := Seen { sn_view : viewid; sn_sig : vsig; sn_state : gst D E }.

(* A call with the events it publishes and the signals it emits, in order.  Slots only read: they do not call back into the graph or
   the view (simplification; /repo/src/graph/TreeView.hpp:185-201). *)
Definition scall (A : Type) : Type := gst D E -> gst D E * list (event + seen) * outcome A.

(* A call that emits no signal, e.g. /repo/src/graph/Graph.hpp:437-444. *)
Definition slift {A} (m : call (gst D E) A) : scall A := fun s => let '(s', ev, r) := m s in (s', inl <$> ev, r).

(* C++ statement sequencing with exceptions, e.g. /repo/src/graph/Graph.hpp:684-705. *)
Definition sbind {A B} (m : scall A) (k : A -> scall B) : scall B := fun s =>
  let '(s1, l1, r1) := m s in
  match r1 with
  | Ret a => let '(s2, l2, r2) := k a s1 in (s2, l1 ++ l2, r2)
  | Throw x => (s1, l1, Throw x)
  | UB => (s1, l1, UB)
  | Fuel => (s1, l1, Fuel)
  end.

(* Graph::addEdgeToTreeView, /repo/src/graph/Graph.hpp:740-828. *)
Definition see_add_to_view (s : gst D E) (ne : erec E) (w : tview) : tview * list sight * outcome unit :=
  let src := get_source_vertex ne in
  let tar := get_target_vertex ne in
  let go (inv notinv : vid) : tview * list sight * outcome unit :=
    let '(w1, l1) := see_add_edge inv notinv w in
    if bg_alive (gs_dg s) notinv then
      if bool_decide (2 < bg_degree (gs_dg s) notinv) then
        match obind (get_frame_id s inv) (fun id1 =>
              obind (get_frame_id s notinv) (fun id2 =>
              obind (get_edge s id1 id2) (fun e1 =>
              obind (get_edge s id2 id1) (fun e2 =>
              bfs_trace (gs_dg s)
                (fun e => negb (Nat.eqb (e_id e) (e_id e1)) && negb (Nat.eqb (e_id e) (e_id e2)))
                notinv)))) with
        | Ret tr => let '(w2, l2) := see_build tr w1 in (w2, l1 ++ l2, Ret tt)
        | Throw x => (w1, l1, Throw x)
        | UB => (w1, l1, UB)
        | Fuel => (w1, l1, Fuel)
        end
      else (w1, l1, Ret tt)
    else (w1, l1, UB) in
  match tv_vertex_exists w src, tv_vertex_exists w tar with
  | true, true =>
      match tv_edge_exists w src tar with
      | Ret false => let '(w1, l1) := see_add_cross src tar (e_id ne) w in (w1, l1, Ret tt)
      | Ret true => (w, [], Ret tt)
      | Throw x => (w, [], Throw x)
      | UB => (w, [], UB)
      | Fuel => (w, [], Fuel)
      end
  | true, false => go src tar
  | false, true => go tar src
  | false, false => (w, [], Ret tt)
  end.

(* The emissions of one view inside the whole state, /repo/src/graph/Graph.hpp:721-738. *)
Definition see_in (i : viewid) (s : gst D E) (l : list sight) : list (event + seen) :=
  (fun x => inr (Seen i (fst x) (gs_set_view i (snd x) s))) <$> l.

(* Iteration over subscribedTreeViews, /repo/src/graph/Graph.hpp:724-728, 734-737. *)
Fixpoint see_views (f : viewid -> tview -> tview * list sight * outcome unit) (l : list viewid) : scall unit := fun s =>
  match l with
  | [] => (s, [], Ret tt)
  | i :: l' =>
      match gs_views s !! i with
      | None => (s, [], UB)
      | Some w =>
          let '(w', x, r) := f i w in
          let s' := gs_set_view i w' s in
          match r with
          | Ret _ => let '(s2, y, r2) := see_views f l' s' in (s2, see_in i s x ++ y, r2)
          | _ => (s', see_in i s x, r)
          end
      end
  end.

(* Graph::add_edge(vertex, vertex, prop): both edges, then the views, then the event; /repo/src/graph/Graph.hpp:630-657. *)
Definition see_add_edge_v (o t : vid) (p : E) : scall unit :=
  sbind (slift (cread (fun s => find_edge s o t))) (fun e =>
  match e with
  | Some _ =>
      slift (fo <-- cread (fun s => get_frame_id s o) ;; ft <-- cread (fun s => get_frame_id s t) ;;
             cread (fun _ => Throw (XEdgeAlreadyExists fo ft)))
  | None =>
      sbind (slift (cread (fun s => if bg_alive (gs_dg s) t then Ret tt else UB) ;;;
                    i <-- (fun s => let '(g, i) := bg_add_edge o t p (gs_dg s) in (gs_set_dg g s, [], Ret i)) ;;
                    cmodify (fun s => gs_set_dg (fst (bg_add_edge t o (einv p) (gs_dg s))) s) ;;;
                    cret i)) (fun i =>
      sbind (fun s => see_views (fun _ w => see_add_to_view s (ERec i o t p) w) (gs_subs s) s) (fun _ =>
      slift (fo <-- cread (fun s => get_frame_id s o) ;; ft <-- cread (fun s => get_frame_id s t) ;;
             cnotify (EvEdgeAdded fo ft i))))
  end).

(* Graph::add_edge(name, name, prop), /repo/src/graph/Graph.hpp:659-682. *)
Definition see_add_edge_n (o t : frameid) (p : E) : scall unit := fun s0 =>
  let o0 := bg_vertex (gs_dg s0) o in
  let t0 := bg_vertex (gs_dg s0) t in
  sbind (slift (if Nat.eqb o0 null_vertex then add_vertex o d0 else cret o0)) (fun vo =>
  sbind (slift (if Nat.eqb t0 null_vertex then add_vertex t d0 else cret t0)) (fun vt =>
  see_add_edge_v vo vt p)) s0.

(* Graph::remove_edge(name, name, vertex, vertex): one edge, the event, the other edge, then the views;
   /repo/src/graph/Graph.hpp:684-705. *)
Definition see_remove_impl (ord : viewid -> order) (o t : frameid) (vo vt : vid) : scall unit :=
  sbind (slift (cread (fun s => find_edge s vo vt))) (fun ot =>
  sbind (slift (cread (fun s => find_edge s vt vo))) (fun to =>
  match ot, to with
  | Some e1, Some e2 =>
      sbind (slift (boost_remove_edge (e_id e1) ;;; cnotify (EvEdgeRemoved o t) ;;; boost_remove_edge (e_id e2))) (fun _ => fun s =>
      see_views (fun i w =>
        match tv_edge_exists w vo vt with
        | Ret true => see_remove_edge (ord i) vo vt w
        | Ret false => (w, [], Ret tt)
        | Throw x => (w, [], Throw x)
        | UB => (w, [], UB)
        | Fuel => (w, [], Fuel)
        end) (gs_subs s) s)
  | _, _ => slift (cread (fun _ => Throw (XUnknownEdge o t)))
  end)).

(* Graph::remove_edge(vertex, vertex), /repo/src/graph/Graph.hpp:707-712. *)
Definition see_remove_v (ord : viewid -> order) (vo vt : vid) : scall unit :=
  sbind (slift (cread (fun s => get_frame_id s vo))) (fun o =>
  sbind (slift (cread (fun s => get_frame_id s vt))) (fun t =>
  see_remove_impl ord o t vo vt)).

(* Graph::remove_edge(name, name), /repo/src/graph/Graph.hpp:714-719. *)
Definition see_remove_n (ord : viewid -> order) (o t : frameid) : scall unit :=
  sbind (slift (cread (fun s => get_vertex s o))) (fun vo =>
  sbind (slift (cread (fun s => get_vertex s t))) (fun vt =>
  see_remove_impl ord o t vo vt)).

(* The loop of Graph::disconnectFrame, /repo/src/graph/Graph.hpp:495-503. *)
Fixpoint see_disconnect_loop (fuel : nat) (ord : viewid -> order) (v : vid) : scall unit := fun s =>
  match bg_out (gs_dg s) v with
  | [] => (s, [], Ret tt)
  | e :: _ =>
      match fuel with
      | O => (s, [], Fuel)
      | S n => sbind (see_remove_v ord v (e_tgt e)) (fun _ => see_disconnect_loop n ord v) s
      end
  end.

(* Graph::disconnectFrame, /repo/src/graph/Graph.hpp:486-504. *)
Definition see_disconnect (ord : viewid -> order) (f : frameid) : scall unit :=
  sbind (slift (cread (fun s => get_vertex s f))) (fun v => fun s =>
  see_disconnect_loop (length (dg_edges (gs_dg s))) ord v s).

(* Graph::getTree(vertex, keepTreeUpdated, TreeView* ): the root, then the search; the view is subscribed afterwards.
   /repo/src/graph/Graph.hpp:548-556, 565-571. *)
Definition see_get_tree_v (root : vid) (keep : bool) (i : viewid) : scall unit := fun s =>
  match gs_views s !! i with
  | None => (s, [], UB)
  | Some w =>
      match bfs_trace (gs_dg s) (fun _ => true) root with
      | Ret tr =>
          let '(w', l) := see_build tr (tv_add_root root w) in
          let '(s', l', r) := slift (if keep then subscribe_tree_view i else cret tt) (gs_set_view i w' s) in
          (s', see_in i s l ++ l', r)
      | Throw x => (s, [], Throw x)
      | UB => (s, [], UB)
      | Fuel => (s, [], Fuel)
      end
  end.

(* One public call with the moments its signals are emitted at; the other calls emit none.
   /repo/src/graph/Graph.hpp:95-330, /repo/src/graph/TreeView.hpp:84-120. *)
Definition gsee (ord : viewid -> order) (op : gop D E) : scall unit :=
  match op with
  | OAddEdge o t p => see_add_edge_n o t p
  | OAddEdgeV o t p => see_add_edge_v o t p
  | ORemoveEdge o t => see_remove_n ord o t
  | ORemoveEdgeV o t => see_remove_v ord o t
  | ODisconnect f => see_disconnect ord f
  | OGetTree root keep i => sbind (slift (cread (fun s => get_vertex s root))) (fun v => see_get_tree_v v keep i)
  | OGetTreeV root keep i => see_get_tree_v root keep i
  | _ => slift (gstep d0 einv ord op)
  end.
End slots.
Global Arguments seen : clear implicits.
