(** envire::core::Graph<F,E>.  Executable definitions only. *)
From stdpp Require Import prelude strings gmap.
From Verif Require Import Outcome Digraph Bfs TreeView.

(* Addresses of TreeView objects; subscribedTreeViews holds such pointers,
   /repo/src/graph/Graph.hpp:358. *)
Definition viewid := nat.

(* A call on an object with state [St]: new state (also when the call throws), events passed to
   GraphEventPublisher::notify in order, and the outcome.  Not a C++ entity; notify is
   /repo/src/events/GraphEventPublisher.cpp:76-103.
   Simplification: handlers do not change the object (see PublisherModel.v for re-entrancy). *)
Definition call (St A : Type) : Type := St -> St * list event * outcome A.

(* return statement; convention, e.g. /repo/src/graph/Graph.hpp:434. *)
Definition cret {St A} (a : A) : call St A := fun s => (s, [], Ret a).

(* Statement sequencing; an exception skips the rest and keeps the effects so far.
   Convention, e.g. /repo/src/graph/Graph.hpp:440-443. *)
Definition cbind {St A B} (m : call St A) (k : A -> call St B) : call St B := fun s =>
  let '(s1, ev1, r) := m s in
  match r with
  | Ret a => let '(s2, ev2, r2) := k a s1 in (s2, ev1 ++ ev2, r2)
  | Throw x => (s1, ev1, Throw x)
  | UB => (s1, ev1, UB)
  | Fuel => (s1, ev1, Fuel)
  end.

(* notify(event), /repo/src/events/GraphEventPublisher.cpp:76-103 seen from the caller. *)
Definition cnotify {St} (e : event) : call St unit := fun s => (s, [e], Ret tt).

(* A const member function whose result is used, e.g. getVertex at /repo/src/graph/Graph.hpp:489. *)
Definition cread {St A} (f : St -> outcome A) : call St A := fun s => (s, [], f s).

(* An update of the object's state that cannot fail; convention, e.g.
   /repo/src/graph/Graph.hpp:585. *)
Definition cmodify {St} (f : St -> St) : call St unit := fun s => (f s, [], Ret tt).

(* Sequencing of statements; convention, e.g. /repo/src/graph/Graph.hpp:440-443. *)
Notation "x <-- m ;; k" := (cbind m (fun x => k))
  (at level 100, m at next level, right associativity).
(* Sequencing of statements without result; convention, e.g. /repo/src/graph/Graph.hpp:698-699. *)
Notation "m ;;; k" := (cbind m (fun _ => k)) (at level 100, right associativity).

Section graph.
Context {D E : Type}.
(* F(): content of a default constructed frame property, /repo/src/graph/Graph.hpp:426, 670, 676. *)
Context (d0 : D).
(* EDGE_PROP::inverse(), /repo/src/graph/Graph.hpp:645, 898. *)
Context (einv : E -> E).

(* The graph object together with the TreeView objects that exist:
   [gs_subs] is subscribedTreeViews (/repo/src/graph/Graph.hpp:358),
   [gs_views] the live TreeView objects by address. *)
Record gst := GSt {
  gs_dg    : digraph D E;
  gs_subs  : list viewid;
  gs_views : gmap viewid tview }.

(* Initial state: empty graph, no views.  /repo/src/graph/Graph.hpp:384-400. *)
Definition gst0 : gst := GSt bg_empty [] ∅.

(* Replacing the boost graph part of the object (every mutation through graph()),
   e.g. /repo/src/graph/Graph.hpp:441. *)
Definition gs_set_dg (g : digraph D E) (s : gst) : gst := GSt g (gs_subs s) (gs_views s).

(* Replacing one TreeView object, e.g. /repo/src/graph/Graph.hpp:793. *)
Definition gs_set_view (i : viewid) (w : tview) (s : gst) : gst :=
  GSt (gs_dg s) (gs_subs s) (<[i := w]> (gs_views s)).

(* ---- const member functions ---- *)

(* Graph::containsFrame, /repo/src/graph/Graph.hpp:1022-1027. *)
Definition contains_frame (s : gst) (f : frameid) : bool :=
  negb (Nat.eqb (bg_vertex (gs_dg s) f) null_vertex).

(* Graph::getVertex, /repo/src/graph/Graph.hpp:475-484. *)
Definition get_vertex (s : gst) (f : frameid) : outcome vid :=
  let v := bg_vertex (gs_dg s) f in
  if Nat.eqb v null_vertex then Throw (XUnknownFrame f) else Ret v.

(* Graph::getFrameId, /repo/src/graph/Graph.hpp:467-473; dangling descriptor: UB. *)
Definition get_frame_id (s : gst) (v : vid) : outcome frameid :=
  if Nat.eqb v null_vertex then Throw XNullVertex
  else match bg_vrec (gs_dg s) v with
       | Some r => Ret (v_name r)
       | None => UB
       end.

(* boost::edge(u, v, graph()); reads u's out list, so u has to be alive, v is only compared.
   /repo/src/graph/Graph.hpp:459, 637, 691, 888, 1056. *)
Definition find_edge (s : gst) (u v : vid) : outcome (option (erec E)) :=
  if bg_alive (gs_dg s) u then Ret (bg_edge (gs_dg s) u v) else UB.

(* Graph::getEdge(vertex, vertex), /repo/src/graph/Graph.hpp:455-465. *)
Definition get_edge_v (s : gst) (o t : vid) : outcome (erec E) :=
  obind (find_edge s o t) (fun e =>
    match e with
    | Some e => Ret e
    | None => obind (get_frame_id s o) (fun fo =>
              obind (get_frame_id s t) (fun ft => Throw (XUnknownEdge fo ft)))
    end).

(* Graph::getEdge(name, name), /repo/src/graph/Graph.hpp:446-453. *)
Definition get_edge (s : gst) (o t : frameid) : outcome (erec E) :=
  obind (get_vertex s o) (fun vo =>
  obind (get_vertex s t) (fun vt => get_edge_v s vo vt)).

(* Graph::getEdgeProperty(edge), /repo/src/graph/Graph.hpp:866-870; dangling edge: UB. *)
Definition get_edge_property_e (s : gst) (i : eid) : outcome E :=
  match bg_erec (gs_dg s) i with Some e => Ret (e_prop e) | None => UB end.

(* Graph::getEdgeProperty(vertex, vertex), /repo/src/graph/Graph.hpp:859-864. *)
Definition get_edge_property_v (s : gst) (o t : vid) : outcome E :=
  obind (get_edge_v s o t) (fun e => get_edge_property_e s (e_id e)).

(* Graph::getEdgeProperty(name, name), /repo/src/graph/Graph.hpp:852-857. *)
Definition get_edge_property (s : gst) (o t : frameid) : outcome E :=
  obind (get_edge s o t) (fun e => get_edge_property_e s (e_id e)).

(* Graph::getSourceVertex / getTargetVertex, /repo/src/graph/Graph.hpp:617-627. *)
Definition get_source_vertex (e : erec E) : vid := e_src e.
(* /repo/src/graph/Graph.hpp:623-627. *)
Definition get_target_vertex (e : erec E) : vid := e_tgt e.

(* Graph::containsEdge(vertex, vertex), /repo/src/graph/Graph.hpp:1053-1058. *)
Definition contains_edge_v (s : gst) (o t : vid) : outcome bool :=
  obind (find_edge s o t) (fun e => Ret (bool_decide (is_Some e))).

(* Graph::containsEdge(name, name), /repo/src/graph/Graph.hpp:1047-1051.
   The two arguments are evaluated in unspecified order in C++; modelled origin first. *)
Definition contains_edge (s : gst) (o t : frameid) : outcome bool :=
  obind (get_vertex s o) (fun vo =>
  obind (get_vertex s t) (fun vt => contains_edge_v s vo vt)).

(* Graph::num_vertices, num_edges, /repo/src/graph/Graph.hpp:840-850. *)
Definition num_vertices (s : gst) : nat := dg_nv (gs_dg s).
(* /repo/src/graph/Graph.hpp:846-850. *)
Definition num_edges (s : gst) : nat := dg_ne (gs_dg s).

(* Graph::getFrameProperty, /repo/src/graph/Graph.hpp:928-933. *)
Definition get_frame_property (s : gst) (f : frameid) : outcome D :=
  obind (get_vertex s f) (fun v =>
    match bg_vrec (gs_dg s) v with Some r => Ret (v_data r) | None => UB end).

(* getFrameId on every element of a list of vertices (the loop body of getFrames),
   /repo/src/graph/Graph.hpp:603-606. *)
Fixpoint frame_ids (s : gst) (l : list vid) : outcome (list frameid) :=
  match l with
  | [] => Ret []
  | v :: l' => obind (get_frame_id s v) (fun f =>
               obind (frame_ids s l') (fun fs => Ret (f :: fs)))
  end.

(* Graph::getFrames, /repo/src/graph/Graph.hpp:589-615.  visit.tree always holds at least the
   searched vertex when FoundFrameException is thrown, [removelast] is the loop up to it+1. *)
Definition get_frames (s : gst) (o t : frameid) : outcome (list frameid) :=
  obind (get_vertex s o) (fun vo =>
  obind (get_vertex s t) (fun vt =>
  obind (bfs_find (gs_dg s) vo vt) (fun r =>
    match r with
    | None => Ret []
    | Some l => obind (frame_ids s (removelast l)) (fun fs =>
        Ret (match fs with [] => [] | _ => fs ++ [t] end))
    end))).

(* ---- tree views ---- *)

(* Graph::getTree(vertex, TreeView* ) const, /repo/src/graph/Graph.hpp:565-571.  addRoot happens before
   the search; a root that is not alive is UB in the search. *)
Definition get_tree_into (s : gst) (root : vid) (w : tview) : outcome tview :=
  obind (bfs_trace (gs_dg s) (fun _ => true) root) (fun tr =>
    Ret (build_tree tr (tv_add_root root w))).

(* Graph::addEdgeToTreeView, /repo/src/graph/Graph.hpp:740-828. *)
Definition add_edge_to_tree_view (s : gst) (ne : erec E) (w : tview) : tview * outcome unit :=
  let src := get_source_vertex ne in
  let tar := get_target_vertex ne in
  let go (inv notinv : vid) : tview * outcome unit :=
    let w1 := tv_add_edge inv notinv w in
    if bg_alive (gs_dg s) notinv then
      if bool_decide (2 < bg_degree (gs_dg s) notinv) then
        match obind (get_frame_id s inv) (fun id1 =>
              obind (get_frame_id s notinv) (fun id2 =>
              obind (get_edge s id1 id2) (fun e1 =>
              obind (get_edge s id2 id1) (fun e2 =>
              bfs_trace (gs_dg s)
                (fun e => negb (Nat.eqb (e_id e) (e_id e1)) && negb (Nat.eqb (e_id e) (e_id e2)))
                notinv)))) with
        | Ret tr => (build_tree tr w1, Ret tt)
        | Throw x => (w1, Throw x)
        | UB => (w1, UB)
        | Fuel => (w1, Fuel)
        end
      else (w1, Ret tt)
    else (w1, UB) in
  match tv_vertex_exists w src, tv_vertex_exists w tar with
  | true, true =>
      match tv_edge_exists w src tar with
      | Ret false => (tv_add_cross src tar (e_id ne) w, Ret tt)
      | Ret true => (w, Ret tt)
      | Throw x => (w, Throw x)
      | UB => (w, UB)
      | Fuel => (w, Fuel)
      end
  | true, false => go src tar
  | false, true => go tar src
  | false, false => (w, Ret tt)
  end.

(* Iteration over subscribedTreeViews applying [f] to each view; a pointer to a destroyed view
   is UB, an exception leaves the remaining views untouched.
   /repo/src/graph/Graph.hpp:724-728, 734-737. *)
Fixpoint for_views (f : viewid -> tview -> tview * outcome unit) (l : list viewid)
  : call gst unit :=
  match l with
  | [] => cret tt
  | i :: l' => fun s =>
      match gs_views s !! i with
      | None => (s, [], UB)
      | Some w =>
          let '(w', r) := f i w in
          let s' := gs_set_view i w' s in
          match r with
          | Ret _ => for_views f l' s'
          | _ => (s', [], r)
          end
      end
  end.

(* Graph::addEdgeToTreeViews, /repo/src/graph/Graph.hpp:731-738. *)
Definition add_edge_to_tree_views (ne : erec E) : call gst unit := fun s =>
  for_views (fun _ w => add_edge_to_tree_view s ne w) (gs_subs s) s.

(* Graph::removeEdgeFromTreeViews, /repo/src/graph/Graph.hpp:721-729. *)
Definition remove_edge_from_tree_views (ord : viewid -> order) (o t : vid) : call gst unit :=
  fun s =>
  for_views (fun i w =>
      match tv_edge_exists w o t with
      | Ret true => tv_remove_edge (ord i) o t w
      | Ret false => (w, Ret tt)
      | Throw x => (w, Throw x)
      | UB => (w, UB)
      | Fuel => (w, Fuel)
      end) (gs_subs s) s.

(* ---- mutators ---- *)

(* Graph::add_vertex, /repo/src/graph/Graph.hpp:437-444. *)
Definition add_vertex (f : frameid) (d : D) : call gst vid := fun s =>
  let '(g, v) := bg_add_vertex f d (gs_dg s) in
  (gs_set_dg g s, [EvFrameAdded f], Ret v).

(* Graph::emplaceFrame, /repo/src/graph/Graph.hpp:909-926; [d] is what F(args...) holds. *)
Definition emplace_frame (f : frameid) (d : D) : call gst vid := fun s =>
  if Nat.eqb (bg_vertex (gs_dg s) f) null_vertex then add_vertex f d s
  else (s, [], Throw (XFrameAlreadyExists f)).

(* Graph::addFrame, /repo/src/graph/Graph.hpp:420-435. *)
Definition add_frame (f : frameid) : call gst vid := emplace_frame f d0.

(* Graph::add_edge(vertex, vertex, prop), /repo/src/graph/Graph.hpp:630-657. *)
Definition add_edge_v (o t : vid) (p : E) : call gst unit :=
  e <-- cread (fun s => find_edge s o t) ;;
  match e with
  | Some _ =>
      fo <-- cread (fun s => get_frame_id s o) ;;
      ft <-- cread (fun s => get_frame_id s t) ;;
      cread (fun _ => Throw (XEdgeAlreadyExists fo ft))
  | None =>
      cread (fun s => if bg_alive (gs_dg s) t then Ret tt else UB) ;;;
      i <-- (fun s => let '(g, i) := bg_add_edge o t p (gs_dg s) in (gs_set_dg g s, [], Ret i)) ;;
      cmodify (fun s => gs_set_dg (fst (bg_add_edge t o (einv p) (gs_dg s))) s) ;;;
      add_edge_to_tree_views (ERec i o t p) ;;;
      fo <-- cread (fun s => get_frame_id s o) ;;
      ft <-- cread (fun s => get_frame_id s t) ;;
      cnotify (EvEdgeAdded fo ft i)
  end.

(* Graph::add_edge(name, name, prop), /repo/src/graph/Graph.hpp:659-682.  Both labels are looked up
   before any frame is created. *)
Definition add_edge (o t : frameid) (p : E) : call gst unit := fun s0 =>
  let o0 := bg_vertex (gs_dg s0) o in
  let t0 := bg_vertex (gs_dg s0) t in
  (vo <-- (if Nat.eqb o0 null_vertex then add_vertex o d0 else cret o0) ;;
   vt <-- (if Nat.eqb t0 null_vertex then add_vertex t d0 else cret t0) ;;
   add_edge_v vo vt p) s0.

(* boost::remove_edge(descriptor), a dangling descriptor is UB; /repo/src/graph/Graph.hpp:698, 701. *)
Definition boost_remove_edge (i : eid) : call gst unit := fun s =>
  match bg_remove_edge i (gs_dg s) with
  | Some g => (gs_set_dg g s, [], Ret tt)
  | None => (s, [], UB)
  end.

(* Graph::remove_edge(name, name, vertex, vertex), /repo/src/graph/Graph.hpp:684-705. *)
Definition remove_edge_impl (ord : viewid -> order) (o t : frameid) (vo vt : vid)
  : call gst unit :=
  ot <-- cread (fun s => find_edge s vo vt) ;;
  to <-- cread (fun s => find_edge s vt vo) ;;
  match ot, to with
  | Some e1, Some e2 =>
      boost_remove_edge (e_id e1) ;;;
      cnotify (EvEdgeRemoved o t) ;;;
      boost_remove_edge (e_id e2) ;;;
      remove_edge_from_tree_views ord vo vt
  | _, _ => cread (fun _ => Throw (XUnknownEdge o t))
  end.

(* Graph::remove_edge(vertex, vertex), /repo/src/graph/Graph.hpp:707-712; argument evaluation order is
   unspecified, modelled origin first. *)
Definition remove_edge_v (ord : viewid -> order) (vo vt : vid) : call gst unit :=
  o <-- cread (fun s => get_frame_id s vo) ;;
  t <-- cread (fun s => get_frame_id s vt) ;;
  remove_edge_impl ord o t vo vt.

(* Graph::remove_edge(name, name), /repo/src/graph/Graph.hpp:714-719; argument evaluation order is
   unspecified, modelled origin first. *)
Definition remove_edge (ord : viewid -> order) (o t : frameid) : call gst unit :=
  vo <-- cread (fun s => get_vertex s o) ;;
  vt <-- cread (fun s => get_vertex s t) ;;
  remove_edge_impl ord o t vo vt.

(* Graph::setEdgeProperty(vertex, vertex, prop), /repo/src/graph/Graph.hpp:883-901; the failed
   assert on the inverse edge is UB. *)
Definition set_edge_property_v (o t : vid) (p : E) : call gst unit :=
  e <-- cread (fun s => find_edge s o t) ;;
  match e with
  | None =>
      fo <-- cread (fun s => get_frame_id s o) ;;
      ft <-- cread (fun s => get_frame_id s t) ;;
      cread (fun _ => Throw (XUnknownEdge fo ft))
  | Some e =>
      cmodify (fun s => gs_set_dg (bg_set_prop (e_id e) p (gs_dg s)) s) ;;;
      einv' <-- cread (fun s => find_edge s t o) ;;
      match einv' with
      | None => cread (fun _ => UB)
      | Some e' =>
          cmodify (fun s => gs_set_dg (bg_set_prop (e_id e') (einv p) (gs_dg s)) s) ;;;
          fo <-- cread (fun s => get_frame_id s o) ;;
          ft <-- cread (fun s => get_frame_id s t) ;;
          cnotify (EvEdgeModified fo ft (e_id e) (e_id e'))
      end
  end.

(* Graph::setEdgeProperty(name, name, prop), /repo/src/graph/Graph.hpp:873-881. *)
Definition set_edge_property (o t : frameid) (p : E) : call gst unit :=
  vo <-- cread (fun s => get_vertex s o) ;;
  vt <-- cread (fun s => get_vertex s t) ;;
  set_edge_property_v vo vt p.

(* The do-while loop of disconnectFrame, /repo/src/graph/Graph.hpp:495-503. *)
Fixpoint disconnect_loop (fuel : nat) (ord : viewid -> order) (v : vid) : call gst unit :=
  fun s =>
  match bg_out (gs_dg s) v with
  | [] => (s, [], Ret tt)
  | e :: _ =>
      match fuel with
      | O => (s, [], Fuel)
      | S n => (remove_edge_v ord v (e_tgt e) ;;; disconnect_loop n ord v) s
      end
  end.

(* Graph::disconnectFrame, /repo/src/graph/Graph.hpp:486-504.  Every iteration removes an edge, so the
   number of edges is enough fuel. *)
Definition disconnect_frame (ord : viewid -> order) (f : frameid) : call gst unit :=
  v <-- cread (fun s => get_vertex s f) ;;
  (fun s => disconnect_loop (length (dg_edges (gs_dg s))) ord v s).

(* Graph::removeFrame, /repo/src/graph/Graph.hpp:506-524. *)
Definition remove_frame (f : frameid) : call gst unit :=
  v <-- cread (fun s => get_vertex s f) ;;
  cread (fun s =>
    if bg_alive (gs_dg s) v then
      if bool_decide (0 < bg_degree (gs_dg s) v) then Throw (XFrameStillConnected f) else Ret tt
    else UB) ;;;
  cmodify (fun s => gs_set_dg (bg_remove_vertex v f (gs_dg s)) s) ;;;
  cnotify (EvFrameRemoved f).

(* ---- tree view management ---- *)

(* Graph::unsubscribeTreeView, /repo/src/graph/Graph.hpp:573-579. *)
Definition unsubscribe_tree_view (i : viewid) : call gst unit :=
  cmodify (fun s => GSt (gs_dg s) (filter (fun j => j <> i) (gs_subs s)) (gs_views s)).

(* Graph::subscribeTreeView with the assert of TreeView::setPublisher (UB if the view already has
   a publisher), /repo/src/graph/Graph.hpp:581-587, /repo/src/graph/TreeView.cpp:86-90. *)
Definition subscribe_tree_view (i : viewid) : call gst unit := fun s =>
  match gs_views s !! i with
  | None => (s, [], UB)
  | Some w =>
      let s1 := GSt (gs_dg s) (gs_subs s ++ [i]) (gs_views s) in
      if tv_pub w then (s1, [], UB) else (gs_set_view i (tv_set_pub true w) s1, [], Ret tt)
  end.

(* Graph::getTree(vertex, keepTreeUpdated, TreeView* ) on the view with address [i],
   /repo/src/graph/Graph.hpp:548-556. *)
Definition get_tree_v (root : vid) (keep : bool) (i : viewid) : call gst unit := fun s =>
  match gs_views s !! i with
  | None => (s, [], UB)
  | Some w =>
      match get_tree_into s root w with
      | Ret w' =>
          (if keep then subscribe_tree_view i else cret tt) (gs_set_view i w' s)
      | Throw x => (s, [], Throw x)
      | UB => (s, [], UB)
      | Fuel => (s, [], Fuel)
      end
  end.

(* Graph::getTree(name, keepTreeUpdated, TreeView* ), /repo/src/graph/Graph.hpp:558-563. *)
Definition get_tree (root : frameid) (keep : bool) (i : viewid) : call gst unit :=
  v <-- cread (fun s => get_vertex s root) ;;
  get_tree_v v keep i.

(* TreeView::TreeView() at address [i] (which must not hold a live view),
   /repo/src/graph/TreeView.hpp:86. *)
Definition new_view (i : viewid) : call gst unit := fun s =>
  match gs_views s !! i with
  | Some _ => (s, [], UB)
  | None => (gs_set_view i tv_new s, [], Ret tt)
  end.

(* A client connects the slot [c] to a signal of the view at [i], or disconnects it;
   /repo/src/graph/TreeView.hpp:189-201. *)
Definition slot_view (i : viewid) (k : vsigkind) (on : bool) (c : nat) : call gst unit := fun s =>
  match gs_views s !! i with
  | None => (s, [], UB)
  | Some w => (gs_set_view i (tv_slot k on c w) s, [], Ret tt)
  end.

(* TreeView::unsubscribe, /repo/src/graph/TreeView.cpp:104-111. *)
Definition view_unsubscribe (i : viewid) : call gst unit := fun s =>
  match gs_views s !! i with
  | None => (s, [], UB)
  | Some w =>
      if tv_pub w then
        (unsubscribe_tree_view i ;;;
         cmodify (gs_set_view i (tv_set_pub false w))) s
      else (s, [], Ret tt)
  end.

(* TreeView::~TreeView, /repo/src/graph/TreeView.cpp:65-73. *)
Definition destroy_view (i : viewid) : call gst unit := fun s =>
  match gs_views s !! i with
  | None => (s, [], UB)
  | Some w =>
      ((if tv_pub w then unsubscribe_tree_view i else cret tt) ;;;
       cmodify (fun s => GSt (gs_dg s) (gs_subs s) (delete i (gs_views s)))) s
  end.

(* TreeView::TreeView(TreeView&& ): the view at [i] is moved into a new object at [j].
   The moved-from containers are left empty, its root unchanged; the signals crossEdgeAdded and
   edgeAdded are swapped with the fresh ones of the new object, edgeRemoved is not.
   /repo/src/graph/TreeView.cpp:48-62. *)
Definition move_view (i j : viewid) : call gst unit := fun s =>
  match gs_views s !! i, gs_views s !! j with
  | Some w, None =>
      let wnew := TView (tv_root w) (tv_tree w) (tv_cross w) false (tv_log w) [] [] [] in
      let wold := TView (tv_root w) ∅ [] (tv_pub w) [] (tv_slots_cross w) (tv_slots_added w)
                        (tv_slots_removed w) in
      ((fun s => (gs_set_view i wold (gs_set_view j wnew s), [], Ret tt)) ;;;
       (if tv_pub w then
          unsubscribe_tree_view i ;;;
          subscribe_tree_view j ;;;
          cmodify (gs_set_view i (tv_set_pub false wold))
        else cret tt) ;;;
       cmodify (fun s =>
         match gs_views s !! i, gs_views s !! j with
         | Some a, Some b =>
             gs_set_view i
               (TView (tv_root a) (tv_tree a) (tv_cross a) (tv_pub a) (tv_log a)
                  (tv_slots_cross b) (tv_slots_added b) (tv_slots_removed a))
             (gs_set_view j
               (TView (tv_root b) (tv_tree b) (tv_cross b) (tv_pub b) (tv_log b)
                  (tv_slots_cross a) (tv_slots_added a) (tv_slots_removed b)) s)
         | _, _ => s
         end)) s
  | _, _ => (s, [], UB)
  end.

(* TreeView(const TreeView& ) / operator=: the publisher pointer is copied too, the signals are not.
   /repo/src/graph/TreeView.hpp:88-92, /repo/src/graph/TreeView.cpp:34-46. *)
Definition copy_view (i j : viewid) : call gst unit := fun s =>
  match gs_views s !! i, gs_views s !! j with
  | Some w, None =>
      (gs_set_view j (TView (tv_root w) (tv_tree w) (tv_cross w) (tv_pub w) (tv_log w) [] [] []) s,
       [], Ret tt)
  | _, _ => (s, [], UB)
  end.

(* Writing the content of a frame through graph()[v], as the derived class EnvireGraph does;
   a dangling descriptor is UB.  /repo/src/graph/EnvireGraph.cpp:122, 130, 266. *)
Definition set_frame_data (v : vid) (d : D) : call gst unit := fun s =>
  if bg_alive (gs_dg s) v then (gs_set_dg (bg_set_data v d (gs_dg s)) s, [], Ret tt) else (s, [], UB).

(* ---- publishing ---- *)

(* Loop over boost::edges of publishCurrentState; [done] is published_edges.
   /repo/src/graph/Graph.hpp:945-960. *)
Fixpoint publish_edges (s : gst) (mk : frameid -> frameid -> eid -> event) (done : list eid)
    (es : list (erec E)) : list event * outcome unit :=
  match es with
  | [] => ([], Ret tt)
  | e :: es' =>
      if bool_decide (e_id e ∈ done) then publish_edges s mk done es'
      else
        match obind (get_frame_id s (e_src e)) (fun fs =>
              obind (get_frame_id s (e_tgt e)) (fun ft => Ret (fs, ft))) with
        | Ret (fs, ft) =>
            match get_edge_v s (e_tgt e) (e_src e) with
            | Ret e' =>
                let '(evs, r) := publish_edges s mk (done ++ [e_id e']) es' in
                (mk fs ft (e_id e) :: evs, r)
            | Throw x => ([mk fs ft (e_id e)], Throw x)
            | UB => ([mk fs ft (e_id e)], UB)
            | Fuel => ([mk fs ft (e_id e)], Fuel)
            end
        | Throw x => ([], Throw x)
        | UB => ([], UB)
        | Fuel => ([], Fuel)
        end
  end.

(* Loop over boost::vertices of publishCurrentState, /repo/src/graph/Graph.hpp:938-943, 983-988. *)
Fixpoint publish_frames (s : gst) (mk : frameid -> event) (vs : list (vrec D))
  : list event * outcome unit :=
  match vs with
  | [] => ([], Ret tt)
  | v :: vs' =>
      match get_frame_id s (v_id v) with
      | Ret f => let '(evs, r) := publish_frames s mk vs' in (mk f :: evs, r)
      | Throw x => ([], Throw x)
      | UB => ([], UB)
      | Fuel => ([], Fuel)
      end
  end.

(* Graph::publishCurrentState: events delivered to the one subscriber;
   /repo/src/graph/Graph.hpp:935-961. *)
Definition publish_current_state (s : gst) : list event * outcome unit :=
  let '(ev1, r1) := publish_frames s EvFrameAdded (dg_verts (gs_dg s)) in
  match r1 with
  | Ret _ => let '(ev2, r2) := publish_edges s EvEdgeAdded [] (dg_edges (gs_dg s)) in
             (ev1 ++ ev2, r2)
  | _ => (ev1, r1)
  end.

(* Graph::unpublishCurrentState, /repo/src/graph/Graph.hpp:963-989. *)
Definition unpublish_current_state (s : gst) : list event * outcome unit :=
  let '(ev1, r1) := publish_edges s (fun o t _ => EvEdgeRemoved o t) [] (dg_edges (gs_dg s)) in
  match r1 with
  | Ret _ => let '(ev2, r2) := publish_frames s EvFrameRemoved (dg_verts (gs_dg s)) in
             (ev1 ++ ev2, r2)
  | _ => (ev1, r1)
  end.

(* Graph::regenerateLabelMap applied to a freshly loaded boost graph [g] whose object still has the
   label map [m] (the map is not cleared); /repo/src/graph/Graph.hpp:1029-1038. *)
Definition regenerate_label_map (m : gmap frameid vid) (vs : list (vrec D)) : gmap frameid vid :=
  foldl (fun m v => <[v_name v := v_id v]> m) m vs.

(* Position of the vertex with address [v] in the vertex list (the vertex it is copied to);
   boost::copy_graph called at /repo/src/graph/Graph.hpp:415. *)
Fixpoint position (v : vid) (vs : list (vrec D)) : nat :=
  match vs with
  | [] => 0
  | r :: vs' => if Nat.eqb (v_id r) v then 0 else S (position v vs')
  end.

(* Graph(const Graph& ): boost::copy_graph with the default vertex index map (a vector of
   num_vertices entries indexed by vertex_index: an index >= num_vertices is an out-of-bounds
   write, UB) followed by regenerateLabelMap.  The copies get the addresses 1..n and edge
   addresses 1..m.  /repo/src/graph/Graph.hpp:402-418. *)
Definition copy_graph (s : gst) : outcome gst :=
  let g := gs_dg s in
  let vs := dg_verts g in
  if forallb (fun r => Nat.ltb (v_index r) (dg_nv g)) vs then
    let vs' := imap (fun k r => VRec (S k) k (v_name r) (v_data r)) vs in
    let es' := imap (fun k e => ERec (S k) (S (position (e_src e) vs)) (S (position (e_tgt e) vs))
                                  (e_prop e)) (dg_edges g) in
    Ret (GSt (Digraph vs' es' (regenerate_label_map ∅ vs') (S (length vs)) (S (length es'))
                (length vs) (length vs) (length es')) [] ∅)
  else UB.

End graph.
Global Arguments gst : clear implicits.
