(** Several graph objects in one program that are copied and assigned to each other.  Executable definitions only. *)
From stdpp Require Import prelude strings gmap.
From Verif Require Import Outcome Digraph GraphModel.

(* Addresses of graph objects and of subscribers.  /repo/src/graph/Graph.hpp:61-64, /repo/src/events/GraphEventSubscriber.hpp:39-58. *)
Definition agid := nat.
(* Same source lines. *)
Definition asid := nat.

Section assign.
Context {D E : Type} (d0 : D) (einv : E -> E).

(* What a graph object holds besides the vertices and edges it owns: labeled_graph::_map, the counters of directed_graph and the
   subscribers of the publisher.  /repo/src/graph/GraphTypes.hpp:126-159, /repo/src/events/GraphEventPublisher.hpp:49-59.
   Simplification: no subscribed tree views, events enabled, no notification under way. *)
Record gobj := GObj { go_map : gmap frameid vid; go_maxvi : nat; go_nv : nat; go_ne : nat; go_recv : list asid }.

(* The memory of the program: every vertex and every edge with the graph object that owns it (in whose lists it is stored), the graph
   objects, the subscribers with their pPublisher, the allocator, and what the subscribers have been told.
   /repo/src/graph/GraphTypes.hpp:126-159, /repo/src/events/GraphEventSubscriber.hpp:39-58.
   Simplification: subscribers only record what they are told. *)
Record aworld := AWorld {
  aw_verts : list (agid * vrec D);
  aw_edges : list (agid * erec E);
  aw_objs : gmap agid gobj;
  aw_pubs : gmap asid (option agid);
  aw_nextv : vid;
  aw_nexte : eid;
  aw_told : list (asid * event) }.

(* The beginning of the program.  Models no code of /repo; see /repo/src/graph/Graph.hpp:384-400 for what a graph starts with. *)
Definition aw_empty : aworld := AWorld [] [] ∅ ∅ 1 1 [].

(* Writing one member, e.g. /repo/src/graph/Graph.hpp:441. *)
Definition aw_set_verts (l : list (agid * vrec D)) (w : aworld) : aworld :=
  AWorld l (aw_edges w) (aw_objs w) (aw_pubs w) (aw_nextv w) (aw_nexte w) (aw_told w).
(* Same, e.g. /repo/src/graph/Graph.hpp:643-648. *)
Definition aw_set_edges (l : list (agid * erec E)) (w : aworld) : aworld :=
  AWorld (aw_verts w) l (aw_objs w) (aw_pubs w) (aw_nextv w) (aw_nexte w) (aw_told w).
(* Same, e.g. /repo/src/graph/Graph.hpp:518-522. *)
Definition aw_set_obj (a : agid) (o : gobj) (w : aworld) : aworld :=
  AWorld (aw_verts w) (aw_edges w) (<[a := o]> (aw_objs w)) (aw_pubs w) (aw_nextv w) (aw_nexte w) (aw_told w).
(* Same, /repo/src/events/GraphEventSubscriber.cpp:50, 60. *)
Definition aw_set_pub (s : asid) (p : option agid) (w : aworld) : aworld :=
  AWorld (aw_verts w) (aw_edges w) (aw_objs w) (<[s := p]> (aw_pubs w)) (aw_nextv w) (aw_nexte w) (aw_told w).

(* Dereferencing a vertex descriptor: it is a pointer, whichever graph owns the vertex.  /repo/src/graph/Graph.hpp:472, 932. *)
Definition aw_vrec (w : aworld) (v : vid) : option (agid * vrec D) := find (fun r => Nat.eqb (v_id (snd r)) v) (aw_verts w).

(* The vertices and edges in the lists of a graph object, in order: boost::vertices, boost::edges.
   /repo/src/graph/Graph.hpp:1014-1046. *)
Definition aw_own_verts (w : aworld) (a : agid) : list (vrec D) := snd <$> filter (fun r => fst r = a) (aw_verts w).
(* Same source lines. *)
Definition aw_own_edges (w : aworld) (a : agid) : list (erec E) := snd <$> filter (fun r => fst r = a) (aw_edges w).

(* Is the vertex stored in the list of this graph object?  Not a C++ function: adding edges to or removing a vertex of another graph is
   undefined behaviour.  /repo/src/graph/Graph.hpp:515, 643-648. *)
Definition aw_owns (w : aworld) (a : agid) (v : vid) : bool := existsb (fun r => Nat.eqb (v_id r) v) (aw_own_verts w a).

(* containsFrame, /repo/src/graph/Graph.hpp:1022-1027. *)
Definition aw_contains (w : aworld) (a : agid) (f : frameid) : outcome bool :=
  match aw_objs w !! a with None => UB | Some o => Ret (bool_decide (is_Some (go_map o !! f))) end.

(* getVertex, /repo/src/graph/Graph.hpp:475-484. *)
Definition aw_get_vertex (w : aworld) (a : agid) (f : frameid) : outcome vid :=
  match aw_objs w !! a with
  | None => UB
  | Some o => match go_map o !! f with None => Throw (XUnknownFrame f) | Some v => Ret v end
  end.

(* getFrameId, /repo/src/graph/Graph.hpp:467-473. *)
Definition aw_frame_id (w : aworld) (v : vid) : outcome frameid :=
  match aw_vrec w v with None => UB | Some r => Ret (v_name (snd r)) end.

(* getFrameProperty, /repo/src/graph/Graph.hpp:928-933. *)
Definition aw_frame_property (w : aworld) (a : agid) (f : frameid) : outcome D :=
  obind (aw_get_vertex w a f) (fun v => match aw_vrec w v with None => UB | Some r => Ret (v_data (snd r)) end).

(* boost::edge(u, v, graph()): the first entry of u's list of out edges that leads to v; u is dereferenced.
   /repo/src/graph/Graph.hpp:459, 637, 691-692, 888, 893. *)
Definition aw_find_edge (w : aworld) (u v : vid) : outcome (option (agid * erec E)) :=
  match aw_vrec w u with
  | None => UB
  | Some _ => Ret (find (fun e => Nat.eqb (e_src (snd e)) u && Nat.eqb (e_tgt (snd e)) v) (aw_edges w))
  end.

(* containsEdge(name, name), /repo/src/graph/Graph.hpp:1048-1059. *)
Definition aw_contains_edge (w : aworld) (a : agid) (o t : frameid) : outcome bool :=
  obind (aw_get_vertex w a o) (fun vo => obind (aw_get_vertex w a t) (fun vt =>
  obind (aw_find_edge w vo vt) (fun e => Ret (bool_decide (is_Some e))))).

(* getEdgeProperty(name, name), /repo/src/graph/Graph.hpp:446-465, 852-870. *)
Definition aw_edge_property (w : aworld) (a : agid) (o t : frameid) : outcome E :=
  obind (aw_get_vertex w a o) (fun vo => obind (aw_get_vertex w a t) (fun vt =>
  obind (aw_find_edge w vo vt) (fun e =>
  match e with
  | Some e => Ret (e_prop (snd e))
  | None => obind (aw_frame_id w vo) (fun fo => obind (aw_frame_id w vt) (fun ft => Throw (XUnknownEdge fo ft)))
  end))).

(* num_vertices and num_edges, /repo/src/graph/Graph.hpp:840-850. *)
Definition aw_num_vertices (w : aworld) (a : agid) : outcome nat :=
  match aw_objs w !! a with None => UB | Some o => Ret (go_nv o) end.
(* Same source lines. *)
Definition aw_num_edges (w : aworld) (a : agid) : outcome nat :=
  match aw_objs w !! a with None => UB | Some o => Ret (go_ne o) end.

(* The object of a call; using a destroyed one is undefined behaviour.  E.g. /repo/src/graph/Graph.hpp:420-423. *)
Definition aw_obj (a : agid) : call aworld gobj := cread (fun w => match aw_objs w !! a with Some o => Ret o | None => UB end).

(* The loop of GraphEventPublisher::notify, /repo/src/events/GraphEventPublisher.cpp:81-84; a destroyed subscriber is UB. *)
Fixpoint aw_tell (e : event) (l : list asid) : call aworld unit := fun w =>
  match l with
  | [] => (w, [], Ret tt)
  | s :: l' =>
      match aw_pubs w !! s with
      | None => (w, [], UB)
      | Some _ => aw_tell e l' (AWorld (aw_verts w) (aw_edges w) (aw_objs w) (aw_pubs w) (aw_nextv w) (aw_nexte w) (aw_told w ++ [(s, e)]))
      end
  end.

(* GraphEventPublisher::notify, /repo/src/events/GraphEventPublisher.cpp:76-103. *)
Definition aw_notify (a : agid) (e : event) : call aworld unit := o <-- aw_obj a ;; aw_tell e (go_recv o).

(* Graph::add_vertex: a vertex is created only if the label is new.  /repo/src/graph/Graph.hpp:437-444. *)
Definition aw_add_vertex (a : agid) (f : frameid) (d : D) : call aworld vid :=
  o <-- aw_obj a ;;
  v <-- (fun w => match go_map o !! f with
         | Some v => (w, [], Ret v)
         | None => (AWorld (aw_verts w ++ [(a, VRec (aw_nextv w) (go_maxvi o) f d)]) (aw_edges w)
            (<[a := GObj (<[f := aw_nextv w]> (go_map o)) (S (go_maxvi o)) (S (go_nv o)) (go_ne o) (go_recv o)]> (aw_objs w))
            (aw_pubs w) (S (aw_nextv w)) (aw_nexte w) (aw_told w), [], Ret (aw_nextv w))
         end) ;;
  aw_notify a (EvFrameAdded f) ;;;
  cret v.

(* Graph::emplaceFrame and addFrame, /repo/src/graph/Graph.hpp:420-435, 909-926. *)
Definition aw_emplace (a : agid) (f : frameid) (d : D) : call aworld unit :=
  o <-- aw_obj a ;;
  match go_map o !! f with
  | None => aw_add_vertex a f d ;;; cret tt
  | Some _ => cread (fun _ => Throw (XFrameAlreadyExists f))
  end.

(* Writing to the frame property through operator[](label), as adding items does.  /repo/src/graph/EnvireGraph.cpp:122, 130. *)
Definition aw_set_data (a : agid) (f : frameid) (d : D) : call aworld unit :=
  v <-- cread (fun w => aw_get_vertex w a f) ;;
  cread (fun w => match aw_vrec w v with None => UB | Some _ => Ret tt end) ;;;
  cmodify (fun w => aw_set_verts
    ((fun r => if Nat.eqb (v_id (snd r)) v then (fst r, VRec (v_id (snd r)) (v_index (snd r)) (v_name (snd r)) d) else r) <$> aw_verts w) w).

(* boost::add_edge(u, v, prop, graph()).  Simplification: u or v of another graph is undefined behaviour (boost would link the edge into
   the lists of both graphs).  /repo/src/graph/Graph.hpp:643-648. *)
Definition aw_boost_add (a : agid) (u v : vid) (p : E) : call aworld eid := fun w =>
  if aw_owns w a u && aw_owns w a v then
    match aw_objs w !! a with
    | None => (w, [], UB)
    | Some o =>
        (AWorld (aw_verts w) (aw_edges w ++ [(a, ERec (aw_nexte w) u v p)])
           (<[a := GObj (go_map o) (go_maxvi o) (go_nv o) (S (go_ne o)) (go_recv o)]> (aw_objs w)) (aw_pubs w)
           (aw_nextv w) (S (aw_nexte w)) (aw_told w), [], Ret (aw_nexte w))
    end
  else (w, [], UB).

(* Graph::add_edge(name, name, prop), /repo/src/graph/Graph.hpp:630-682. *)
Definition aw_add_edge (a : agid) (o t : frameid) (p : E) : call aworld unit :=
  g <-- aw_obj a ;;
  vo <-- (match go_map g !! o with None => aw_add_vertex a o d0 | Some v => cret v end) ;;
  vt <-- (match go_map g !! t with None => aw_add_vertex a t d0 | Some v => cret v end) ;;
  e <-- cread (fun w => aw_find_edge w vo vt) ;;
  match e with
  | Some _ =>
      fo <-- cread (fun w => aw_frame_id w vo) ;;
      ft <-- cread (fun w => aw_frame_id w vt) ;;
      cread (fun _ => Throw (XEdgeAlreadyExists fo ft))
  | None =>
      i <-- aw_boost_add a vo vt p ;;
      aw_boost_add a vt vo (einv p) ;;;
      fo <-- cread (fun w => aw_frame_id w vo) ;;
      ft <-- cread (fun w => aw_frame_id w vt) ;;
      aw_notify a (EvEdgeAdded fo ft i)
  end.

(* operator[](edge) = prop, /repo/src/graph/Graph.hpp:894, 898. *)
Definition aw_set_edge (i : eid) (p : E) (w : aworld) : aworld :=
  aw_set_edges ((fun e => if Nat.eqb (e_id (snd e)) i then (fst e, ERec (e_id (snd e)) (e_src (snd e)) (e_tgt (snd e)) p) else e) <$> aw_edges w) w.

(* Graph::setEdgeProperty(name, name, prop), /repo/src/graph/Graph.hpp:873-901. *)
Definition aw_set_prop (a : agid) (o t : frameid) (p : E) : call aworld unit :=
  vo <-- cread (fun w => aw_get_vertex w a o) ;;
  vt <-- cread (fun w => aw_get_vertex w a t) ;;
  e <-- cread (fun w => aw_find_edge w vo vt) ;;
  match e with
  | None =>
      fo <-- cread (fun w => aw_frame_id w vo) ;;
      ft <-- cread (fun w => aw_frame_id w vt) ;;
      cread (fun _ => Throw (XUnknownEdge fo ft))
  | Some e1 =>
      cmodify (aw_set_edge (e_id (snd e1)) p) ;;;
      e' <-- cread (fun w => aw_find_edge w vt vo) ;;
      match e' with
      | None => cread (fun _ => UB)
      | Some e2 =>
          cmodify (aw_set_edge (e_id (snd e2)) (einv p)) ;;;
          fo <-- cread (fun w => aw_frame_id w vo) ;;
          ft <-- cread (fun w => aw_frame_id w vt) ;;
          aw_notify a (EvEdgeModified fo ft (e_id (snd e1)) (e_id (snd e2)))
      end
  end.

(* boost::remove_edge(edge, graph()): erasing an edge of another graph from the list is undefined behaviour.
   /repo/src/graph/Graph.hpp:698, 701. *)
Definition aw_boost_remove (a : agid) (i : eid) : call aworld unit := fun w =>
  if existsb (fun e => Nat.eqb (e_id e) i) (aw_own_edges w a) then
    match aw_objs w !! a with
    | None => (w, [], UB)
    | Some o => (aw_set_obj a (GObj (go_map o) (go_maxvi o) (go_nv o) (pred (go_ne o)) (go_recv o))
                   (aw_set_edges (filter (fun e => e_id (snd e) <> i) (aw_edges w)) w), [], Ret tt)
    end
  else (w, [], UB).

(* Graph::remove_edge(name, name), /repo/src/graph/Graph.hpp:684-719. *)
Definition aw_remove_edge (a : agid) (o t : frameid) : call aworld unit :=
  vo <-- cread (fun w => aw_get_vertex w a o) ;;
  vt <-- cread (fun w => aw_get_vertex w a t) ;;
  ot <-- cread (fun w => aw_find_edge w vo vt) ;;
  to <-- cread (fun w => aw_find_edge w vt vo) ;;
  match ot, to with
  | Some e1, Some e2 =>
      aw_boost_remove a (e_id (snd e1)) ;;;
      aw_notify a (EvEdgeRemoved o t) ;;;
      aw_boost_remove a (e_id (snd e2))
  | _, _ => cread (fun _ => Throw (XUnknownEdge o t))
  end.

(* Graph::removeFrame, /repo/src/graph/Graph.hpp:506-524; removing a vertex of another graph is undefined behaviour. *)
Definition aw_remove_frame (a : agid) (f : frameid) : call aworld unit :=
  v <-- cread (fun w => aw_get_vertex w a f) ;;
  cread (fun w => match aw_vrec w v with
    | None => UB
    | Some _ => if existsb (fun e => Nat.eqb (e_src (snd e)) v || Nat.eqb (e_tgt (snd e)) v) (aw_edges w)
                then Throw (XFrameStillConnected f) else Ret tt
    end) ;;;
  (fun w => if aw_owns w a v then (w, [], Ret tt) else (w, [], UB)) ;;;
  o <-- aw_obj a ;;
  cmodify (fun w => aw_set_obj a (GObj (delete f (go_map o)) (go_maxvi o) (pred (go_nv o)) (go_ne o) (go_recv o))
    (aw_set_verts (filter (fun r => v_id (snd r) <> v) (aw_verts w)) w)) ;;;
  aw_notify a (EvFrameRemoved f).

(* A new graph object at an address not in use (otherwise no C++ program: UB).  /repo/src/graph/Graph.hpp:384-400. *)
Definition aw_new (a : agid) : call aworld unit := fun w =>
  match aw_objs w !! a with
  | Some _ => (w, [], UB)
  | None => (aw_set_obj a (GObj ∅ 0 0 0 []) w, [], Ret tt)
  end.

(* GraphEventPublisher::unsubscribeInternal, /repo/src/events/GraphEventPublisher.cpp:125-132. *)
Fixpoint aw_erase (s : asid) (l : list asid) : list asid :=
  match l with [] => [] | x :: l' => if Nat.eqb x s then l' else x :: aw_erase s l' end.

(* GraphEventSubscriber::unsubscribe with GraphEventPublisher::unsubscribe; a destroyed subscriber or publisher is UB.
   /repo/src/events/GraphEventSubscriber.cpp:54-61, /repo/src/events/GraphEventPublisher.cpp:58-74. *)
Definition aw_unsubscribe (s : asid) : call aworld unit := fun w =>
  match aw_pubs w !! s with
  | None => (w, [], UB)
  | Some None => (w, [], Ret tt)
  | Some (Some a) =>
      match aw_objs w !! a with
      | None => (w, [], UB)
      | Some o => (aw_set_pub s None (aw_set_obj a (GObj (go_map o) (go_maxvi o) (go_nv o) (go_ne o) (aw_erase s (go_recv o))) w), [], Ret tt)
      end
  end.

(* GraphEventSubscriber::subscribe without publish_current_state, /repo/src/events/GraphEventSubscriber.cpp:43-52; a new subscriber that
   does not exist yet is constructed first (/repo/src/events/GraphEventSubscriber.cpp:33-41). *)
Definition aw_subscribe (s : asid) (a : agid) : call aworld unit := fun w =>
  (match aw_pubs w !! s with None => cret tt | Some _ => aw_unsubscribe s end ;;;
   o <-- aw_obj a ;;
   cmodify (fun w => aw_set_pub s (Some a) (aw_set_obj a (GObj (go_map o) (go_maxvi o) (go_nv o) (go_ne o) (go_recv o ++ [s])) w))) w.

(* ~GraphEventSubscriber, /repo/src/events/GraphEventSubscriber.cpp:63-66. *)
Definition aw_destroy_sub (s : asid) : call aworld unit :=
  aw_unsubscribe s ;;;
  cmodify (fun w => AWorld (aw_verts w) (aw_edges w) (aw_objs w) (delete s (aw_pubs w)) (aw_nextv w) (aw_nexte w) (aw_told w)).

(* The loop of ~GraphEventPublisher: back()->unsubscribe() and pop_back(), which is undefined for an empty vector; [n] bounds its rounds.
   /repo/src/events/GraphEventPublisher.cpp:115-123. *)
Fixpoint aw_release (n : nat) (a : agid) : call aworld unit := fun w =>
  match aw_objs w !! a with
  | None => (w, [], UB)
  | Some o =>
      match last (go_recv o) with
      | None => (w, [], Ret tt)
      | Some s =>
          match n with
          | O => (w, [], Fuel)
          | S n' =>
              (aw_unsubscribe s ;;;
               o' <-- aw_obj a ;;
               match go_recv o' with
               | [] => cread (fun _ => UB)
               | l => cmodify (aw_set_obj a (GObj (go_map o') (go_maxvi o') (go_nv o') (go_ne o') (removelast l))) ;;; aw_release n' a
               end) w
          end
      end
  end.

(* Destruction of a graph object: the publisher, then the vertices and edges in its lists.
   /repo/src/events/GraphEventPublisher.cpp:115-123, /repo/src/graph/Graph.hpp:61-64. *)
Definition aw_destroy (a : agid) : call aworld unit :=
  o <-- aw_obj a ;;
  aw_release (length (go_recv o)) a ;;;
  cmodify (fun w => AWorld (filter (fun r => fst r <> a) (aw_verts w)) (filter (fun e => fst e <> a) (aw_edges w)) (delete a (aw_objs w))
    (aw_pubs w) (aw_nextv w) (aw_nexte w) (aw_told w)).

(* Copies of the vertices and edges of graph [b] for graph [a], at new addresses, in the same order; an edge leads between the copies of
   its ends.  The copying inside boost's adjacency_list::operator= and boost::copy_graph, /repo/src/graph/Graph.hpp:61-64, 415. *)
Definition aw_copy_verts (w : aworld) (a b : agid) : list (agid * vrec D) :=
  imap (fun k r => (a, VRec (aw_nextv w + k) (v_index r) (v_name r) (v_data r))) (aw_own_verts w b).
(* Same source lines. *)
Definition aw_copy_edges (w : aworld) (a b : agid) : list (agid * erec E) :=
  imap (fun k e => (a, ERec (aw_nexte w + k) (aw_nextv w + position (e_src e) (aw_own_verts w b))
                         (aw_nextv w + position (e_tgt e) (aw_own_verts w b)) (e_prop e))) (aw_own_edges w b).

(* Graph(const Graph& ) at an address not in use: copy_graph (UB if a vertex index is out of bounds) and regenerateLabelMap; the publisher
   starts without subscribers.  /repo/src/graph/Graph.hpp:402-418, 1029-1038. *)
Definition aw_copy (a b : agid) : call aworld unit := fun w =>
  match aw_objs w !! a, aw_objs w !! b with
  | None, Some o =>
      if forallb (fun r => Nat.ltb (v_index r) (go_nv o)) (aw_own_verts w b) then
        let vs := imap (fun k r => (a, VRec (aw_nextv w + k) k (v_name r) (v_data r))) (aw_own_verts w b) in
        let es := aw_copy_edges w a b in
        (AWorld (aw_verts w ++ vs) (aw_edges w ++ es)
           (<[a := GObj (regenerate_label_map ∅ (snd <$> vs)) (length vs) (length vs) (length es) []]> (aw_objs w)) (aw_pubs w)
           (aw_nextv w + length vs) (aw_nexte w + length es) (aw_told w), [], Ret tt)
      else (w, [], UB)
  | _, _ => (w, [], UB)
  end.

(* a = b: the operator= the compiler generates for Graph assigns base by base and member by member.  labeled_graph::operator= assigns the
   directed_graph (whose adjacency_list drops its vertices and edges and copies those of the other one) and then _map as it is, with the
   descriptors of b's vertices; GraphEventPublisher gets b's list of subscribers.  Nothing happens if both are the same object.
   /repo/src/graph/Graph.hpp:61-64, /repo/src/graph/GraphTypes.hpp:126-159, /repo/src/events/GraphEventPublisher.hpp:46-60. *)
Definition aw_assign (a b : agid) : call aworld unit := fun w =>
  match aw_objs w !! a, aw_objs w !! b with
  | Some _, Some o =>
      if Nat.eqb a b then (w, [], Ret tt)
      else
        let vs := aw_copy_verts w a b in
        let es := aw_copy_edges w a b in
        (AWorld (filter (fun r => fst r <> a) (aw_verts w) ++ vs) (filter (fun e => fst e <> a) (aw_edges w) ++ es)
           (<[a := o]> (aw_objs w)) (aw_pubs w) (aw_nextv w + length vs) (aw_nexte w + length es) (aw_told w), [], Ret tt)
  | _, _ => (w, [], UB)
  end.

(* One step of a program with several graphs.  Client code; see the calls cited above, e.g. /repo/src/graph/Graph.hpp:95-330. *)
Inductive aop : Type :=
| ANew (a : agid)
| ACopy (a b : agid)
| AAssign (a b : agid)
| ADestroy (a : agid)
| AEmplace (a : agid) (f : frameid) (d : D)
| ASetData (a : agid) (f : frameid) (d : D)
| AAddEdge (a : agid) (o t : frameid) (p : E)
| ASetProp (a : agid) (o t : frameid) (p : E)
| ARemoveEdge (a : agid) (o t : frameid)
| ARemoveFrame (a : agid) (f : frameid)
| ASubscribe (s : asid) (a : agid)
| ADestroySub (s : asid).

(* Same source lines. *)
Definition awstep (op : aop) : call aworld unit :=
  match op with
  | ANew a => aw_new a
  | ACopy a b => aw_copy a b
  | AAssign a b => aw_assign a b
  | ADestroy a => aw_destroy a
  | AEmplace a f d => aw_emplace a f d
  | ASetData a f d => aw_set_data a f d
  | AAddEdge a o t p => aw_add_edge a o t p
  | ASetProp a o t p => aw_set_prop a o t p
  | ARemoveEdge a o t => aw_remove_edge a o t
  | ARemoveFrame a f => aw_remove_frame a f
  | ASubscribe s a => aw_subscribe s a
  | ADestroySub s => aw_destroy_sub s
  end.

(* A program; exceptions are caught by the caller.  Client code, same source lines. *)
Fixpoint awrun (p : list aop) : call aworld unit := fun w =>
  match p with
  | [] => (w, [], Ret tt)
  | op :: p' =>
      let '(w1, _, r) := awstep op w in
      match r with
      | Ret _ | Throw _ => awrun p' w1
      | UB => (w1, [], UB)
      | Fuel => (w1, [], Fuel)
      end
  end.

End assign.
Global Arguments gobj : clear implicits.
Global Arguments aworld : clear implicits.
Global Arguments aop : clear implicits.
