(** Model of class Path (/repo/src/graph/Path.hpp, Path.cpp), of Graph::getPath and of TransformGraph::getTransform(path).
    Executable definitions only. *)
From stdpp Require Import prelude strings gmap.
From Verif Require Import Outcome Digraph Bfs TreeView GraphModel GraphOps TransformModel.

(* envire::core::Path: the frames, the set of edges as pairs of names, the flags dirty and autoUpdating.
   Simplification: the members inherited from GraphEventDispatcher are not modelled, the dispatcher stays enabled.
   /repo/src/graph/Path.hpp:134-142. *)
Record path := PathV {
  p_frames : list frameid;
  p_edges : gset (frameid * frameid);
  p_dirty : bool;
  p_auto : bool }.

(* Path::createEdges: edges.emplace(frames[i], frames[i+1]) for all i.  /repo/src/graph/Path.cpp:111-122. *)
Fixpoint create_edges (l : list frameid) : gset (frameid * frameid) :=
  match l with
  | a :: l' => match l' with b :: _ => {[(a, b)]} ∪ create_edges l' | [] => ∅ end
  | [] => ∅
  end.

(* The two constructors, /repo/src/graph/Path.cpp:35-42; the second one subscribes the path to the graph. *)
Definition path_new (auto : bool) (l : list frameid) : path :=
  PathV l (if auto then create_edges l else ∅) false auto.

(* Path::setDirty, /repo/src/graph/Path.cpp:100-103. *)
Definition set_dirty (d : bool) (p : path) : path := PathV (p_frames p) (p_edges p) d (p_auto p).

(* Path::setFrames, /repo/src/graph/Path.cpp:105-109. *)
Definition set_frames (l : list frameid) (p : path) : path := PathV l (create_edges l) (p_dirty p) (p_auto p).

(* Path::unsubscribe, /repo/src/graph/Path.cpp:92-98. *)
Definition path_unsubscribe (p : path) : path := PathV (p_frames p) ∅ false false.

(* Path::edgeRemoved, /repo/src/graph/Path.cpp:44-56. *)
Definition path_edge_removed (o t : frameid) (p : path) : path :=
  if p_dirty p then p
  else if bool_decide ((o, t) ∈ p_edges p) then set_dirty true p else p.

(* What the graph's notification does to a path: only a subscribed path gets it, and of the handlers only
   edgeRemoved is overridden.  /repo/src/events/GraphEventDispatcher.cpp:44-98, /repo/src/graph/Path.hpp:122. *)
Definition path_notify (ev : event) (p : path) : path :=
  if p_auto p then match ev with EvEdgeRemoved o t => path_edge_removed o t p | _ => p end else p.

(* Path::getSize, isEmpty, /repo/src/graph/Path.cpp:82-85, 124-127. *)
Definition path_size (p : path) : nat := length (p_frames p).
Definition path_is_empty (p : path) : bool := Nat.eqb (path_size p) 0.

(* Path::getOrigin, getTarget, /repo/src/graph/Path.cpp:63-75. *)
Definition path_origin (p : path) : outcome frameid :=
  match head (p_frames p) with Some f => Ret f | None => Throw XEmptyPath end.
Definition path_target (p : path) : outcome frameid :=
  match last (p_frames p) with Some f => Ret f | None => Throw XEmptyPath end.

(* Path::operator[] (unchecked) and Path::at (checked; the int index is converted to an unsigned number, so a
   negative one is out of range).  /repo/src/graph/Path.cpp:129-137. *)
Definition path_index (p : path) (i : Z) : outcome frameid :=
  if Z.ltb i 0 then UB else match p_frames p !! Z.to_nat i with Some f => Ret f | None => UB end.
Definition path_at (p : path) (i : Z) : outcome frameid :=
  if Z.ltb i 0 then Throw XOutOfRange
  else match p_frames p !! Z.to_nat i with Some f => Ret f | None => Throw XOutOfRange end.

(* Graph::getPath, /repo/src/graph/Graph.hpp:1060-1072. *)
Definition get_path {D E} (s : gst D E) (o t : frameid) (auto : bool) : outcome path :=
  obind (get_frames s o t) (fun l => Ret (path_new auto l)).

Section path_transform.
Context {T : Type} (one : T) (mul : T -> T -> T) (inv : T -> T) {D : Type} (d0 : D).
Implicit Types s : gst D (tf T).

(* The loop of getTransform(path) from frame [i] on: [trans = trans * stepTf.transform]; the time stamp stays that
   of the first step.  /repo/src/graph/TransformGraph.hpp:210-217. *)
Fixpoint path_steps s (acc : tf T) (l : list frameid) : outcome (tf T) :=
  match l with
  | a :: l' =>
      match l' with
      | b :: _ => obind (get_transform one mul s a b) (fun x => path_steps s (Tf (tf_time acc) (mul (tf_tr acc) (tf_tr x))) l')
      | [] => Ret acc
      end
  | [] => Ret acc
  end.

(* (path)[0] and (path)[1] and the loop, /repo/src/graph/TransformGraph.hpp:210-218. *)
Definition path_product s (l : list frameid) : outcome (tf T) :=
  match l with
  | a :: l' => match l' with b :: _ => obind (get_transform one mul s a b) (fun x => path_steps s x l') | [] => UB end
  | [] => UB
  end.

(* TransformGraph::getTransform(path): changes the path, not the graph.
   /repo/src/graph/TransformGraph.hpp:192-219. *)
Definition get_transform_path s : call path (tf T) :=
  n <-- cread (fun p => Ret (path_size p)) ;;
  if Nat.leb n 1 then cret (tf_of one)
  else
    d <-- cread (fun p => Ret (p_dirty p)) ;;
    (if (d : bool) then
       o <-- cread path_origin ;;
       t <-- cread path_target ;;
       l <-- cread (fun _ => get_frames s o t) ;;
       cmodify (set_frames l) ;;;
       cmodify (set_dirty false) ;;;
       cread (fun p => if path_is_empty p then Throw XInvalidPath else Ret tt)
     else cret tt) ;;;
    cread (fun p => path_product s (p_frames p)).

(* A graph and a path of it.  /repo/src/graph/Graph.hpp:1060-1072. *)
Record pst := PSt { ps_g : gst D (tf T); ps_p : path }.

(* What a client does with them: calls on the graph, getTransform(path).  /repo/src/graph/TransformGraph.hpp:192. *)
Inductive pop : Type :=
| PGraph (ord : viewid -> order) (op : gop D (tf T))
| PQuery.

(* One such step.  The path's handler does not look at the graph, so handling the events after the call instead of
   during the call makes no difference.  /repo/src/events/GraphEventPublisher.cpp:76-103,
   /repo/src/graph/TransformGraph.hpp:192-219. *)
Definition pstep (op : pop) : call pst (option (tf T)) := fun x =>
  match op with
  | PGraph ord op =>
      let '(s', ev, r) := gstep d0 (tf_inverse inv) ord op (ps_g x) in
      (PSt s' (foldl (fun p e => path_notify e p) (ps_p x) ev), ev, obind r (fun _ => Ret None))
  | PQuery =>
      let '(p', _, r) := get_transform_path (ps_g x) (ps_p x) in
      (PSt (ps_g x) p', [], obind r (fun y => Ret (Some y)))
  end.

(* A history of such steps with the outcome of each; exceptions are caught, undefined behaviour ends it. *)
(* Client code of /repo/src/graph/TransformGraph.hpp. *)
Fixpoint prun (h : list pop) (x : pst) : pst * list event * list (outcome (option (tf T))) :=
  match h with
  | [] => (x, [], [])
  | op :: h' =>
      let '(x1, ev1, r) := pstep op x in
      match r with
      | Ret _ | Throw _ => let '(x2, ev2, rs) := prun h' x1 in (x2, ev1 ++ ev2, r :: rs)
      | UB | Fuel => (x1, ev1, [r])
      end
  end.

End path_transform.
Global Arguments pst : clear implicits.
Global Arguments pop : clear implicits.
