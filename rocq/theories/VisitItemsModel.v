(** Model of visitItems, with a visitor that may use the graph.  Executable definitions only. *)
From stdpp Require Import prelude strings gmap.
From Verif Require Import Outcome ItemClass Digraph TreeView GraphModel GraphOps ItemsModel.

Section visit.
Context {E : Type} (einv : E -> E).
Local Notation est := (est E).

(* The body of a callable object handed to visitItems, /repo/src/graph/EnvireGraph.hpp:297-303: calls of the graph that owns the frame, the
   next one chosen by what the last one did, then a normal end or an exception.  Client code of
   /repo/src/graph/EnvireGraph.hpp:85-215. *)
Inductive iscript :=
| IEnd
| IThrow (x : exn)
| ICall (ord : viewid -> order) (io : iorder) (op : eop E) (k : est -> outcome unit -> iscript).

(* The visitor: what it does for an item and what it remembers, both any function of its memory, the item and the state.
   /repo/src/items/Frame.hpp:121-124. *)
Record ivisitor (C : Type) := IVisitor { iz_do : C -> iptr -> est -> iscript; iz_memory : C -> iptr -> est -> C }.
Global Arguments iz_do {C} _ _ _ _.
Global Arguments iz_memory {C} _ _ _ _.

(* The map of items of a frame, graph[frameId].items: /repo/src/graph/EnvireGraph.hpp:301, /repo/src/items/Frame.hpp:60. *)
Definition content (s : est) (f : frameid) : outcome imap := obind (get_vertex (es_g s) f) (items_at s).

(* One call invalidates the iterators of the two loops over frame [f] standing at type [k], /repo/src/items/Frame.hpp:126-129: the frame is
   gone, the list of the type was written (every call that writes a list makes it longer or shorter), or a type was inserted into the
   unordered_map.  Simplification: an insertion is taken to rehash the map, which the standard permits but does not demand. *)
Definition disturbs (f : frameid) (k : tyid) (s s' : est) : bool :=
  match content s f, content s' f with
  | Ret m, Ret m' => negb (bool_decide (m' !! k = m !! k)) || negb (bool_decide (dom m' ⊆ dom m))
  | _, _ => true
  end.

(* The body run to its end, func(item) at /repo/src/items/Frame.hpp:131; the flag says that a call invalidated the iterators of the loops. *)
Fixpoint ibody (f : frameid) (k : tyid) (sc : iscript) : est -> est * bool * list event * outcome unit := fun s =>
  match sc with
  | IEnd => (s, false, [], Ret tt)
  | IThrow x => (s, false, [], Throw x)
  | ICall ord io op next =>
      let '(s1, ev1, r) := estep einv ord io op s in
      match r with
      | Ret _ | Throw _ => let '(s2, d, ev2, r2) := ibody f k (next s1 r) s1 in (s2, disturbs f k s s1 || d, ev1 ++ ev2, r2)
      | UB => (s1, true, ev1, UB)
      | Fuel => (s1, true, ev1, Fuel)
      end
  end.

(* The inner loop, /repo/src/items/Frame.hpp:128-132: the rest [l] of the list of type [k].  Going on with iterators that were invalidated is
   UB; an exception leaves the loop.  Beside the graph the state holds the items visited so far, which no code reads. *)
Fixpoint visit_list {C} (z : ivisitor C) (f : frameid) (k : tyid) (l : list iptr) (c : C) : call (est * list iptr) C := fun s =>
  match l with
  | [] => (s, [], Ret c)
  | i :: l' =>
      let '(s1, d, ev1, r) := ibody f k (iz_do z c i (fst s)) (fst s) in
      let s' := (s1, snd s ++ [i]) in
      match r with
      | Ret _ =>
          if d then (s', ev1, UB)
          else let '(s2, ev2, r2) := visit_list z f k l' (iz_memory z c i (fst s)) s' in (s2, ev1 ++ ev2, r2)
      | Throw x => (s', ev1, Throw x)
      | UB => (s', ev1, UB)
      | Fuel => (s', ev1, Fuel)
      end
  end.

(* The outer loop, /repo/src/items/Frame.hpp:126-133: the types [ks] that were in the map in the beginning and were not reached yet; one that
   was erased since is not reached any more. *)
Fixpoint visit_types {C} (z : ivisitor C) (f : frameid) (ks : list tyid) (c : C) : call (est * list iptr) C := fun s =>
  match ks with
  | [] => (s, [], Ret c)
  | k :: ks' =>
      match content (fst s) f with
      | Ret m =>
          match m !! k with
          | None => visit_types z f ks' c s
          | Some l =>
              let '(s1, ev1, r) := visit_list z f k l c s in
              match r with
              | Ret c' => let '(s2, ev2, r2) := visit_types z f ks' c' s1 in (s2, ev1 ++ ev2, r2)
              | Throw x => (s1, ev1, Throw x)
              | UB => (s1, ev1, UB)
              | Fuel => (s1, ev1, Fuel)
              end
          end
      | _ => (s, [], UB)
      end
  end.

(* visitItems(frameId, func), /repo/src/graph/EnvireGraph.hpp:297-303, /repo/src/items/Frame.hpp:121-134.  [io] is the order of the types of
   the frame's map in the beginning; it stays the order of those that stay, since only insertions can change it. *)
Definition visit_items_with {C} (io : iorder) (z : ivisitor C) (f : frameid) (c : C) : call (est * list iptr) C := fun s =>
  match check_frame_valid (fst s) f with
  | Ret _ =>
      match content (fst s) f with
      | Ret m => visit_types z f (io (bg_vertex (gs_dg (es_g (fst s))) f) m) c s
      | _ => (s, [], UB)
      end
  | Throw x => (s, [], Throw x)
  | UB => (s, [], UB)
  | Fuel => (s, [], Fuel)
  end.

End visit.
Global Arguments iscript : clear implicits.
Global Arguments ivisitor : clear implicits.
Global Arguments IEnd {E}.
Global Arguments IThrow {E} _.
Global Arguments ICall {E} _ _ _ _.
Global Arguments IVisitor {E C} _ _.
