(** envire::core::TreeView.  Executable definitions only. *)
From stdpp Require Import prelude strings gmap.
From Verif Require Import Outcome Digraph Bfs.

(* VertexRelation, /repo/src/graph/TreeView.hpp:39-46.  The child set is kept as a duplicate-free
   list; its iteration order is supplied by an oracle where it matters. *)
Record vrel := VRel { vr_parent : vid; vr_children : list vid }.

(* TreeView::CrossEdge, /repo/src/graph/TreeView.hpp:73-82. *)
Record cross := Cross { ce_origin : vid; ce_target : vid; ce_edge : eid }.

(* Emissions of the signals crossEdgeAdded, edgeAdded, edgeRemoved;
   /repo/src/graph/TreeView.hpp:189-201. *)
Inductive vsig := SigCross (c : cross) | SigAdded (o t : vid) | SigRemoved (o t : vid).

(* TreeView, /repo/src/graph/TreeView.hpp:69-217.
   [tv_pub]: is the publisher pointer set; [tv_log]: signals emitted so far (ghost history);
   [tv_slots_*]: connections of the three signals (identities of connected slots). *)
Record tview := TView {
  tv_root  : vid;
  tv_tree  : gmap vid vrel;
  tv_cross : list cross;
  tv_pub   : bool;
  tv_log   : list vsig;
  tv_slots_cross : list nat;
  tv_slots_added : list nat;
  tv_slots_removed : list nat }.

(* Value-initialised VertexRelation created by unordered_map::operator[]: null parent, no
   children; /repo/src/graph/TreeView.cpp:154-155, 257. *)
Definition vrel0 : vrel := VRel null_vertex [].

(* TreeView::TreeView(), /repo/src/graph/TreeView.hpp:86. *)
Definition tv_new : tview := TView null_vertex ∅ [] false [] [] [] [].

(* Iteration order of an unordered_set of children: for the view (with its whole history) and
   the node visited, the oracle returns the children in iteration order.
   std::unordered_set at /repo/src/graph/TreeView.hpp:42; theorems quantify over all oracles
   satisfying [ord_ok]. *)
Definition order := tview -> vid -> list vid -> list vid.

(* What is assumed about an iteration order: every element exactly once.
   /repo/src/graph/TreeView.hpp:42 (std::unordered_set). *)
Definition ord_ok (o : order) : Prop := forall w v l, o w v l ≡ₚ l.

(* tree[v] as a read, /repo/src/graph/TreeView.cpp:190-194 (missing entries read as the
   value-initialised relation).
   Simplification: the empty entry operator[] would insert is not inserted; every caller
   modelled here has checked that the vertices are present. *)
Definition tv_rel (t : gmap vid vrel) (v : vid) : vrel := default vrel0 (t !! v).

(* unordered_set::insert, /repo/src/graph/TreeView.cpp:154. *)
Definition set_insert (v : vid) (l : list vid) : list vid :=
  if bool_decide (v ∈ l) then l else l ++ [v].

(* unordered_set::erase, /repo/src/graph/TreeView.cpp:239. *)
Definition set_erase (v : vid) (l : list vid) : list vid := filter (fun w => w <> v) l.

(* Setters for single fields of a view (C++ member assignment at
   /repo/src/graph/TreeView.cpp:86-157). *)
Definition tv_set_tree (t : gmap vid vrel) (w : tview) : tview :=
  TView (tv_root w) t (tv_cross w) (tv_pub w) (tv_log w)
        (tv_slots_cross w) (tv_slots_added w) (tv_slots_removed w).
(* Assignment to crossEdges, /repo/src/graph/TreeView.cpp:149, 226. *)
Definition tv_set_cross (c : list cross) (w : tview) : tview :=
  TView (tv_root w) (tv_tree w) c (tv_pub w) (tv_log w)
        (tv_slots_cross w) (tv_slots_added w) (tv_slots_removed w).
(* Assignment to root, /repo/src/graph/TreeView.cpp:101, 258. *)
Definition tv_set_root (r : vid) (w : tview) : tview :=
  TView r (tv_tree w) (tv_cross w) (tv_pub w) (tv_log w)
        (tv_slots_cross w) (tv_slots_added w) (tv_slots_removed w).
(* Assignment to publisher, /repo/src/graph/TreeView.cpp:71, 89, 109. *)
Definition tv_set_pub (b : bool) (w : tview) : tview :=
  TView (tv_root w) (tv_tree w) (tv_cross w) b (tv_log w)
        (tv_slots_cross w) (tv_slots_added w) (tv_slots_removed w).
(* Emission of a signal, /repo/src/graph/TreeView.cpp:150, 156, 244. *)
Definition tv_emit (s : vsig) (w : tview) : tview :=
  TView (tv_root w) (tv_tree w) (tv_cross w) (tv_pub w) (tv_log w ++ [s])
        (tv_slots_cross w) (tv_slots_added w) (tv_slots_removed w).

(* The three signals of a view, /repo/src/graph/TreeView.hpp:189-201. *)
Inductive vsigkind := KCross | KAdded | KRemoved.

(* boost::signals2::signal::connect and disconnect on a public signal of a view
   (/repo/src/graph/TreeView.hpp:189-201; as called in
   /repo/viz/EnvireGraphStructureVisualization/EnvireGraphStructureVisualization.cpp:153, 171): a new connection is put last, disconnecting removes it. *)
Definition tv_slot (k : vsigkind) (on : bool) (c : nat) (w : tview) : tview :=
  let f l := if on then l ++ [c] else filter (fun x => x <> c) l in
  match k with
  | KCross => TView (tv_root w) (tv_tree w) (tv_cross w) (tv_pub w) (tv_log w)
                    (f (tv_slots_cross w)) (tv_slots_added w) (tv_slots_removed w)
  | KAdded => TView (tv_root w) (tv_tree w) (tv_cross w) (tv_pub w) (tv_log w)
                    (tv_slots_cross w) (f (tv_slots_added w)) (tv_slots_removed w)
  | KRemoved => TView (tv_root w) (tv_tree w) (tv_cross w) (tv_pub w) (tv_log w)
                      (tv_slots_cross w) (tv_slots_added w) (f (tv_slots_removed w))
  end.

(* TreeView::clear, /repo/src/graph/TreeView.cpp:97-102. *)
Definition tv_clear (w : tview) : tview :=
  tv_set_root null_vertex (tv_set_cross [] (tv_set_tree ∅ w)).

(* TreeView::isRoot, /repo/src/graph/TreeView.cpp:92-95. *)
Definition tv_is_root (w : tview) (v : vid) : bool := Nat.eqb v (tv_root w).

(* TreeView::vertexExists, /repo/src/graph/TreeView.cpp:140-143. *)
Definition tv_vertex_exists (w : tview) (v : vid) : bool :=
  bool_decide (is_Some (tv_tree w !! v)).

(* TreeView::edgeExists including its asserts (a failed assert is UB);
   /repo/src/graph/TreeView.cpp:113-138. *)
Definition tv_edge_exists (w : tview) (a b : vid) : outcome bool :=
  match tv_tree w !! a, tv_tree w !! b with
  | Some ra, Some rb =>
      if Nat.eqb (vr_parent ra) b then
        if bool_decide (a ∈ vr_children rb) then Ret true else UB
      else if Nat.eqb (vr_parent rb) a then
        if bool_decide (b ∈ vr_children ra) then Ret true else UB
      else Ret false
  | _, _ => Ret false
  end.

(* TreeView::addCrossEdge, /repo/src/graph/TreeView.cpp:145-151. *)
Definition tv_add_cross (o t : vid) (e : eid) (w : tview) : tview :=
  tv_emit (SigCross (Cross o t e)) (tv_set_cross (tv_cross w ++ [Cross o t e]) w).

(* TreeView::addEdge, /repo/src/graph/TreeView.cpp:152-157. *)
Definition tv_add_edge (o t : vid) (w : tview) : tview :=
  let ro := tv_rel (tv_tree w) o in
  let t1 := <[o := VRel (vr_parent ro) (set_insert t (vr_children ro))]> (tv_tree w) in
  let rt := tv_rel t1 t in
  let t2 := <[t := VRel o (vr_children rt)]> t1 in
  tv_emit (SigAdded o t) (tv_set_tree t2 w).

(* TreeView::addRoot, /repo/src/graph/TreeView.cpp:255-259. *)
Definition tv_add_root (r : vid) (w : tview) : tview :=
  tv_set_root r (tv_set_tree
    (<[r := VRel null_vertex (vr_children (tv_rel (tv_tree w) r))]> (tv_tree w)) w).

(* TreeView::getParent, /repo/src/graph/TreeView.cpp:261-272. *)
Definition tv_get_parent (w : tview) (v : vid) : outcome vid :=
  if Nat.eqb v null_vertex then Throw XRuntime
  else match tv_tree w !! v with
       | None => Throw XRuntime
       | Some r => Ret (vr_parent r)
       end.

(* TreeView::isParent, /repo/src/graph/TreeView.cpp:274-277 (unordered_map::at throws). *)
Definition tv_is_parent (w : tview) (p c : vid) : outcome bool :=
  match tv_tree w !! c with
  | None => Throw XOutOfRange
  | Some r => Ret (Nat.eqb (vr_parent r) p)
  end.

(* TreeView::visitBfs: the calls f(node, parent) made, in order, and how the traversal ended
   (a runtime_error of getParent is rethrown).  /repo/src/graph/TreeView.hpp:135-156.
   Simplification: f does not change the view's tree. *)
Fixpoint tv_visit_bfs (fuel : nat) (ord : order) (w : tview) (q : list vid)
  : list (vid * vid) * outcome unit :=
  match q with
  | [] => ([], Ret tt)
  | cur :: q' =>
      match fuel with
      | O => ([], Fuel)
      | S n =>
          match tv_get_parent w cur with
          | Ret p =>
              let '(l, r) :=
                tv_visit_bfs n ord w (q' ++ ord w cur (vr_children (tv_rel (tv_tree w) cur))) in
              ((cur, p) :: l, r)
          | Throw x => ([], Throw x)
          | UB => ([], UB)
          | Fuel => ([], Fuel)
          end
      end
  end.

(* TreeView::visitDfs: calls f(node, parent) made, in order; unordered_map::at throws for a
   vertex that is not in the tree.  /repo/src/graph/TreeView.hpp:121-131.
   [todo] is the stack of vertices still to visit (children of a node are pushed in iteration
   order, which is the order of the recursive calls). *)
Fixpoint tv_visit_dfs (fuel : nat) (ord : order) (w : tview) (todo : list vid)
  : list (vid * vid) * outcome unit :=
  match todo with
  | [] => ([], Ret tt)
  | cur :: rest =>
      match fuel with
      | O => ([], Fuel)
      | S n =>
          match tv_tree w !! cur with
          | None => ([], Throw XOutOfRange)
          | Some r =>
              let '(l, o) := tv_visit_dfs n ord w (ord w cur (vr_children r) ++ rest) in
              ((cur, vr_parent r) :: l, o)
          end
      end
  end.

(* State of the cross-edge bookkeeping inside removeEdge: the vector crossEdges, the first index
   at which iterators are invalidated by vector::erase, and the set treeLeavingCrossEdges
   (iterators represented by their index in the vector at the start).
   /repo/src/graph/TreeView.cpp:182-229. *)
Record xstate := XState { xs_cross : list cross; xs_limit : nat; xs_leaving : list nat }.

(* One step of the lambda for one iterator of the multimap range; using an iterator that an
   earlier vector::erase invalidated (directly, or as an element the set compares with) is UB
   (None).  /repo/src/graph/TreeView.cpp:214-227. *)
Definition xs_step (i : nat) (s : xstate) : option xstate :=
  if bool_decide (i < xs_limit s) && forallb (fun j => Nat.ltb j (xs_limit s)) (xs_leaving s)
  then
    if bool_decide (i ∈ xs_leaving s)
    then Some (XState (delete i (xs_cross s)) i (filter (fun j => j <> i) (xs_leaving s)))
    else Some (XState (xs_cross s) (xs_limit s) (xs_leaving s ++ [i]))
  else None.

(* Folding [xs_step] over a list of iterators, /repo/src/graph/TreeView.cpp:213-227. *)
Fixpoint xs_steps (is : list nat) (s : xstate) : option xstate :=
  match is with
  | [] => Some s
  | i :: is' => match xs_step i s with Some s' => xs_steps is' s' | None => None end
  end.

(* vertexToCrossEdge.equal_range(node): indices of the cross edges touching [node] in insertion
   order, twice for a cross edge from [node] to itself.  /repo/src/graph/TreeView.cpp:181-186, 213.
   [k] is the index of the head of the list. *)
Fixpoint xs_touching (node : vid) (l : list cross) (k : nat) : list nat :=
  match l with
  | [] => []
  | c :: l' =>
      (if Nat.eqb (ce_origin c) node then [k] else []) ++
      (if Nat.eqb (ce_target c) node then [k] else []) ++ xs_touching node l' (S k)
  end.

(* Removal of the collected vertices from the tree, last visited first, with the assert on the
   children (UB if it fails).  /repo/src/graph/TreeView.cpp:231-244. *)
Fixpoint tv_remove_vertices (vs : list vid) (w : tview) : tview * outcome unit :=
  match vs with
  | [] => (w, Ret tt)
  | node :: vs' =>
      let parent := vr_parent (tv_rel (tv_tree w) node) in
      let rp := tv_rel (tv_tree w) parent in
      let t1 := <[parent := VRel (vr_parent rp) (set_erase node (vr_children rp))]> (tv_tree w) in
      if bool_decide (vr_children (tv_rel t1 node) = []) then
        tv_remove_vertices vs'
          (tv_emit (SigRemoved parent node) (tv_set_tree (delete node t1) w))
      else (w, UB)
  end.

(* TreeView::removeEdge, /repo/src/graph/TreeView.cpp:161-253. *)
Definition tv_remove_edge (ord : order) (o t : vid) (w : tview) : tview * outcome unit :=
  let real :=
    if Nat.eqb (vr_parent (tv_rel (tv_tree w) t)) o then Some t
    else if Nat.eqb (vr_parent (tv_rel (tv_tree w) o)) t then Some o
    else None in
  match real with
  | None => (w, UB)
  | Some rt =>
      let '(visited, r) := tv_visit_bfs (S (size (tv_tree w))) ord w [rt] in
      let is := mjoin ((fun vp => xs_touching (fst vp) (tv_cross w) 0) <$> visited) in
      match xs_steps is (XState (tv_cross w) (length (tv_cross w)) []) with
      | None => (w, UB)
      | Some xs =>
          let w1 := tv_set_cross (xs_cross xs) w in
          match r with
          | Ret _ =>
              let '(w2, r2) := tv_remove_vertices (rev (fst <$> visited)) w1 in
              match r2 with
              | Ret _ =>
                  match xs_leaving xs with
                  | [] => (w2, Ret tt)
                  | _ => (w2, Throw XRuntime)
                  end
              | _ => (w2, r2)
              end
          | _ => (w1, r)
          end
      end
  end.

(* TreeBuilderVisitor: tree_edge adds the edge, gray_target adds a cross edge;
   /repo/src/graph/GraphVisitors.hpp:115-137. *)
Definition build_step {E} (b : bev E) (w : tview) : tview :=
  match b with
  | BTree e => tv_add_edge (e_src e) (e_tgt e) w
  | BGray e => tv_add_cross (e_src e) (e_tgt e) (e_id e) w
  | _ => w
  end.

(* Running TreeBuilderVisitor over the call-backs of one search, in order;
   /repo/src/graph/GraphVisitors.hpp:102-141. *)
Definition build_tree {E} (tr : list (bev E)) (w : tview) : tview :=
  foldl (fun w b => build_step b w) w tr.
