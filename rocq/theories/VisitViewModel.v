(** Model of TreeView::visitBfs and TreeView::visitDfs with functions that may use the graph.  Executable definitions only. *)
From stdpp Require Import prelude strings gmap.
From Verif Require Import Outcome Digraph TreeView GraphModel GraphOps HandlerModel VisitModel.

Section visit.
Context {D E : Type} (d0 : D) (einv : E -> E) (i : viewid).
Local Notation gst := (gst D E).

(* The function handed to visitBfs and visitDfs: what it does for a vertex and its parent and what it remembers, both any function of its
   memory, the two vertices and the state.  Both take the function by value, and visitDfs copies it for every child: [vf_copy old c] is what a copy
   remembers that is taken of a function with the memory [old] when the latest call left [c].  ([old] if it all lies in the function itself, [c]
   if it only holds references.)  /repo/src/graph/TreeView.hpp:118-138. *)
Record vfun (C : Type) := VFun { vf_do : C -> vid -> vid -> gst -> script D E; vf_memory : C -> vid -> vid -> gst -> C; vf_copy : C -> C -> C }.
Global Arguments vf_do {C} _ _ _ _ _.
Global Arguments vf_memory {C} _ _ _ _ _.
Global Arguments vf_copy {C} _ _ _.

(* tree[v] with operator[], which inserts an empty relation if there is none.  /repo/src/graph/TreeView.hpp:147. *)
Definition tv_touch (v : vid) (w : tview) : tview :=
  match tv_tree w !! v with Some _ => w | None => tv_set_tree (<[v := vrel0]> (tv_tree w)) w end.

(* The loop of visitBfs on the view [i] with the queue [q], /repo/src/graph/TreeView.hpp:140-155.  [n] bounds the number of rounds; beside the
   graph the state holds the calls made so far, which no code reads.  A runtime_error of the function or of getParent is replaced by one with
   another message (lines 151-154); messages are not modelled.  A view that was destroyed meanwhile is UB.
   Simplification: a view destroyed and made again under the same identifier is not told apart. *)
Fixpoint bfs_loop {C} (ord : order) (z : vfun C) (n : nat) (c : C) (q : list vid) : call (gst * list (vid * vid)) unit := fun s =>
  match q with
  | [] => (s, [], Ret tt)
  | cur :: q' =>
      match n with
      | O => (s, [], Fuel)
      | S n' =>
          match gs_views (fst s) !! i with
          | None => (s, [], UB)
          | Some w =>
              match tv_get_parent w cur with
              | Ret p =>
                  let '(s1, ev1, r) := body d0 einv (vf_do z c cur p (fst s)) (fst s) in
                  let seen := snd s ++ [(cur, p)] in
                  match r with
                  | Ret _ =>
                      match gs_views s1 !! i with
                      | None => ((s1, seen), ev1, UB)
                      | Some w1 =>
                          let s2 := gs_set_view i (tv_touch cur w1) s1 in
                          let '(s3, ev3, r3) := bfs_loop ord z n' (vf_memory z c cur p (fst s))
                                                  (q' ++ ord w1 cur (vr_children (tv_rel (tv_tree w1) cur))) (s2, seen) in
                          (s3, ev1 ++ ev3, r3)
                      end
                  | Throw x => ((s1, seen), ev1, Throw x)
                  | UB => ((s1, seen), ev1, UB)
                  | Fuel => ((s1, seen), ev1, Fuel)
                  end
              | Throw x => (s, [], Throw x)
              | UB => (s, [], UB)
              | Fuel => (s, [], Fuel)
              end
          end
      end
  end.

(* TreeView::visitBfs, /repo/src/graph/TreeView.hpp:133-156. *)
Definition view_bfs {C} (ord : order) (z : vfun C) (n : nat) (c : C) (v : vid) : call (gst * list (vid * vid)) unit := bfs_loop ord z n c [v].

(* A signal about an edge of the tree that has [v] at one end, /repo/src/graph/TreeView.hpp:189-201. *)
Definition sig_at (v : vid) (x : vsig) : bool :=
  match x with SigCross _ => false | SigAdded o t | SigRemoved o t => Nat.eqb o v || Nat.eqb t v end.

(* The references visitDfs holds into the relation of [v] (its parent and the set of children it walks over) are still good: the relation was
   neither erased nor was its set of children changed, as told by the signals and the relation itself.  Simplification: any change of a set
   that is walked over counts, also the erasure of an element the loop is not at.  /repo/src/graph/TreeView.hpp:124-127. *)
Definition reference_good (w w1 : tview) (v : vid) : bool :=
  match tv_tree w !! v, tv_tree w1 !! v with
  | Some r, Some r1 => bool_decide (vr_children r1 = vr_children r) && forallb (fun x => negb (sig_at v x)) (drop (length (tv_log w)) (tv_log w1))
  | _, _ => false
  end.

(* The recursion of visitDfs on the view [i]: the vertices still to visit, each with the vertices above it, whose loops go on afterwards, and what the
   function to be copied remembered.
   unordered_map::at throws for a vertex that is not in the tree.  /repo/src/graph/TreeView.hpp:121-131. *)
Fixpoint dfs_loop {C} (ord : order) (z : vfun C) (n : nat) (c : C) (todo : list (vid * (list vid * C))) : call (gst * list (vid * vid)) unit := fun s =>
  match todo with
  | [] => (s, [], Ret tt)
  | (cur, (above, old)) :: rest =>
      match n with
      | O => (s, [], Fuel)
      | S n' =>
          match gs_views (fst s) !! i with
          | None => (s, [], UB)
          | Some w =>
              match tv_tree w !! cur with
              | None => (s, [], Throw XOutOfRange)
              | Some rel =>
                  let p := vr_parent rel in let c1 := vf_copy z old c in
                  let '(s1, ev1, r) := body d0 einv (vf_do z c1 cur p (fst s)) (fst s) in
                  let seen := snd s ++ [(cur, p)] in
                  match r with
                  | Ret _ =>
                      match gs_views s1 !! i with
                      | None => ((s1, seen), ev1, UB)
                      | Some w1 =>
                          if forallb (reference_good w w1) (cur :: above) then
                            let c2 := vf_memory z c1 cur p (fst s) in
                            let '(s3, ev3, r3) := dfs_loop ord z n' c2
                                                    (((fun v => (v, (cur :: above, c2))) <$> ord w1 cur (vr_children (tv_rel (tv_tree w1) cur))) ++ rest)
                                                    (s1, seen) in
                            (s3, ev1 ++ ev3, r3)
                          else ((s1, seen), ev1, UB)
                      end
                  | Throw x => ((s1, seen), ev1, Throw x)
                  | UB => ((s1, seen), ev1, UB)
                  | Fuel => ((s1, seen), ev1, Fuel)
                  end
              end
          end
      end
  end.

(* TreeView::visitDfs, /repo/src/graph/TreeView.hpp:118-131. *)
Definition view_dfs {C} (ord : order) (z : vfun C) (n : nat) (c : C) (v : vid) : call (gst * list (vid * vid)) unit := dfs_loop ord z n c [(v, ([], c))].
End visit.
Global Arguments vfun : clear implicits.
Global Arguments VFun {D E C} _ _ _.
