(** Specification of tree views: what it means for a view to be a tree, and to be in step with a graph. *)
From stdpp Require Import prelude strings gmap.
From Verif Require Import Outcome Digraph TreeView SpecWalk.

Section tree.
Context {D E : Type}.

(** Two vertices joined by an edge of the graph. *)
Definition adjacent (g : digraph D E) (u v : vid) : Prop :=
  exists e, e ∈ dg_edges g /\ e_src e = u /\ e_tgt e = v.

(** [c] is in the set of children the view keeps for [p]. *)
Definition child (w : tview) (p c : vid) : Prop :=
  exists r, tv_tree w !! p = Some r /\ c ∈ vr_children r.

(** The cross edge entry joins [u] and [v], in one direction or the other. *)
Definition between (u v : vid) (c : cross) : Prop :=
  (ce_origin c = u /\ ce_target c = v) \/ (ce_origin c = v /\ ce_target c = u).
Global Instance between_dec u v c : Decision (between u v c).
Proof. unfold between. apply _. Defined.

(** The view is a tree: one parent for each vertex but the root, parents and children agree,
    every vertex hangs below the root. *)
Record is_tree (w : tview) : Prop := {
  it_null : tv_vertex_exists w null_vertex = false;
  it_rootin : tv_vertex_exists w (tv_root w) = true;
  it_root : tv_get_parent w (tv_root w) = Ret null_vertex;
  it_parent : forall v, tv_vertex_exists w v = true -> v <> tv_root w ->
                exists p, tv_get_parent w v = Ret p /\ child w p v;
  it_child : forall p c, child w p c -> c <> tv_root w /\ tv_get_parent w c = Ret p;
  it_nodup : forall p r, tv_tree w !! p = Some r -> NoDup (vr_children r);
  it_below : forall v, tv_vertex_exists w v = true -> linked (child w) (tv_root w) v }.

(** The view is a spanning tree of the component of its root, and every pair of adjacent vertices
    of the component is in it exactly once: as parent and child or as one cross edge. *)
Record in_sync (g : digraph D E) (w : tview) : Prop := {
  sy_tree : is_tree w;
  sy_alive : bg_alive g (tv_root w) = true;
  sy_span : forall v, tv_vertex_exists w v = true <-> linked (adjacent g) (tv_root w) v;
  sy_edge : forall p c, child w p c -> adjacent g p c;
  sy_real : forall c, c ∈ tv_cross w -> tv_vertex_exists w (ce_origin c) = true /\
              exists e, e ∈ dg_edges g /\ e_src e = ce_origin c /\ e_tgt e = ce_target c /\ e_id e = ce_edge c;
  sy_once : forall u v, adjacent g u v -> tv_vertex_exists w u = true ->
      ((child w u v \/ child w v u) /\ filter (between u v) (tv_cross w) = []) \/
      (~ (child w u v \/ child w v u) /\ length (filter (between u v) (tv_cross w)) = 1) }.

End tree.
