(** Vocabulary for histories seen by one tree view. *)
From stdpp Require Import prelude strings gmap.
From Verif Require Import Outcome Digraph TreeView GraphModel GraphOps SpecWalk SpecTree.

(** The call does not name the view [i] as the view to rebuild, unsubscribe, destroy or move. *)
Definition op_not {D E} (i : viewid) (op : gop D E) : Prop :=
  match op with
  | OGetTree _ _ j | OGetTreeV _ _ j | OUnsubscribeTreeView j | OViewUnsubscribe j | ODestroyView j => j <> i
  | OMoveView j k => j <> i
  | _ => True
  end.

(** Slots connected to one of the three signals of a view. *)
Definition slots_of (k : vsigkind) (w : tview) : list nat :=
  match k with KCross => tv_slots_cross w | KAdded => tv_slots_added w | KRemoved => tv_slots_removed w end.
Definition same_slots (w w' : tview) : Prop := forall k, slots_of k w' = slots_of k w.
(** The call connects or disconnects nothing at the view [i]. *)
Definition op_no_slot {D E} (i : viewid) (op : gop D E) : Prop :=
  match op with OSlotView j _ _ _ => j <> i | _ => True end.

(** The history of events shows no removed edge, and the frame [rf] was not removed. *)
Definition growing (rf : frameid) (ev : list event) : Prop :=
  EvFrameRemoved rf ∉ ev /\ forall o t, EvEdgeRemoved o t ∉ ev.

(** [l] lists calls f(node, parent): each vertex of the subtree of [n] once, after its parent. *)
Record visits (w : tview) (n : vid) (l : list (vid * vid)) : Prop := {
  vi_once : NoDup (fst <$> l);
  vi_all : forall v p, (v, p) ∈ l <-> linked (child w) n v /\ tv_get_parent w v = Ret p;
  vi_order : forall k v p, l !! k = Some (v, p) -> v <> n ->
               exists k' p', k' < k /\ l !! k' = Some (p, p') }.

(** What a listener of edgeAdded and edgeRemoved knows of the parent-child links after one signal. *)
Definition heard (R : vid -> vid -> Prop) (x : vsig) : vid -> vid -> Prop := fun p c =>
  match x with
  | SigAdded o t => R p c \/ (p = o /\ c = t)
  | SigRemoved o t => R p c /\ ~ (p = o /\ c = t)
  | SigCross _ => R p c
  end.

(** ... and after a list of signals, in the order emitted. *)
Definition heard_all (R : vid -> vid -> Prop) (l : list vsig) : vid -> vid -> Prop := foldl heard R l.

(** The signal an emission belongs to, and the emissions that reach the slot [c] while the connections are those of [w]. *)
Definition kind_of (x : vsig) : vsigkind :=
  match x with SigCross _ => KCross | SigAdded _ _ => KAdded | SigRemoved _ _ => KRemoved end.
Definition told_to (c : nat) (w : tview) (l : list vsig) : list vsig := filter (fun x => c ∈ slots_of (kind_of x) w) l.

(** No cross edge has an end in the part of the tree at and below [c]. *)
Definition no_cross_below (w : tview) (c : vid) : Prop :=
  forall x v, x ∈ tv_cross w -> linked (child w) c v -> ce_origin x <> v /\ ce_target x <> v.

(** No cross edge has both ends at or below [c]. *)
Definition no_cross_inside (w : tview) (c : vid) : Prop :=
  forall x, x ∈ tv_cross w -> ~ (linked (child w) c (ce_origin x) /\ linked (child w) c (ce_target x)).

(** [p] and [c] are the two ends [o] and [t], in one order or the other. *)
Definition same_ends (o t p c : vid) : Prop := (p = o /\ c = t) \/ (p = t /\ c = o).

(** If the edge between [o] and [t] is a tree edge of the view, no cross edge touches the part below it. *)
Definition prunable (w : tview) (o t : vid) : Prop :=
  forall p c, child w p c -> same_ends o t p c -> no_cross_below w c.

(** [w'] is [w] without the part at and below [c]; edgeRemoved was emitted once for every vertex of that part,
    with its parent, children before parents; nothing else was emitted. *)
Record pruned (w : tview) (c : vid) (w' : tview) : Prop := {
  pr_root : tv_root w' = tv_root w;
  pr_pub : tv_pub w' = tv_pub w;
  pr_cross : tv_cross w' = tv_cross w;
  pr_left : forall v, tv_vertex_exists w' v = true <-> tv_vertex_exists w v = true /\ ~ linked (child w) c v;
  pr_child : forall p v, child w' p v <-> child w p v /\ ~ linked (child w) c v;
  pr_log : exists l, tv_log w' = tv_log w ++ ((fun x => SigRemoved (fst x) (snd x)) <$> l) /\
     NoDup l.*2 /\
     (forall p v, (p, v) ∈ l <-> linked (child w) c v /\ tv_get_parent w v = Ret p) /\
     (forall i j p v q, l !! i = Some (p, v) -> l !! j = Some (q, p) -> i < j) }.

(** The tree part of [in_sync]: the view is a spanning tree of the component of its root. *)
Record spanning {D E} (g : digraph D E) (w : tview) : Prop := {
  sp_tree : is_tree w;
  sp_alive : bg_alive g (tv_root w) = true;
  sp_span : forall v, tv_vertex_exists w v = true <-> linked (adjacent g) (tv_root w) v;
  sp_edge : forall p c, child w p c -> adjacent g p c }.
