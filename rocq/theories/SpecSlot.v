(** Specification of what slots connected to the signals of tree views find when they are called. *)
From stdpp Require Import prelude strings gmap.
From Verif Require Import Outcome Digraph TreeView GraphModel GraphOps SpecWalk SpecTree SpecView SlotModel.

Section slotspec.
Context {D E : Type}.

(** The published events of a call, and the signals of the view [i], in order. *)
Definition events_in (tr : list (event + seen D E)) : list event :=
  omap (fun m => match m with inl e => Some e | inr _ => None end) tr.
Definition sigs_in (i : viewid) (tr : list (event + seen D E)) : list vsig :=
  omap (fun m => match m with
                 | inr x => if decide (sn_view x = i) then Some (sn_sig x) else None
                 | inl _ => None
                 end) tr.

(** What the comments of TreeView promise about the moment of a signal: an added edge is in the tree and in the graph, and its
    target is a leaf; an added cross edge is the last entry of the list, joins two vertices of the tree that are not parent and
    child, and is an edge of the graph; a removed target is no longer in the tree, the origin still is, and the graph has both. *)
Definition promised (g : digraph D E) (w : tview) (x : vsig) : Prop :=
  match x with
  | SigAdded o t => child w o t /\ tv_get_parent w t = Ret o /\ (forall c, ~ child w t c) /\ adjacent g o t
  | SigCross c => last (tv_cross w) = Some c /\
      tv_vertex_exists w (ce_origin c) = true /\ tv_vertex_exists w (ce_target c) = true /\
      ~ (child w (ce_origin c) (ce_target c) \/ child w (ce_target c) (ce_origin c)) /\
      exists e, e ∈ dg_edges g /\ e_src e = ce_origin c /\ e_tgt e = ce_target c /\ e_id e = ce_edge c
  | SigRemoved o t => tv_vertex_exists w t = false /\ tv_vertex_exists w o = true /\
      bg_alive g o = true /\ bg_alive g t = true
  end.

(** The slot finds a tree and what is promised. *)
Definition seen_ok (x : seen D E) : Prop :=
  exists w, gs_views (sn_state x) !! sn_view x = Some w /\ is_tree w /\ promised (gs_dg (sn_state x)) w (sn_sig x).

(** The call names no view as the one to create, destroy, or move or copy onto. *)
Definition keeps_view (i : viewid) (op : gop D E) : Prop :=
  match op with
  | ONewView j | ODestroyView j => j <> i
  | OMoveView j k => j <> i /\ k <> i
  | OCopyView _ k => k <> i
  | _ => True
  end.

(** The call asks for a tree in the view [i]. *)
Definition asks_tree (i : viewid) (op : gop D E) : Prop :=
  match op with OGetTree _ _ j | OGetTreeV _ _ j => j = i | _ => False end.

(** The call adds or removes one edge. *)
Definition one_edge (op : gop D E) : Prop :=
  match op with OAddEdge _ _ _ | OAddEdgeV _ _ _ | ORemoveEdge _ _ | ORemoveEdgeV _ _ => True | _ => False end.

(** The call removes edges. *)
Definition removes (op : gop D E) : Prop :=
  match op with ORemoveEdge _ _ | ORemoveEdgeV _ _ | ODisconnect _ => True | _ => False end.

(** [j] stands before [i] in the list of subscribed views. *)
Definition earlier (l : list viewid) (j i : viewid) : Prop := exists l1 l2, l = l1 ++ i :: l2 /\ j ∈ l1.

End slotspec.
