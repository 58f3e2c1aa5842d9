(** Vocabulary for the life of view objects. *)
From stdpp Require Import prelude strings gmap.
From Verif Require Import Outcome Digraph TreeView GraphModel GraphOps.

(** Every view the graph would update exists. *)
Definition no_dangling {D E} (s : gst D E) : Prop := forall k, k ∈ gs_subs s -> is_Some (gs_views s !! k).

(** ... and so after any calls made from here. *)
Definition stays_valid {D E} (d0 : D) (einv : E -> E) (s : gst D E) : Prop :=
  forall h s' ev r, run d0 einv h s = (s', ev, r) -> r <> UB -> r <> Fuel -> no_dangling s'.

(** [w'] shows the same tree as [w]. *)
Definition same_view (w w' : tview) : Prop :=
  tv_root w' = tv_root w /\ tv_tree w' = tv_tree w /\ tv_cross w' = tv_cross w.
