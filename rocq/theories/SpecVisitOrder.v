(** Vocabulary for the order in which the visitors of a tree view go. *)
From stdpp Require Import prelude.
From Verif Require Import Outcome TreeView SpecWalk SpecTree.

(** Nobody comes before a vertex that is closer to the start [n]. *)
Definition level_order (w : tview) (n : vid) (l : list vid) : Prop :=
  forall i j u v lu lv, i <= j -> l !! i = Some u -> l !! j = Some v -> route (child w) n u lu -> route (child w) n v lv -> length lu <= length lv.

(** Between a vertex and one of its descendants come descendants of it only. *)
Definition subtree_order (w : tview) (l : list vid) : Prop :=
  forall i j k u v x, i <= j <= k -> l !! i = Some u -> l !! j = Some v -> l !! k = Some x -> linked (child w) u x -> linked (child w) u v.
