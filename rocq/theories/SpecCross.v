(** Vocabulary for the removal of a tree edge below which there are cross edges. *)
From stdpp Require Import prelude strings gmap.
From Verif Require Import Outcome Digraph TreeView SpecWalk SpecTree SpecView.

(** Both ends of the cross edge are at or below [c]. *)
Definition inside (w : tview) (c : vid) (x : cross) : Prop :=
  linked (child w) c (ce_origin x) /\ linked (child w) c (ce_target x).

(** Exactly one end of the cross edge is at or below [c]. *)
Definition leaving (w : tview) (c : vid) (x : cross) : Prop :=
  (linked (child w) c (ce_origin x) /\ ~ linked (child w) c (ce_target x)) \/
  (~ linked (child w) c (ce_origin x) /\ linked (child w) c (ce_target x)).

(** [w'] is [w] without the part at and below [c] and without the cross edges inside that part; the other cross edges
    stay listed in their order. *)
Definition trimmed (w : tview) (c : vid) (w' : tview) : Prop :=
  exists kept, pruned (tv_set_cross kept w) c w' /\ kept `sublist_of` tv_cross w /\
    forall x, x ∈ kept <-> x ∈ tv_cross w /\ ~ inside w c x.

(** Going through [vs], both ends of [y] have come up before both ends of [x] have. *)
Definition completes_before (vs : list vid) (y x : cross) : Prop :=
  exists k, (ce_origin y ∈ take k vs /\ ce_target y ∈ take k vs) /\ ~ (ce_origin x ∈ take k vs /\ ce_target x ∈ take k vs).

(** The cross edges with both ends at or below [c] are completed in the opposite order of the one in which the view
    lists them, when the vertices come up in the order [vs]. *)
Definition backwards (w : tview) (c : vid) (vs : list vid) : Prop :=
  forall i j x y, tv_cross w !! i = Some x -> tv_cross w !! j = Some y -> i < j -> inside w c x -> inside w c y ->
    completes_before vs y x.
