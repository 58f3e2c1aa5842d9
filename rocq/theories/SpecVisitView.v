(** Vocabulary for visiting a tree view with functions that use the graph. *)
From stdpp Require Import prelude strings gmap.
From Verif Require Import Outcome Digraph TreeView GraphModel GraphOps SpecObs SpecWalk SpecTree SpecView HandlerModel SpecHandler VisitModel SpecVisit
  VisitViewModel.

(** [l] lists calls f(node, parent) for vertices of the subtree of [n]: each at most once, after its parent. *)
Record begins_visit (w : tview) (n : vid) (l : list (vid * vid)) : Prop := {
  bv_once : NoDup (fst <$> l);
  bv_sound : forall v p, (v, p) ∈ l -> linked (child w) n v /\ tv_get_parent w v = Ret p;
  bv_order : forall k v p, l !! k = Some (v, p) -> v <> n -> exists k' p', k' < k /\ l !! k' = Some (p, p') }.

Section spec.
Context {D E : Type} (d0 : D) (einv : E -> E).

(** The function never connects a frame to itself. *)
Definition noself_fun {C} (z : vfun D E C) : Prop := forall c v p s, script_noself (vf_do z c v p s).
(** It does not rebuild, unsubscribe, destroy or move the view and leaves its slots alone. *)
Definition spares_view (i : viewid) {C} (z : vfun D E C) : Prop := forall c v p s, calls_only (fun op => op_not i op /\ op_no_slot i op) (vf_do z c v p s).
(** What holds of every run of the function in a reachable state. *)
Definition each_vrun {C} (z : vfun D E C) (P : gst D E -> gst D E -> list event -> outcome unit -> Prop) : Prop :=
  forall c v p s s' ev r, reachable d0 einv s -> body d0 einv (vf_do z c v p s) s = (s', ev, r) -> P s s' ev r.
(** The view has the same tree and has emitted no signal. *)
Definition view_still (i : viewid) (s s' : gst D E) (ev : list event) (r : outcome unit) : Prop :=
  forall w, gs_views s !! i = Some w -> exists w', gs_views s' !! i = Some w' /\ tv_tree w' = tv_tree w /\ tv_log w' = tv_log w.
(** A run of the function ended in [r], neither returning nor throwing: what it did itself is undefined. *)
Definition run_fails {C} (z : vfun D E C) (r : outcome unit) : Prop :=
  ~ ended r /\ exists c v p s s' ev, reachable d0 einv s /\ body d0 einv (vf_do z c v p s) s = (s', ev, r).
(** How the visit of the subtree of [n] ended: every vertex of the subtree of [n] was visited once, parents first, or a run of the function
    ended with an exception, which is passed on. *)
Definition whole_visit {C} (z : vfun D E C) (w : tview) (n : vid) (seen : list (vid * vid)) (r : outcome unit) : Prop :=
  (r = Ret tt /\ visits w n seen) \/ (exists x, r = Throw x /\ seen <> [] /\ begins_visit w n seen /\
    exists c v p s s' ev, reachable d0 einv s /\ last seen = Some (v, p) /\ body d0 einv (vf_do z c v p s) s = (s', ev, Throw x)).
End spec.
