(** C98: ending and resuming the subscription of a view. *)
From stdpp Require Import prelude strings gmap.
From Verif Require Import Outcome Digraph TreeView GraphModel GraphOps SpecStore SpecObs SpecWalk SpecTree SpecView
  ViewObjModel SpecViewObj ViewLifeThms ExGraph ExView.

(** view.unsubscribe(): the graph forgets the view and nothing else, the view forgets the graph and nothing else. *)
Theorem C98_unsubscribe {D E : Type} (d0 : D) (einv : E -> E) (i : viewid) (s : gst D E) w :
  reachable d0 einv s -> gs_views s !! i = Some w ->
  exists s' w', view_unsubscribe i s = (s', [], Ret tt) /\ gs_dg s' = gs_dg s /\
    gs_subs s' = filter (fun k => k <> i) (gs_subs s) /\ gs_views s' !! i = Some w' /\
    same_view w w' /\ same_slots w w' /\ tv_log w' = tv_log w /\ tv_pub w' = false /\
    forall k, k <> i -> gs_views s' !! k = gs_views s !! k.
Proof. exact (unsubscribe_effect d0 einv i s w). Qed.
Print Assumptions C98_unsubscribe.

(** ~TreeView: the same for the graph, and the view is gone. *)
Theorem C98_destroy {D E : Type} (d0 : D) (einv : E -> E) (i : viewid) (s : gst D E) w :
  reachable d0 einv s -> gs_views s !! i = Some w ->
  exists s', destroy_view i s = (s', [], Ret tt) /\ gs_dg s' = gs_dg s /\
    gs_subs s' = filter (fun k => k <> i) (gs_subs s) /\ gs_views s' !! i = None /\
    forall k, k <> i -> gs_views s' !! k = gs_views s !! k.
Proof. exact (destroy_effect d0 einv i s w). Qed.
Print Assumptions C98_destroy.

(** A view that is not subscribed stays as it is, emissions included, whatever is called on the graph and on other
    views, and however those calls end. *)
Theorem C98_unsubscribed_view_frozen {D E : Type} (d0 : D) (einv : E -> E) (i : viewid) h (s s' : gst D E) ev r w :
  gs_views s !! i = Some w -> i ∉ gs_subs s ->
  Forall (fun x => op_not i (snd x)) h -> Forall (fun x => op_no_slot i (snd x)) h ->
  run d0 einv h s = (s', ev, r) -> gs_views s' !! i = Some w /\ i ∉ gs_subs s'.
Proof. exact (run_frozen d0 einv i h s s' ev r w). Qed.
Print Assumptions C98_unsubscribed_view_frozen.

(** unsubscribe(), clear() and getTree(root, true, &view): the view follows the graph again. *)
Theorem C98_resume {D E : Type} (d0 : D) (einv : E -> E) (i : viewid) (s : gst D E) w rf root :
  reachable d0 einv s -> gs_views s !! i = Some w -> get_vertex s rf = Ret root ->
  exists s1 w1, (view_unsubscribe i ;;; clear_view i ;;; get_tree rf true i) s = (s1, [], Ret tt) /\
    gs_dg s1 = gs_dg s /\ gs_subs s1 = filter (fun k => k <> i) (gs_subs s) ++ [i] /\
    gs_views s1 !! i = Some w1 /\ in_sync (gs_dg s1) w1 /\ tv_root w1 = root /\
    (forall k, k <> i -> gs_views s1 !! k = gs_views s !! k) /\
    forall h s2 ev r, hist_noself h -> Forall (fun x => op_not i (snd x)) h ->
      run d0 einv h s1 = (s2, ev, r) -> r <> UB -> r <> Fuel -> growing rf ev ->
      exists w', gs_views s2 !! i = Some w' /\ in_sync (gs_dg s2) w' /\ get_vertex s2 rf = Ret (tv_root w').
Proof. exact (resume d0 einv i s w rf root). Qed.
Print Assumptions C98_resume.

(** graph.unsubscribeTreeView(&view), the other documented way, leaves the publisher in the view: the next
    getTree(root, true, &view) fails an assertion. *)
Theorem C98_resume_after_unsubscribeTreeView_refuted {D E : Type} (d0 : D) (einv : E -> E) (i : viewid) (s : gst D E) w rf root :
  reachable d0 einv s -> gs_views s !! i = Some w -> i ∈ gs_subs s -> get_vertex s rf = Ret root ->
  exists s', (unsubscribe_tree_view i ;;; clear_view i ;;; get_tree rf true i) s = (s', [], UB).
Proof. exact (resume_after_graph_call d0 einv i s w rf root). Qed.
Print Assumptions C98_resume_after_unsubscribeTreeView_refuted.

(** Connecting or disconnecting a slot changes the connections of that signal and nothing else. *)
Theorem C98_slots {D E : Type} (i : viewid) (s : gst D E) w k (on : bool) c :
  gs_views s !! i = Some w ->
  exists s' w', slot_view i k on c s = (s', [], Ret tt) /\ gs_dg s' = gs_dg s /\ gs_subs s' = gs_subs s /\
    gs_views s' !! i = Some w' /\ same_view w w' /\ tv_pub w' = tv_pub w /\ tv_log w' = tv_log w /\
    slots_of k w' = (if on then slots_of k w ++ [c] else filter (fun x => x <> c) (slots_of k w)) /\
    (forall k', k' <> k -> slots_of k' w' = slots_of k' w) /\
    forall j, j <> i -> gs_views s' !! j = gs_views s !! j.
Proof. exact (slot_effect i s w k on c). Qed.
Print Assumptions C98_slots.

(** View 1 is unsubscribed, edges are added and removed, view 2 goes on; then view 1 is subscribed again. *)
Example C98_case : let s := xstate (ops5 ++ [ONewView 2; OGetTree "e" true 2; OViewUnsubscribe 1]) in
  let h := xhist [OAddEdge fd "f" 3%Z; ORemoveEdge fd "f"; ODestroyView 2] in
  reachable 0 Z.opp s /\ gs_views s !! 1 = Some (xview 1 s) /\ 1 ∉ gs_subs s /\ gs_subs s = [2] /\
  Forall (fun x => op_not 1 (snd x)) h /\ Forall (fun x => op_no_slot 1 (snd x)) h /\
  snd (run 0 Z.opp h s) = Ret tt /\ get_vertex s fa = Ret 1 /\ size (tv_tree (xview 1 s)) = 4 /\
  snd ((view_unsubscribe 1 ;;; clear_view 1 ;;; get_tree fa true 1) s) = Ret tt.
Proof.
  cbv zeta. split; [apply xstate_reachable; [by repeat constructor|by vm_compute]|].
  split; [by vm_compute|]. split; [apply (bool_decide_unpack _); by vm_compute|]. split; [by vm_compute|].
  split; [repeat constructor; done|]. split; [repeat constructor; done|]. by vm_compute.
Qed.

Example C98_resume_case : let s := xstate ops5 in
  reachable 0 Z.opp s /\ gs_views s !! 1 = Some (xview 1 s) /\ 1 ∈ gs_subs s /\ get_vertex s fa = Ret 1 /\
  let h := xhist ops4 in let q := run 0 Z.opp h (fst (fst ((view_unsubscribe 1 ;;; clear_view 1 ;;; get_tree fa true 1) s))) in
  hist_noself h /\ Forall (fun x => op_not 1 (snd x)) h /\ snd q = Ret tt /\ growing fa (snd (fst q)).
Proof.
  cbv zeta. split; [exact ops5_reachable|]. split; [by vm_compute|]. split; [apply (bool_decide_unpack _); by vm_compute|].
  split; [by vm_compute|]. split; [repeat constructor; done|]. split; [repeat constructor; done|]. split; [by vm_compute|].
  match goal with |- growing _ ?x => let v := eval vm_compute in x in
    assert (Hv : x = v) by (vm_compute; reflexivity); rewrite Hv; clear Hv end.
  split; [|intros o t]; apply (bool_decide_unpack _); by vm_compute.
Qed.
