(** Property C106: visiting a view with functions that use the graph. *)
From stdpp Require Import prelude strings gmap.
From Coq Require Import ZArith.
From Verif Require Import Outcome Digraph Bfs TreeView GraphModel GraphOps GraphWf GraphStep SpecObs SpecWalk SpecTree SpecView SpecCross GraphThms ViewFollow
  ViewRemove ViewCross HandlerModel SpecHandler VisitModel SpecVisit VisitViewModel SpecVisitView VisitViewThms ExGraph ExView.

(* A view that is not subscribed: whatever the function does to the graph and to other views, visitBfs calls it once for each vertex of the
   subtree, parents first, or ends with its exception; the view stays as it is. *)
Theorem C106_bfs_detached {D E C : Type} (d0 : D) (einv : E -> E) (i : viewid) (z : vfun D E C) (w : tview) n ord m c (s s' : gst D E) seen ev r :
  noself_fun z -> spares_view i z -> is_tree w -> tv_vertex_exists w n = true -> ord_ok ord -> size (tv_tree w) <= m ->
  reachable d0 einv s -> gs_views s !! i = Some w -> i ∉ gs_subs s ->
  view_bfs d0 einv i ord z m c n (s, []) = ((s', seen), ev, r) ->
  (gs_views s' !! i = Some w /\ whole_visit d0 einv z w n seen r) \/ run_fails d0 einv z r.
Proof. exact (fun Hz Hsp Ht Hn Ho Hm => frozen_bfs d0 einv i z Hz w n ord m c s s' seen ev r Ht Hn Ho Hm Hsp). Qed.
Print Assumptions C106_bfs_detached.

(* visitDfs likewise. *)
Theorem C106_dfs_detached {D E C : Type} (d0 : D) (einv : E -> E) (i : viewid) (z : vfun D E C) (w : tview) n ord m c (s s' : gst D E) seen ev r :
  noself_fun z -> spares_view i z -> is_tree w -> tv_vertex_exists w n = true -> ord_ok ord -> size (tv_tree w) <= m ->
  reachable d0 einv s -> gs_views s !! i = Some w -> i ∉ gs_subs s ->
  view_dfs d0 einv i ord z m c n (s, []) = ((s', seen), ev, r) ->
  (gs_views s' !! i = Some w /\ whole_visit d0 einv z w n seen r) \/ run_fails d0 einv z r.
Proof. exact (fun Hz Hsp Ht Hn Ho Hm => frozen_dfs d0 einv i z Hz w n ord m c s s' seen ev r Ht Hn Ho Hm Hsp). Qed.
Print Assumptions C106_dfs_detached.

(** A function that removes an edge of the view's tree at the first vertex. *)
Example C106_case_detached :
  let s := xstate (ops3 ++ [OGetTree fa false 1]) in let w := xview 1 s in
  let z := VFun (fun c _ _ _ => if Nat.eqb c 0 then SCall xord (ORemoveEdge fa fb) (fun _ _ => SEnd) else SEnd) (fun (c : nat) _ _ _ => S c) (fun _ c => c) : vfun nat Z nat in
  let q := view_bfs 0 Z.opp 1 (xord 0) z 4 0 1 (s, []) in let q' := view_dfs 0 Z.opp 1 (xord 0) z 4 0 1 (s, []) in
  noself_fun z /\ spares_view 1 z /\ is_tree w /\ tv_vertex_exists w 1 = true /\ ord_ok (xord 0) /\ size (tv_tree w) <= 4 /\ reachable 0 Z.opp s /\
  gs_views s !! 1 = Some w /\ 1 ∉ gs_subs s /\
  snd (fst (fst q)) = [(1, 0); (2, 1); (3, 1); (4, 3)] /\ snd (fst q) = [EvEdgeRemoved fa fb] /\ snd q = Ret tt /\
  snd (fst (fst q')) = [(1, 0); (2, 1); (3, 1); (4, 3)] /\ snd q' = Ret tt.
Proof.
  intros s w z q q'. split. { intros c v p t. unfold z. cbn [vf_do]. case_match; repeat constructor. }
  split. { intros c v p t. unfold z. cbn [vf_do]. case_match; [|constructor]. constructor; [done|]. constructor. }
  split.
  { destruct (get_tree_ok Z.opp (xstate ops3) fa 1 false 1 tv_new) as (s' & w' & Hg & Hdg & _ & Hw & _ & Hs & _).
    { apply (reachable_wf 0). apply ops3_reachable. }
    { by vm_compute. } { by vm_compute. } { done. } { done. } { done. }
    assert (Hx : s = s'). { transitivity (fst (fst (get_tree fa false 1 (xstate ops3)))); [by vm_compute|by rewrite Hg]. }
    unfold w. rewrite Hx. unfold xview. rewrite Hw. apply (sy_tree _ _ Hs). }
  split; [by vm_compute|]. split; [by intros v x l|]. split; [vm_compute; lia|]. split; [apply xstate_reachable; [by repeat constructor|by vm_compute]|].
  split; [by vm_compute|]. split; [apply (bool_decide_unpack _); by vm_compute|]. split_and!; by vm_compute.
Qed.

(* A vertex that is not in the view: an exception, the function is not called. *)
Theorem C106_unknown {D E C : Type} (d0 : D) (einv : E -> E) (i : viewid) (z : vfun D E C) ord m c n (s : gst D E) w :
  gs_views s !! i = Some w -> tv_vertex_exists w n = false ->
  view_bfs d0 einv i ord z (S m) c n (s, []) = ((s, []), [], Throw XRuntime) /\ view_dfs d0 einv i ord z (S m) c n (s, []) = ((s, []), [], Throw XOutOfRange).
Proof. exact (visit_unknown d0 einv i z ord m c n s w). Qed.
Print Assumptions C106_unknown.
Example C106_case_unknown : let s := xstate ops5 in gs_views s !! 1 = Some (xview 1 s) /\ tv_vertex_exists (xview 1 s) 6 = false.
Proof. split; by vm_compute. Qed.

(* A subscribed view and a function after whose runs the view has the same tree and has emitted nothing: the same. *)
Theorem C106_bfs_still {D E C : Type} (d0 : D) (einv : E -> E) (i : viewid) (z : vfun D E C) (w : tview) n ord m c (s s' : gst D E) seen ev r :
  noself_fun z -> each_vrun d0 einv z (view_still i) -> is_tree w -> tv_vertex_exists w n = true -> ord_ok ord -> size (tv_tree w) <= m ->
  reachable d0 einv s -> gs_views s !! i = Some w -> view_bfs d0 einv i ord z m c n (s, []) = ((s', seen), ev, r) ->
  (view_still i s s' ev r /\ whole_visit d0 einv z w n seen r) \/ run_fails d0 einv z r.
Proof. exact (fun Hz Hsp Ht Hn Ho Hm => still_bfs d0 einv i z Hz w n ord m c s s' seen ev r Ht Hn Ho Hm Hsp). Qed.
Print Assumptions C106_bfs_still.
Theorem C106_dfs_still {D E C : Type} (d0 : D) (einv : E -> E) (i : viewid) (z : vfun D E C) (w : tview) n ord m c (s s' : gst D E) seen ev r :
  noself_fun z -> each_vrun d0 einv z (view_still i) -> is_tree w -> tv_vertex_exists w n = true -> ord_ok ord -> size (tv_tree w) <= m ->
  reachable d0 einv s -> gs_views s !! i = Some w -> view_dfs d0 einv i ord z m c n (s, []) = ((s', seen), ev, r) ->
  (view_still i s s' ev r /\ whole_visit d0 einv z w n seen r) \/ run_fails d0 einv z r.
Proof. exact (fun Hz Hsp Ht Hn Ho Hm => still_dfs d0 einv i z Hz w n ord m c s s' seen ev r Ht Hn Ho Hm Hsp). Qed.
Print Assumptions C106_dfs_still.

(** A function that writes the data of the frame and throws at the third. *)
Example C106_case_still :
  let s := xstate ops5 in let w := xview 1 s in
  let z := VFun (fun c v _ _ => SCall xord (OSetFrameData v c) (fun _ _ => if Nat.eqb c 2 then SThrow XNullVertex else SEnd)) (fun (c : nat) _ _ _ => S c) (fun _ c => c)
    : vfun nat Z nat in
  let q := view_bfs 0 Z.opp 1 (xord 0) z 4 0 1 (s, []) in let q' := view_dfs 0 Z.opp 1 (xord 0) z 4 0 1 (s, []) in
  noself_fun z /\ each_vrun 0 Z.opp z (view_still 1) /\ is_tree w /\ tv_vertex_exists w 1 = true /\ ord_ok (xord 0) /\ size (tv_tree w) <= 4 /\
  reachable 0 Z.opp s /\ gs_views s !! 1 = Some w /\
  snd (fst (fst q)) = [(1, 0); (2, 1); (3, 1)] /\ snd q = Throw XNullVertex /\ snd (fst (fst q')) = [(1, 0); (2, 1); (3, 1)] /\ snd q' = Throw XNullVertex.
Proof.
  intros s w z q q'. split. { intros c v p t. unfold z. cbn. constructor; [done|]. intros _ _. case_match; constructor. }
  split.
  { intros c v p t t' ev r _. unfold z. cbn [vf_do body gstep]. unfold set_frame_data. intros Hb x Hx. exists x. split; [|done].
    destruct (bg_alive _ _); [|by injection Hb as <- _ _]. destruct (Nat.eqb c 2); cbn in Hb; by injection Hb as <- _ _. }
  split; [apply ops5_sync|]. split; [by vm_compute|]. split; [by intros x y l|]. split; [vm_compute; lia|]. split; [apply ops5_reachable|].
  split_and!; by vm_compute.
Qed.

(* A subscribed view that is in step with the graph and a function that may add frames and edges but removes neither edges nor the root's
   frame: if visitBfs returns, the view is in step again, it called the function at most once for each vertex, parents first, with the parent
   the vertex has in the end, and for every vertex that was in the subtree in the beginning.  (It need not return: the function can go on
   adding frames.) *)
Theorem C106_bfs_growing {D E C : Type} (d0 : D) (einv : E -> E) (i : viewid) (z : vfun D E C) (w : tview) n ord rf m c (s s' : gst D E) seen ev root :
  noself_fun z -> spares_view i z -> ord_ok ord -> reachable d0 einv s -> i ∈ gs_subs s -> gs_views s !! i = Some w -> in_sync (gs_dg s) w ->
  get_vertex s rf = Ret root -> root = tv_root w -> tv_vertex_exists w n = true ->
  view_bfs d0 einv i ord z m c n (s, []) = ((s', seen), ev, Ret tt) -> growing rf ev ->
  exists w', gs_views s' !! i = Some w' /\ in_sync (gs_dg s') w' /\ begins_visit w' n seen /\ forall v, linked (child w) n v -> v ∈ fst <$> seen.
Proof. exact (fun Hz Hsp Ho => growing_bfs d0 einv i z w n ord rf Hz Hsp Ho m c s s' seen ev root). Qed.
Print Assumptions C106_bfs_growing.

(** A function that, called for frame b, joins the two components at d and adds the frame x below a: the vertices that come below d are visited
    as well, x (vertex 8) is not, as a had its turn. *)
Example C106_case_growing :
  let s := xstate ops5 in let w := xview 1 s in
  let z := VFun (fun c v _ _ => if Nat.eqb v 2 then SCall xord (OAddEdge fd "f" 3%Z) (fun _ _ => SCall xord (OAddEdge fa "x" 1%Z) (fun _ _ => SEnd)) else SEnd)
    (fun (c : nat) _ _ _ => S c) (fun _ c => c) : vfun nat Z nat in
  let q := view_bfs 0 Z.opp 1 (xord 0) z 20 0 1 (s, []) in
  noself_fun z /\ spares_view 1 z /\ ord_ok (xord 0) /\ reachable 0 Z.opp s /\ 1 ∈ gs_subs s /\ gs_views s !! 1 = Some w /\ in_sync (gs_dg s) w /\
  get_vertex s fa = Ret 1 /\ 1 = tv_root w /\ tv_vertex_exists w 1 = true /\
  snd (fst (fst q)) = [(1, 0); (2, 1); (3, 1); (4, 3); (6, 4); (5, 6); (7, 6)] /\ snd q = Ret tt /\ growing fa (snd (fst q)) /\
  tv_vertex_exists (xview 1 (fst (fst (fst q)))) 8 = true.
Proof.
  intros s w z q. split. { intros c v p t. unfold z. cbn [vf_do]. case_match; [|constructor]. constructor; [done|]. intros _ _. constructor; [done|]. intros _ _. constructor. }
  split. { intros c v p t. unfold z. cbn [vf_do]. case_match; [|constructor]. constructor; [done|]. intros _ _. constructor; [done|]. intros _ _. constructor. }
  split; [by intros x y l|]. split; [apply ops5_reachable|]. split; [apply (bool_decide_unpack _); by vm_compute|]. split; [by vm_compute|].
  split; [apply ops5_sync|]. split; [by vm_compute|]. split; [by vm_compute|]. split; [by vm_compute|]. split; [by vm_compute|]. split; [by vm_compute|].
  split; [|by vm_compute].
  assert (Hev : exists k1 k2, snd (fst q) = [EvEdgeAdded fd "f" k1; EvFrameAdded "x"; EvEdgeAdded fa "x" k2]) by (eexists _, _; by vm_compute).
  destruct Hev as (k1 & k2 & ->). split; [|intros o t]; repeat (apply not_elem_of_cons; split; [done|]); apply not_elem_of_nil.
Qed.

(* The full claim is false.  If the function removes the vertex it is called for from the view, as the removal of a bridge does, visitBfs puts
   it back: the view holds a vertex without parent. *)
Theorem C106_bfs_removed_refuted {D E C : Type} (d0 : D) (einv : E -> E) (i : viewid) (z : vfun D E C) ord m c n p (s : gst D E) w s1 w1 ev :
  ord_ok ord -> gs_views s !! i = Some w -> tv_get_parent w n = Ret p ->
  body d0 einv (vf_do z c n p s) s = (s1, ev, Ret tt) -> gs_views s1 !! i = Some w1 -> is_tree w1 -> tv_vertex_exists w1 n = false ->
  exists s' w', view_bfs d0 einv i ord z (S m) c n (s, []) = ((s', [(n, p)]), ev, Ret tt) /\ gs_views s' !! i = Some w' /\
    tv_vertex_exists w' n = true /\ ~ is_tree w'.
Proof. exact (bfs_stray d0 einv i z ord m c n p s w s1 w1 ev). Qed.
Print Assumptions C106_bfs_removed_refuted.

(* visitDfs then reads the children of the removed vertex. *)
Theorem C106_dfs_removed_refuted {D E C : Type} (d0 : D) (einv : E -> E) (i : viewid) (z : vfun D E C) ord m c n rel (s : gst D E) w s1 w1 ev :
  gs_views s !! i = Some w -> tv_tree w !! n = Some rel ->
  body d0 einv (vf_do z (vf_copy z c c) n (vr_parent rel) s) s = (s1, ev, Ret tt) -> gs_views s1 !! i = Some w1 -> tv_vertex_exists w1 n = false ->
  view_dfs d0 einv i ord z (S m) c n (s, []) = ((s1, [(n, vr_parent rel)]), ev, UB).
Proof. exact (dfs_dangling d0 einv i z ord m c n rel s w s1 w1 ev). Qed.
Print Assumptions C106_dfs_removed_refuted.

(** In the view of [ops5] the edge c-d (3-4) is a bridge. *)
Example C106_case_removed :
  let s := xstate ops5 in let w := xview 1 s in
  let z := VFun (fun _ v _ _ => if Nat.eqb v 4 then SCall xord (ORemoveEdge fc fd) (fun _ _ => SEnd) else SEnd) (fun (c : nat) _ _ _ => c) (fun _ c => c) : vfun nat Z nat in
  let b := body 0 Z.opp (vf_do z 0 4 3 s) s in let w1 := xview 1 (fst (fst b)) in
  ord_ok (xord 0) /\ gs_views s !! 1 = Some w /\ tv_get_parent w 4 = Ret 3 /\ tv_tree w !! 4 = Some (VRel 3 []) /\ snd b = Ret tt /\
  gs_views (fst (fst b)) !! 1 = Some w1 /\ is_tree w1 /\ tv_vertex_exists w1 4 = false.
Proof.
  intros s w z b w1. split; [by intros x y l|]. split; [by vm_compute|]. split; [by vm_compute|]. split; [by vm_compute|]. split; [by vm_compute|].
  split; [by vm_compute|]. split; [|by vm_compute].
  destruct (remove_bridge 0 Z.opp s fc fd 3 4 xord) as (s' & Hr & Hall).
  { apply ops5_reachable. } { by vm_compute. } { by vm_compute. } { apply adjacent_bool; by vm_compute. } { by intros j x y l. }
  { intros j x Hj Hx. assert (j = 1) as ->. { assert (Hsub : gs_subs s = [1]) by by vm_compute. rewrite Hsub in Hj. by apply elem_of_list_singleton in Hj. }
    assert (x = w) as -> by (unfold w, xview; by rewrite Hx). split; [apply ops5_sync|].
    intros p c Hc%child_bool Hends. assert (c = 4) as ->.
    { destruct Hends as [[-> ->]|[-> ->]]; [done|by vm_compute in Hc]. }
    assert (Hb : forall v, linked (child w) 4 v -> v ∈ [4]).
    { apply below_closed. by vm_compute. }
    intros y v. replace (tv_cross w) with [Cross 2 3 3] by by vm_compute.
    intros ->%elem_of_list_singleton ->%Hb%elem_of_list_singleton. clear. cbn. lia. }
  assert (Hs' : fst (fst b) = s') by (transitivity (fst (fst (remove_edge xord fc fd s))); [by vm_compute|by rewrite Hr]).
  destruct (Hall 1 w 3 4) as (w' & Hw' & Hsy & _).
  { apply (bool_decide_unpack _); by vm_compute. } { by vm_compute. } { apply child_bool; vm_compute; reflexivity. } { left. split; reflexivity. }
  unfold w1, xview. rewrite Hs', Hw'. apply (sy_tree _ _ Hsy).
Qed.

(* If the function removes a vertex whose turn has not come, visitBfs ends with an exception though the function threw none. *)
Theorem C106_bfs_queued_refuted : exists (s : gst nat Z) (w : tview) (z : vfun nat Z nat),
  reachable 0 Z.opp s /\ gs_views s !! 1 = Some w /\ in_sync (gs_dg s) w /\ noself_fun z /\ spares_view 1 z /\
  (forall c v p t t' ev x, body 0 Z.opp (vf_do z c v p t) t <> (t', ev, Throw x)) /\
  snd (view_bfs 0 Z.opp 1 (xord 0) z 9 0 1 (s, [])) = Throw XRuntime.
Proof.
  exists (xstate ops5), (xview 1 (xstate ops5)),
    (VFun (fun _ v _ _ => if Nat.eqb v 2 then SCall xord (ORemoveEdge fa fc) (fun _ _ => SEnd) else SEnd) (fun (c : nat) _ _ _ => c) (fun _ c => c)).
  split; [apply ops5_reachable|]. split; [by vm_compute|]. split; [apply ops5_sync|].
  split. { intros c v p t. cbn [vf_do]. case_match; repeat constructor. }
  split. { intros c v p t. cbn [vf_do]. case_match; [|constructor]. constructor; [done|]. constructor. }
  split; [|by vm_compute]. intros c v p t t' ev x. cbn [vf_do]. case_match; [|done]. cbn [body].
  destruct (gstep 0 Z.opp xord (ORemoveEdge fa fc) t) as [[t1 ev1] r1]. by destruct r1.
Qed.
Print Assumptions C106_bfs_queued_refuted.
