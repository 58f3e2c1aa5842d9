(** Properties of path search and of tree views under additions: C09, C10, C16-C18. *)
From stdpp Require Import prelude strings gmap.
From Verif Require Import Outcome Digraph TreeView GraphModel GraphOps SpecStore SpecObs SpecWalk SpecSearch
  SpecTree SpecView GraphStep GraphThms GraphSearch ViewFollow ExGraph ExView.

(** ** C09: getFrames returns a shortest path *)
Theorem C09_getFrames_shortest {D E : Type} (d0 : D) (einv : E -> E) (s : gst D E) a b l :
  reachable d0 einv s -> get_frames s a b = Ret l -> l <> [] ->
  route (joined s) a b l /\ (forall l', route (joined s) a b l' -> length l <= length l') /\ NoDup l.
Proof. exact (getFrames_shortest d0 einv s a b l). Qed.
Print Assumptions C09_getFrames_shortest.

Example C09_case : reachable 0 Z.opp (xstate ops1) /\
  get_frames (xstate ops1) fa fd = Ret [fa; fc; fd] /\
  route (joined (xstate ops1)) fa fd [fa; fb; fc; fd].
Proof.
  split; [exact ops1_reachable|]. split; [by vm_compute|]. split; [done|]. split; [done|].
  repeat constructor; by vm_compute.
Qed.

(** ** C10: getFrames is empty exactly when there is no route to another frame *)
Theorem C10_getFrames_empty {D E : Type} (d0 : D) (einv : E -> E) (s : gst D E) a b :
  reachable d0 einv s ->
  (contains_frame s a = true -> contains_frame s b = true ->
     exists l, get_frames s a b = Ret l /\ (l = [] <-> a = b \/ ~ linked (joined s) a b)) /\
  (contains_frame s a = false -> get_frames s a b = Throw (XUnknownFrame a)) /\
  (contains_frame s a = true -> contains_frame s b = false -> get_frames s a b = Throw (XUnknownFrame b)).
Proof. exact (getFrames_empty d0 einv s a b). Qed.
Print Assumptions C10_getFrames_empty.

Example C10_case : reachable 0 Z.opp (xstate ops2) /\
  get_frames (xstate ops2) fa fd = Ret [fa; fc; fd] /\ get_frames (xstate ops2) fa "e" = Ret [] /\
  get_frames (xstate ops2) fa fa = Ret [] /\ get_frames (xstate ops2) fa "x" = Throw (XUnknownFrame "x").
Proof. split; [exact ops2_reachable|]. by vm_compute. Qed.

(** ** C16: getTree spans exactly the root's component *)
Theorem C16_getTree_spans_component {D E : Type} (d0 : D) (einv : E -> E) (s : gst D E) rf root keep i w :
  reachable d0 einv s -> get_vertex s rf = Ret root ->
  gs_views s !! i = Some w -> tv_tree w = ∅ -> tv_cross w = [] -> (keep = true -> tv_pub w = false) ->
  exists s' w', get_tree rf keep i s = (s', [], Ret tt) /\ gs_views s' !! i = Some w' /\ tv_root w' = root /\
    gs_dg s' = gs_dg s /\ gs_subs s' = gs_subs s ++ (if keep then [i] else []) /\
    (forall v, tv_vertex_exists w' v = true <-> linked (adjacent (gs_dg s)) root v) /\
    tv_get_parent w' root = Ret null_vertex /\
    (forall v, tv_vertex_exists w' v = true -> v <> root ->
       exists p, tv_get_parent w' v = Ret p /\ child w' p v /\ adjacent (gs_dg s) p v /\
                 forall q, child w' q v -> q = p) /\
    (forall v, tv_vertex_exists w' v = true ->
       exists l, route (child w') root v l /\ shortest (adjacent (gs_dg s)) root v l).
Proof. exact (get_tree_prop d0 einv s rf root keep i w). Qed.
Print Assumptions C16_getTree_spans_component.

Theorem C16_getTree_unknown_root {D E : Type} (d0 : D) (einv : E -> E) (s : gst D E) rf keep i :
  reachable d0 einv s -> contains_frame s rf = false ->
  get_tree rf keep i s = (s, [], Throw (XUnknownFrame rf)).
Proof. exact (get_tree_unknown d0 einv s rf keep i). Qed.
Print Assumptions C16_getTree_unknown_root.

Example C16_case : reachable 0 Z.opp (xstate ops3) /\ get_vertex (xstate ops3) fa = Ret 1 /\
  gs_views (xstate ops3) !! 1 = Some tv_new /\ contains_frame (xstate ops3) "x" = false /\
  map_to_list (vr_children <$> tv_tree (xview 1 (xstate (ops3 ++ [OGetTree fa true 1])))) =
  [(1, [2; 3]); (3, [4]); (2, []); (4, [])].
Proof. split; [exact ops3_reachable|]. by vm_compute. Qed.

(** ** C17: every edge of the component is a tree edge or a cross edge, once *)
Theorem C17_tree_or_cross_once {D E : Type} (d0 : D) (einv : E -> E) (s : gst D E) rf root keep i w :
  reachable d0 einv s -> get_vertex s rf = Ret root ->
  gs_views s !! i = Some w -> tv_tree w = ∅ -> tv_cross w = [] -> (keep = true -> tv_pub w = false) ->
  exists s' w', get_tree rf keep i s = (s', [], Ret tt) /\ gs_views s' !! i = Some w' /\
    (forall u v, adjacent (gs_dg s) u v -> linked (adjacent (gs_dg s)) root u ->
      ((child w' u v \/ child w' v u) /\ filter (between u v) (tv_cross w') = []) \/
      (~ (child w' u v \/ child w' v u) /\ length (filter (between u v) (tv_cross w')) = 1)) /\
    (forall c, c ∈ tv_cross w' -> exists e, e ∈ dg_edges (gs_dg s) /\
       e_src e = ce_origin c /\ e_tgt e = ce_target c /\ e_id e = ce_edge c).
Proof. exact (get_tree_once d0 einv s rf root keep i w). Qed.
Print Assumptions C17_tree_or_cross_once.

Example C17_case : reachable 0 Z.opp (xstate ops3) /\ get_vertex (xstate ops3) fa = Ret 1 /\
  gs_views (xstate ops3) !! 1 = Some tv_new /\
  tv_cross (xview 1 (xstate (ops3 ++ [OGetTree fa true 1]))) = [Cross 2 3 3].
Proof. split; [exact ops3_reachable|]. by vm_compute. Qed.

(** ** C18: a subscribed view follows additions *)
Theorem C18_view_follows_additions {D E : Type} (d0 : D) (einv : E -> E) (s : gst D E) rf i w h s1 s2 ev r :
  reachable d0 einv s -> contains_frame s rf = true ->
  gs_views s !! i = Some w -> tv_tree w = ∅ -> tv_cross w = [] -> tv_pub w = false ->
  get_tree rf true i s = (s1, [], Ret tt) ->
  hist_noself h -> Forall (fun x => op_not i (snd x)) h ->
  run d0 einv h s1 = (s2, ev, r) -> ok r -> growing rf ev ->
  exists w', gs_views s2 !! i = Some w' /\ in_sync (gs_dg s2) w' /\ get_vertex s2 rf = Ret (tv_root w').
Proof. exact (view_follows d0 einv s rf i w h s1 s2 ev r). Qed.
Print Assumptions C18_view_follows_additions.

(** Two components are joined, a cross edge is added, a transform is updated, an isolated frame removed. *)
Example C18_case :
  reachable 0 Z.opp (xstate ops3) /\ contains_frame (xstate ops3) fa = true /\
  gs_views (xstate ops3) !! 1 = Some tv_new /\
  exists s1 s2 ev, get_tree fa true 1 (xstate ops3) = (s1, [], Ret tt) /\
    run 0 Z.opp (xhist ops4) s1 = (s2, ev, Ret tt) /\
    hist_noself (xhist ops4) /\ Forall (fun x => op_not 1 (snd x)) (xhist ops4) /\ growing fa ev /\
    map_to_list (vr_children <$> tv_tree (xview 1 s2)) =
      [(1, [2; 3]); (3, [4]); (7, []); (5, []); (2, []); (4, [6]); (6, [5; 7])] /\
    tv_cross (xview 1 s2) = [Cross 2 3 3; Cross 5 7 13; Cross 7 1 17].
Proof.
  split; [exact ops3_reachable|]. split; [by vm_compute|]. split; [by vm_compute|].
  eexists _, _, _. split; [by vm_compute|]. split; [by vm_compute|].
  split; [repeat constructor; done|]. split; [repeat constructor; done|].
  split; [|by vm_compute].
  split; [|intros o t]; apply (bool_decide_unpack _); by vm_compute.
Qed.
