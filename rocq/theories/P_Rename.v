(** Property C107: renaming a frame behind the graph's back. *)
From stdpp Require Import prelude strings gmap.
From Coq Require Import ZArith.
From Verif Require Import Outcome Digraph TreeView GraphModel GraphOps GraphWf SpecObs GraphThms RenameModel SpecRename RenameThms ExGraph ExView.

(* The name getFrameId gives changes and nothing else: names lead to the vertices they led to. *)
Theorem C107_names {D E : Type} (d0 : D) (einv : E -> E) (s : gst D E) f v n : reachable d0 einv s -> get_vertex s f = Ret v -> exists s',
  set_frame_id v n s = (s', [], Ret tt) /\ get_frame_id s' v = Ret n /\ (forall u, u <> v -> get_frame_id s' u = get_frame_id s u) /\
  (forall x, get_vertex s' x = get_vertex s x) /\ (forall x, get_frame_property s' x = get_frame_property s x) /\
  dg_edges (gs_dg s') = dg_edges (gs_dg s) /\ gs_views s' = gs_views s /\ gs_subs s' = gs_subs s.
Proof. exact (rename_names d0 einv s f v n). Qed.
Print Assumptions C107_names.

(* Renaming the frame back restores the graph. *)
Theorem C107_back {D E : Type} (d0 : D) (einv : E -> E) (s : gst D E) f v n s' : reachable d0 einv s -> get_vertex s f = Ret v ->
  set_frame_id v n s = (s', [], Ret tt) -> set_frame_id v f s' = (s, [], Ret tt).
Proof. exact (rename_back d0 einv s f v n s'). Qed.
Print Assumptions C107_back.

(* Edges are found by the old names. *)
Theorem C107_edges {D E : Type} (d0 : D) (einv : E -> E) (s : gst D E) f v n s' : reachable d0 einv s -> get_vertex s f = Ret v ->
  set_frame_id v n s = (s', [], Ret tt) ->
  (forall a b, contains_edge s' a b = contains_edge s a b) /\ (forall a b p, get_edge_property s' a b = Ret p <-> get_edge_property s a b = Ret p).
Proof. exact (rename_edges d0 einv s f v n s'). Qed.
Print Assumptions C107_edges.

(* Paths of getFrames name the frame by the new name, except at the end of the path. *)
Theorem C107_paths {D E : Type} (d0 : D) (einv : E -> E) (s : gst D E) f v n s' a b l : reachable d0 einv s -> get_vertex s f = Ret v ->
  set_frame_id v n s = (s', [], Ret tt) -> get_frames s a b = Ret (l ++ [b]) -> get_frames s' a b = Ret ((renamed f n <$> l) ++ [b]).
Proof. exact (rename_frames d0 einv s f v n s' a b l). Qed.
Print Assumptions C107_paths.

(* removeFrame by the old name removes the frame, and nothing of the renaming is left. *)
Theorem C107_remove {D E : Type} (d0 : D) (einv : E -> E) (s : gst D E) f v n s' s1 : reachable d0 einv s -> get_vertex s f = Ret v ->
  set_frame_id v n s = (s', [], Ret tt) -> remove_frame f s = (s1, [EvFrameRemoved f], Ret tt) -> remove_frame f s' = (s1, [EvFrameRemoved f], Ret tt).
Proof. exact (rename_remove d0 einv s f v n s' s1). Qed.
Print Assumptions C107_remove.

(* A copy of the graph knows the frame by its new name, if no other frame had it, and is consistent. *)
Theorem C107_copy {D E : Type} (d0 : D) (einv : E -> E) (s : gst D E) f v n s' t t' : reachable d0 einv s -> get_vertex s f = Ret v ->
  contains_frame s n = false -> set_frame_id v n s = (s', [], Ret tt) -> copy_graph s = Ret t -> copy_graph s' = Ret t' ->
  get_vertex t' n = get_vertex t f /\ get_vertex t' f = Throw (XUnknownFrame f) /\ (forall x, x <> f -> x <> n -> get_vertex t' x = get_vertex t x) /\
  (forall x u, get_vertex t' x = Ret u -> get_frame_id t' u = Ret x) /\ dg_edges (gs_dg t') = dg_edges (gs_dg t).
Proof. exact (rename_copy d0 einv s f v n s' t t'). Qed.
Print Assumptions C107_copy.

(** Frame c of the example graph is renamed; it lies on the path from d to a.  Frame e is removed. *)
Example C107_case :
  let s := xstate ops5 in let q := set_frame_id 3 "z" s in let s' := fst (fst q) in
  reachable 0 Z.opp s /\ get_vertex s fc = Ret 3 /\ contains_frame s "z" = false /\ q = (s', [], Ret tt) /\
  get_frames s fd fa = Ret ([fd; fc] ++ [fa]) /\ get_frames s' fd fa = Ret [fd; "z"%string; fa] /\ get_frames s' fa fc = Ret [fa; fc] /\
  (exists t t' u, copy_graph s = Ret t /\ copy_graph s' = Ret t' /\ get_vertex t' "z" = Ret u) /\
  get_edge_property s' fa fc = get_edge_property s fa fc /\ get_edge_property s' fa "z" = Throw (XUnknownFrame "z").
Proof.
  intros s q s'. split; [apply ops5_reachable|]. split; [by vm_compute|]. split; [by vm_compute|].
  split; [apply (rename_run 0 Z.opp s fc); [apply ops5_reachable|by vm_compute]|].
  split; [by vm_compute|]. split; [by vm_compute|]. split; [by vm_compute|]. split; [|split; by vm_compute].
  destruct (copy_check s' "z" 3) as (t' & H1 & H2); [by vm_compute|]. destruct (copy_check s fa 1) as (t & H3 & _); [by vm_compute|].
  exists t, t', 3. split; [exact H3|]. split; [exact H1|exact H2].
Qed.
Example C107_case_remove :
  let s := xstate [OAddEdge fa fb 1%Z; OAddFrame fc] in let q := set_frame_id 3 "z" s in
  reachable 0 Z.opp s /\ get_vertex s fc = Ret 3 /\ snd q = Ret tt /\ snd (fst (remove_frame fc s)) = [EvFrameRemoved fc] /\ snd (remove_frame fc s) = Ret tt.
Proof. intros s q. split; [apply xstate_reachable; [by repeat constructor|by vm_compute]|]. split_and!; by vm_compute. Qed.

(* The full claim is false: the graph does not know the name it gives for the frame. *)
Theorem C107_unknown_refuted {D E : Type} (d0 : D) (einv : E -> E) (s : gst D E) f v n s' : reachable d0 einv s -> get_vertex s f = Ret v ->
  contains_frame s n = false -> set_frame_id v n s = (s', [], Ret tt) ->
  get_frame_id s' v = Ret n /\ get_vertex s' n = Throw (XUnknownFrame n) /\ contains_frame s' f = true.
Proof. exact (rename_unknown d0 einv s f v n s'). Qed.
Print Assumptions C107_unknown_refuted.

(* If another frame had the name, a copy of the graph has a frame that no name leads to. *)
Theorem C107_clash_refuted {D E : Type} (d0 : D) (einv : E -> E) (s : gst D E) f v h u s' t' : reachable d0 einv s -> get_vertex s f = Ret v ->
  get_vertex s h = Ret u -> u <> v -> set_frame_id v h s = (s', [], Ret tt) -> copy_graph s' = Ret t' ->
  num_vertices t' = num_vertices s /\ exists x, bg_alive (gs_dg t') x = true /\ nameless t' x.
Proof. exact (rename_clash d0 einv s f v h u s' t'). Qed.
Print Assumptions C107_clash_refuted.

Example C107_case_clash :
  let s := xstate ops5 in let q := set_frame_id 3 fb s in
  reachable 0 Z.opp s /\ get_vertex s fc = Ret 3 /\ get_vertex s fb = Ret 2 /\ 2 <> 3 /\ snd q = Ret tt /\ exists t', copy_graph (fst (fst q)) = Ret t'.
Proof. intros s q. split; [apply ops5_reachable|]. split; [by vm_compute|]. split; [by vm_compute|]. split; [done|]. split; [by vm_compute|].
  destruct (copy_check (fst (fst q)) fa 1) as (t' & H1 & _); [by vm_compute|]. exists t'. exact H1.
Qed.

(* An edge from a subscribed view to the renamed frame, if that has other neighbours: the call throws though both edges are there; no event is
   sent. *)
Theorem C107_edge_refuted {D E : Type} (d0 : D) (einv : E -> E) (s : gst D E) f v n s' o fo p i l w : reachable d0 einv s ->
  get_vertex s f = Ret v -> get_vertex s fo = Ret o -> contains_frame s n = false -> set_frame_id v n s = (s', [], Ret tt) ->
  gs_subs s = i :: l -> gs_views s !! i = Some w -> tv_vertex_exists w o = true -> tv_vertex_exists w v = false ->
  find_edge s o v = Ret None -> 0 < bg_degree (gs_dg s) v -> o <> v ->
  exists s1, add_edge_v einv o v p s' = (s1, [], Throw (XUnknownFrame n)) /\ get_edge_property s1 fo f = Ret p /\ get_edge_property s1 f fo = Ret (einv p).
Proof. exact (rename_grow d0 einv s f v n s' o fo p i l w). Qed.
Print Assumptions C107_edge_refuted.

Example C107_case_edge :
  let s := xstate ops5 in let w := xview 1 s in let q := set_frame_id 6 "z" s in
  reachable 0 Z.opp s /\ get_vertex s "f" = Ret 6 /\ get_vertex s fd = Ret 4 /\ contains_frame s "z" = false /\ snd q = Ret tt /\
  gs_subs s = 1 :: [] /\ gs_views s !! 1 = Some w /\ tv_vertex_exists w 4 = true /\ tv_vertex_exists w 6 = false /\
  find_edge s 4 6 = Ret None /\ 0 < bg_degree (gs_dg s) 6 /\ 4 <> 6.
Proof.
  intros s w q. split; [apply ops5_reachable|]. split; [by vm_compute|]. split; [by vm_compute|]. split; [by vm_compute|]. split; [by vm_compute|].
  split; [by vm_compute|]. split; [by vm_compute|]. split; [by vm_compute|]. split; [by vm_compute|]. split; [by vm_compute|].
  split; [apply (bool_decide_unpack _); by vm_compute|done].
Qed.
