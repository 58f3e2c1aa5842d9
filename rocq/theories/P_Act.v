(** Property C101: slots of tree views that use the graph. *)
From stdpp Require Import prelude strings gmap.
From Coq Require Import ZArith.
From Verif Require Import Outcome Digraph Bfs TreeView GraphModel GraphOps SpecStore SpecObs SpecTree GraphThms GraphWf
  HandlerModel SpecHandler ActModel SpecAct ActThms ActQuiet ActMore ExGraph ExView ExAct.

(** ** C101: slots connected to the signals of tree views may use the graph *)
(* Any program, any slots making any calls, nested to any depth, with exceptions thrown and caught anywhere: unless the behaviour is
   undefined, the graph is one that calls without slots and views could have made. *)
Theorem C101_graph_sound_partial {D E : Type} (d0 : D) (einv : E -> E) react fuel depth prog (s : gst D E) n s' ev r :
  (forall i x (s0 : gst D E), script_noself (react i x s0)) -> script_noself prog -> reachable d0 einv s ->
  act_run d0 einv react fuel depth prog (s, n) = (s', ev, r) -> ended r ->
  reachable d0 einv (GSt (gs_dg (fst s')) [] ∅).
Proof. exact (act_program d0 einv react fuel depth prog s n s' ev r). Qed.
Print Assumptions C101_graph_sound_partial.

(* Slots that return, leave frames, edges, subscriptions and the views concerned alone, and announce no frames or edges: the call returns
   or throws what it does without slots, with the same frames and edges, subscriptions, views concerned and announcements. *)
Theorem C101_considerate_partial {D E D' E' : Type} (kd : D -> D') (ke : E -> E') (d0 : D) (einv : E -> E) (V : viewid -> Prop)
    h fuel ord op (s : gst D E) n s0 ev0 r :
  considerate kd ke V h -> reachable d0 einv s ->
  (forall i, i ∈ gs_subs s -> V i) -> (forall i, fills op = Some i -> V i) ->
  length (dg_verts (gs_dg s)) + length (dg_edges (gs_dg s)) + 4 <= fuel ->
  gstep d0 einv ord op s = (s0, ev0, r) -> ended r ->
  exists s1 n1 ev1, gact d0 einv h fuel ord op (s, n) = ((s1, n1), ev1, r) /\
    same_shape kd ke (gs_dg s1) (gs_dg s0) /\ gs_subs s1 = gs_subs s0 /\
    (forall j, V j -> gs_views s1 !! j = gs_views s0 !! j) /\
    filter structural ev1 = filter structural ev0.
Proof. exact (quiet_call kd ke d0 einv V h fuel ord op s n s0 ev0 r). Qed.
Print Assumptions C101_considerate_partial.

(* If they do not write to the graph at all, it is the same graph. *)
Theorem C101_readers_partial {D E : Type} (d0 : D) (einv : E -> E) (V : viewid -> Prop) h fuel ord op (s : gst D E) n s0 ev0 r :
  considerate id id V h -> reachable d0 einv s ->
  (forall i, i ∈ gs_subs s -> V i) -> (forall i, fills op = Some i -> V i) ->
  length (dg_verts (gs_dg s)) + length (dg_edges (gs_dg s)) + 4 <= fuel ->
  gstep d0 einv ord op s = (s0, ev0, r) -> ended r ->
  exists s1 n1 ev1, gact d0 einv h fuel ord op (s, n) = ((s1, n1), ev1, r) /\
    gs_dg s1 = gs_dg s0 /\ gs_subs s1 = gs_subs s0 /\
    (forall j, V j -> gs_views s1 !! j = gs_views s0 !! j) /\
    filter structural ev1 = filter structural ev0.
Proof. exact (readers_call d0 einv V h fuel ord op s n s0 ev0 r). Qed.
Print Assumptions C101_readers_partial.

(* Slots that set edge properties, whatever edges and values they choose, are such slots. *)
Theorem C101_set_property_slots {D E : Type} (d0 : D) (einv : E -> E) (pick : viewid -> vsig -> gst D E -> frameid * frameid * E)
    ord fuel depth :
  considerate (@id D) (fun _ : E => tt) (fun _ => True)
    (act_slots d0 einv (fun i x s => SCall ord (OSetProp (pick i x s).1.1 (pick i x s).1.2 (pick i x s).2) (fun _ _ => SEnd))
       fuel (S depth)).
Proof. exact (set_prop_considerate d0 einv pick ord fuel depth). Qed.
Print Assumptions C101_set_property_slots.

(* A slot of the first subscribed view that subscribes, unsubscribes, moves or destroys a view while a frame is put into the tree: the loop
   over the subscribed views goes on with an invalid iterator. *)
Theorem C101_subscriptions_refuted {D E : Type} (d0 : D) (einv : E -> E) h fuel ord o t p (s : gst D E) n i l w :
  bg_alive (gs_dg s) o = true -> bg_alive (gs_dg s) t = true -> o <> t -> bg_degree (gs_dg s) t = 0 ->
  gs_subs s = i :: l -> gs_views s !! i = Some w -> tv_vertex_exists w o = true -> tv_vertex_exists w t = false ->
  (forall s1, exists s2 ev, h i (SigAdded o t) s1 = (s2, ev, Ret tt) /\ gs_dg (fst s2) = gs_dg (fst s1) /\ snd s2 <> snd s1) ->
  snd (gact d0 einv h fuel ord (OAddEdgeV o t p) (s, n)) = UB.
Proof. exact (subscription_ub d0 einv h fuel ord o t p s n i l w). Qed.
Print Assumptions C101_subscriptions_refuted.

(* A slot that throws: the caller gets the exception although the edge is in the graph; nobody is told of it and the views that come later
   in the list are not updated. *)
Theorem C101_throw_refuted {D E : Type} (d0 : D) (einv : E -> E) h fuel ord o t p (s : gst D E) n i l w x :
  bg_alive (gs_dg s) o = true -> bg_alive (gs_dg s) t = true -> o <> t -> bg_degree (gs_dg s) t = 0 ->
  gs_subs s = i :: l -> gs_views s !! i = Some w -> tv_vertex_exists w o = true -> tv_vertex_exists w t = false ->
  (forall s1, h i (SigAdded o t) s1 = (s1, [], Throw x)) ->
  exists s', gact d0 einv h fuel ord (OAddEdgeV o t p) (s, n) = ((s', n), [], Throw x) /\
    contains_edge_v s' o t = Ret true /\ contains_edge_v s' t o = Ret true /\
    (forall j, j <> i -> gs_views s' !! j = gs_views s !! j).
Proof. exact (throw_half d0 einv h fuel ord o t p s n i l w x). Qed.
Print Assumptions C101_throw_refuted.

(* A slot that adds an edge while a component is joined to the tree: every call returns, but the view is no tree any more; its root has a
   parent. *)
Theorem C101_added_in_slot_refuted : exists react prog (s : gst nat Z) s' ev w,
  (forall i x s0, script_noself (react i x s0)) /\ script_noself prog /\ reachable 0 Z.opp s /\
  in_sync (gs_dg s) (xview 1 s) /\ gs_subs s = [1] /\
  act_run 0 Z.opp react 50 9 prog (s, 0) = (s', ev, Ret tt) /\
  gs_views (fst s') !! 1 = Some w /\ tv_root w = 1 /\ tv_get_parent w 1 = Ret 4 /\ child w 1 2 /\ child w 3 2 /\ ~ is_tree w.
Proof. exact added_in_slot. Qed.
Print Assumptions C101_added_in_slot_refuted.

(* A slot that removes the edge whose addition it is told of: the removal is announced before the addition, and the announced edge does
   not exist. *)
Theorem C101_removed_in_slot_refuted : exists react prog (s : gst nat Z) s' e,
  (forall i x s0, script_noself (react i x s0)) /\ script_noself prog /\ reachable 0 Z.opp s /\
  in_sync (gs_dg s) (xview 1 s) /\ gs_subs s = [1] /\
  act_run 0 Z.opp react 50 9 prog (s, 0) = (s', [EvEdgeRemoved fa "e"; EvEdgeAdded fa "e" e], Ret tt) /\
  contains_edge (fst s') fa "e" = Ret false /\ get_edge_property_e (fst s') e = UB.
Proof. exact removed_in_slot. Qed.
Print Assumptions C101_removed_in_slot_refuted.

(** An edge joins a chain to the tree of frame a; the slots set the property of the edge b-c at every signal. *)
Example C101_case_considerate :
  let h := act_slots 0 Z.opp (fun i x (s : gst nat Z) => SCall xord (OSetProp fb fc 9%Z) (fun _ _ => SEnd)) 50 1 in
  let s := xstate aops in let q := gact 0 Z.opp h 50 xord (OAddEdge fa fb 2%Z) (s, 0) in
  considerate (@id nat) (fun _ : Z => tt) (fun _ => True) h /\ reachable 0 Z.opp s /\ gs_subs s = [1] /\
  snd (gstep 0 Z.opp xord (OAddEdge fa fb 2%Z) s) = Ret tt /\
  snd (fst (gstep 0 Z.opp xord (OAddEdge fa fb 2%Z) s)) = [EvEdgeAdded fa fb 5] /\
  snd (fst q) = [EvEdgeModified fb fc 1 2; EvEdgeModified fb fc 1 2; EvEdgeModified fb fc 1 2; EvEdgeAdded fa fb 5] /\ snd q = Ret tt /\
  tv_log (xview 1 (fst (fst (fst q)))) = [SigAdded 1 2; SigAdded 2 3; SigAdded 3 4] /\
  get_edge_property (fst (fst (fst q))) fb fc = Ret 9%Z.
Proof.
  cbv zeta. split; [exact (set_prop_considerate 0 Z.opp (fun _ _ _ => (fb, fc, 9%Z)) xord 50 0)|]. split; [exact aops_reachable|].
  repeat (split; [by vm_compute|]). by vm_compute.
Qed.

(** Slots that connect further slots to a view that is not concerned write nothing to the graph. *)
Example C101_case_readers :
  let h := fun (_ : viewid) (_ : vsig) => (fun s : ast nat Z => match gs_views (fst s) !! 2 with
             | Some _ => alift (slot_view 2 KAdded true 7) s | None => (s, [], Ret tt) end) in
  let s := xstate aops in let q := gact 0 Z.opp h 50 xord (OAddEdge fa fb 2%Z) (s, 0) in
  considerate (@id nat) (@id Z) (fun j => j = 1) h /\ (forall i, i ∈ gs_subs s -> i = 1) /\
  snd (fst q) = [EvEdgeAdded fa fb 5] /\ snd q = Ret tt /\ tv_slots_added (xview 2 (fst (fst (fst q)))) = [7; 7; 7].
Proof.
  cbv zeta. split.
  { intros i x [s n] s' ev r _. cbn [fst]. destruct (gs_views s !! 2) as [w|] eqn:Hw.
    - unfold alift, slot_view. cbn [fst snd]. change (@lookup viewid tview _ _ 2 (gs_views s) = Some w) in Hw. rewrite Hw. cbn [gs_subs gs_set_view]. rewrite bool_decide_eq_true_2 by done.
      intros [= <- <- <-]. split_and!; try done. intros j ->. cbn. by rewrite lookup_insert_ne.
    - intros [= <- <- <-]. by split_and!. }
  split; [|by vm_compute]. assert (gs_subs (xstate aops) = [1]) as -> by by vm_compute. intros i ?%elem_of_list_singleton. done.
Qed.

(** The view of frame a is the first subscribed one, e has no edges; a slot that unsubscribes the view, one that destroys it, one that throws. *)
Example C101_case_first : let s := xstate aops in
  bg_alive (gs_dg s) 1 = true /\ bg_alive (gs_dg s) 5 = true /\ bg_degree (gs_dg s) 5 = 0 /\ gs_subs s = [1] /\
  gs_views s !! 1 = Some (xview 1 s) /\ tv_vertex_exists (xview 1 s) 1 = true /\ tv_vertex_exists (xview 1 s) 5 = false /\
  snd (act_run 0 Z.opp (areact 1 5 (OViewUnsubscribe 1)) 50 9 (aone (OAddEdgeV 1 5 1%Z)) (s, 0)) = UB /\
  snd (act_run 0 Z.opp (areact 1 5 (ODestroyView 1)) 50 9 (aone (OAddEdgeV 1 5 1%Z)) (s, 0)) = UB /\
  snd (act_run 0 Z.opp (areact 1 5 (OGetTree fb true 2)) 50 9 (aone (OAddEdgeV 1 5 1%Z)) (s, 0)) = UB /\
  snd (gact 0 Z.opp (fun _ _ s => (s, [], Throw XRuntime)) 50 xord (OAddEdgeV 1 5 1%Z) (s, 0)) = Throw XRuntime.
Proof. cbv zeta. repeat (split; [by vm_compute|]). by vm_compute. Qed.

(** A program with slots that remove edges, add frames and throw: it ends. *)
Example C101_case_sound :
  let react := fun (_ : viewid) (x : vsig) (_ : gst nat Z) => match x with
    | SigAdded 1 2 => SCall xord (OAddEdge "e" "f" 3%Z) (fun _ _ => SCall xord (ODisconnect fd) (fun _ _ => SEnd))
    | SigAdded 1 5 => SThrow XRuntime
    | _ => SEnd end : script nat Z in
  let prog := SCall xord (OAddEdge fa fb 2%Z) (fun _ _ => SCall xord (OAddEdge fa "e" 2%Z) (fun _ _ => SEnd)) in
  (forall i x s0, script_noself (react i x s0)) /\ script_noself prog /\
  snd (fst (act_run 0 Z.opp react 50 9 prog (xstate aops, 0))) =
    [EvFrameAdded "f"; EvEdgeAdded "e" "f" 7; EvEdgeRemoved fd fc; EvEdgeAdded fa fb 5] /\
  snd (act_run 0 Z.opp react 50 9 prog (xstate aops, 0)) = Ret tt.
Proof.
  cbv zeta. split_and!.
  - intros i x s0. destruct x as [| [|[|?]] [|[|[|[|[|[|?]]]]]] |]; cbn; repeat constructor; done.
  - repeat constructor; done.
  - by vm_compute.
  - by vm_compute.
Qed.
