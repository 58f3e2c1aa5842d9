(** C78-C80: event handlers that run inside a call. *)
From stdpp Require Import prelude strings gmap.
From Verif Require Import Outcome Digraph TreeView GraphModel GraphOps SpecStore SpecObs SpecTree HandlerModel
  SpecHandler HandlerThms ExGraph ExView ExHandler.

(** ** C78: handlers run after the change *)

Theorem C78_without_handlers {D E : Type} (d0 : D) (einv : E -> E) (h : event -> call (gst D E) unit) ord op (s : gst D E) :
  reachable d0 einv s -> (forall e s, h e s = (s, [], Ret tt)) ->
  gstep_h d0 einv h (length (dg_edges (gs_dg s))) ord op s = gstep d0 einv ord op s.
Proof. exact (fun Hr Hh => gstep_silent d0 einv h Hh ord op s Hr). Qed.
Print Assumptions C78_without_handlers.

(** The full statement is for all calls; missing are removeEdge and disconnectFrame (refuted below) and addEdge with new
    frames, which announces several events. *)
Theorem C78_handled_after_the_call_partial {D E : Type} (d0 : D) (einv : E -> E) (h : event -> call (gst D E) unit) fuel ord op
    (s : gst D E) :
  one_event s op -> gstep_h d0 einv h fuel ord op s = handled_after h (gstep d0 einv ord op s).
Proof. exact (one_event_after d0 einv h fuel ord op s). Qed.
Print Assumptions C78_handled_after_the_call_partial.

Example C78_case : let s := xstate ops5 in
  reachable 0 Z.opp s /\ one_event s (OAddEdge fa "e" 3%Z) /\ one_event s (ORemoveFrame "nobody") /\
  let h := fun e => exec 0 Z.opp (fun _ => cret tt) 9 (SCall xord (OAddFrame "x") (fun _ _ => SThrow XNullVertex)) in
  let q := gstep_h 0 Z.opp h 9 xord (OAddEdge fa "e" 3%Z) s in
  length (snd (fst q)) = 2 /\ snd q = Throw XNullVertex /\ contains_edge (fst (fst q)) "e" fa = Ret true.
Proof.
  cbv zeta. split; [exact ops5_reachable|]. by vm_compute.
Qed.

(** Whatever the handlers are: when told that an edge was removed they find it removed in one direction only. *)
Theorem C78_removal_refuted {D E : Type} (d0 : D) (einv : E -> E) ord a b (s : gst D E) :
  reachable d0 einv s -> contains_edge s a b = Ret true ->
  exists s1 rest, half_removed einv s s1 a b /\
    forall h : event -> call (gst D E) unit, remove_edge_h h ord a b s = (hnotify h (EvEdgeRemoved a b) ;;; rest) s1.
Proof. exact (removal_split d0 einv ord a b s). Qed.
Print Assumptions C78_removal_refuted.

Example C78_removal_case : let s := xstate ops9 in
  reachable 0 Z.opp s /\ contains_edge s fa fb = Ret true /\
  let h := fun e (s1 : gst nat Z) =>
    (s1, [], match contains_edge s1 fb fa with Ret true => Throw XNullVertex | _ => Ret tt end) in
  snd (gstep_h 0 Z.opp h 9 xord (ORemoveEdge fa fb) s) = Throw XNullVertex /\
  snd (handled_after h (gstep 0 Z.opp xord (ORemoveEdge fa fb) s)) = Ret tt.
Proof.
  cbv zeta. split; [exact ops9_reachable|]. by vm_compute.
Qed.

(** addEdge looks up both frames before it creates the first: a handler that creates the second one makes the graph announce
    this frame twice. *)
Theorem C78_frame_announced_twice_refuted :
  exists react : event -> gst nat Z -> script nat Z, tame react /\
    let q := gstep_h 0 Z.opp (reactor 0 Z.opp react 9 3) 9 xord (OAddEdge fa fb 3%Z) gst0 in
    snd q = Ret tt /\ snd (fst q) = [EvFrameAdded fa; EvFrameAdded fb; EvFrameAdded fb; EvEdgeAdded fa fb 1].
Proof. exact frame_twice. Qed.
Print Assumptions C78_frame_announced_twice_refuted.

(** ** C79: handlers that throw *)

(** The full statement is for all handlers; here a handler told about a removed edge does nothing. *)
Theorem C79_edges_paired_partial {D E : Type} (d0 : D) (einv : E -> E) react fuel depth ord op (s s' : gst D E) ev x :
  tame react -> reachable d0 einv s -> op_noself op ->
  gstep_h d0 einv (reactor d0 einv react fuel depth) fuel ord op s = (s', ev, Throw x) -> paired s'.
Proof. exact (tame_paired d0 einv react fuel depth ord op s s' ev x). Qed.
Print Assumptions C79_edges_paired_partial.

Example C79_case : let s := xstate ops5 in
  let react := fun e (_ : gst nat Z) => match e with EvEdgeAdded _ _ _ => SThrow XNullVertex | _ => SEnd end in
  tame react /\ reachable 0 Z.opp s /\
  let q := gstep_h 0 Z.opp (reactor 0 Z.opp react 9 3) 9 xord (OAddEdge fa "x" 3%Z) s in
  snd q = Throw XNullVertex /\ contains_edge (fst (fst q)) "x" fa = Ret true.
Proof.
  cbv zeta. split; [split|split; [exact ops5_reachable|by vm_compute]]; [done|].
  intros e s. destruct e; constructor.
Qed.

(** A handler that throws when told about the removed edge leaves the other direction in the graph for good. *)
Theorem C79_throwing_handler_refuted {D E : Type} (d0 : D) (einv : E -> E) (h : event -> call (gst D E) unit) ord a b x (s : gst D E) :
  reachable d0 einv s -> contains_edge s a b = Ret true ->
  (forall s1, h (EvEdgeRemoved a b) s1 = (s1, [], Throw x)) ->
  exists s1, remove_edge_h h ord a b s = (s1, [EvEdgeRemoved a b], Throw x) /\ half_removed einv s s1 a b /\ ~ paired s1.
Proof. exact (throwing_removed d0 einv h ord a b x s). Qed.
Print Assumptions C79_throwing_handler_refuted.

Example C79_throwing_case : let s := xstate ops5 in
  let h := fun (_ : event) => cread (fun _ : gst nat Z => Throw (A := unit) XNullVertex) in
  reachable 0 Z.opp s /\ contains_edge s fa fb = Ret true /\
  (forall s1, h (EvEdgeRemoved fa fb) s1 = (s1, [], Throw XNullVertex)).
Proof.
  cbv zeta. split; [exact ops5_reachable|]. split; [by vm_compute|]. done.
Qed.

(** ** C80: handlers that call the graph *)

(** The full statement is for all handlers; here a handler told about a removed edge does nothing. *)
Theorem C80_reachable_partial {D E : Type} (d0 : D) (einv : E -> E) react fuel depth ord op (s s' : gst D E) ev r :
  tame react -> reachable d0 einv s -> op_noself op ->
  gstep_h d0 einv (reactor d0 einv react fuel depth) fuel ord op s = (s', ev, r) -> ended r -> reachable d0 einv s'.
Proof. exact (tame_reachable d0 einv react fuel depth ord op s s' ev r). Qed.
Print Assumptions C80_reachable_partial.

(** The same for a whole program. *)
Theorem C80_program_partial {D E : Type} (d0 : D) (einv : E -> E) react fuel depth (prog : script D E) (s' : gst D E) ev r :
  tame react -> script_noself prog ->
  exec d0 einv (reactor d0 einv react fuel depth) fuel prog gst0 = (s', ev, r) -> ended r -> reachable d0 einv s'.
Proof. exact (tame_program d0 einv react fuel depth prog s' ev r). Qed.
Print Assumptions C80_program_partial.

(** A handler that makes a chain of frames, each created in the handler of the one before. *)
Example C80_case : let s := xstate ops5 in
  let react := fun e (_ : gst nat Z) =>
    match e with
    | EvFrameAdded f => if decide (String.length f < 4) then SCall xord (OAddEdge (f +:+ "'") f 1%Z) (fun _ _ => SEnd) else SEnd
    | _ => SEnd
    end in
  tame react /\ reachable 0 Z.opp s /\
  let q := gstep_h 0 Z.opp (reactor 0 Z.opp react 9 9) 9 xord (OAddEdge "x" fa 3%Z) s in
  snd q = Ret tt /\ length (snd (fst q)) = 8 /\ contains_edge (fst (fst q)) "x''" "x'''" = Ret true.
Proof.
  cbv zeta. split; [split|split; [exact ops5_reachable|by vm_compute]]; [done|].
  intros e s. destruct e; try constructor. case_decide; repeat constructor. cbn.
  clear. induction f as [|c f IH]; [done|]. intros [= Heq]. by apply IH.
Qed.

(** A handler that puts the removed edge back leaves a subscribed view that no longer follows the graph. *)
Theorem C80_edge_put_back_refuted :
  exists react : event -> gst nat Z -> script nat Z, (forall e s, script_noself (react e s)) /\
    reachable 0 Z.opp (xstate ops9) /\ in_sync (gs_dg (xstate ops9)) (xview 1 (xstate ops9)) /\
    let q := gstep_h 0 Z.opp (reactor 0 Z.opp react 9 3) 9 xord (ORemoveEdge fa fb) (xstate ops9) in
    snd q = Ret tt /\ contains_edge (fst (fst q)) fa fb = Ret true /\ 1 ∈ gs_subs (fst (fst q)) /\
    ~ in_sync (gs_dg (fst (fst q))) (xview 1 (fst (fst q))).
Proof. exact edge_put_back. Qed.
Print Assumptions C80_edge_put_back_refuted.
