(** Properties of a subscriber in a program with several graphs: C84. *)
From stdpp Require Import prelude strings gmap gmultiset.
From Verif Require Import Outcome ItemClass Digraph Bfs TreeView GraphModel GraphOps SpecStore SpecObs ItemsModel SpecReplica SpecItems
  RoamModel SpecRoam RoamThms ExGraph ExItems ExRoam.

(** ** C84: a subscriber that moves from graph to graph *)
(* Whatever the program does with its graphs and wherever the subscriber goes, it knows exactly the graph it is at.  Missing: moves
   that do not ask for the current state, unsubscribe, subscribing at the graph, enableEvents (see below), and what C28 leaves out. *)
Theorem C84_knows_its_graph_partial {E : Type} (einv : E -> E) h s ev : all_steps einv told h roam_new ->
  rrun einv h roam_new = (s, ev, Ret tt) -> exists r, replay ev empty_replica = Some r /\ knows s r.
Proof. exact (roams_new einv h s ev). Qed.
Print Assumptions C84_knows_its_graph_partial.

(* Such a move to any graph of the program is always possible and changes no graph. *)
Theorem C84_move_possible {E : Type} (einv : E -> E) h s ev io g : all_steps einv told h roam_new ->
  rrun einv h roam_new = (s, ev, Ret tt) -> iorder_ok io -> is_Some (w_graphs (ro_w s) !! g) ->
  exists s' ev', sub_subscribe io g true s = (s', ev', Ret tt) /\ ro_w s' = ro_w s /\ ro_at s' = Some g.
Proof. exact (move_possible einv h s ev io g). Qed.
Print Assumptions C84_move_possible.

(* Graph 2 is a copy of 0: its edge x-a is announced, then everything of it taken back, then graph 1 is told and followed; the
   last call throws. *)
Example C84_case : all_steps Z.opp told (rhist rops1) roam_new /\ (rr rops1).2 = Ret tt /\ ro_at (rr rops1).1.1 = Some 1 /\
  length (rr rops1).1.2 = 54 /\ drop 35 (rr rops1).1.2 =
    [EvEdgeAdded "x" fa 5] ++
    [EvItemRemoved fa 1; EvItemRemoved fa 2; EvItemRemoved fa 5; EvItemRemoved fb 4; EvEdgeRemoved fa fb; EvEdgeRemoved fb fc;
     EvEdgeRemoved "x" fa; EvFrameRemoved fa; EvFrameRemoved fb; EvFrameRemoved fc; EvFrameRemoved fd; EvFrameRemoved "x"] ++
    [EvFrameAdded fa; EvFrameAdded "y"; EvEdgeAdded fa "y" 1; EvItemAdded fa 1] ++ [EvEdgeRemoved fa "y"; EvFrameRemoved "y"].
Proof.
  split; [apply rhist_told; repeat (apply list.Forall_cons; split; [by repeat split|]); apply list.Forall_nil; exact I|]. by vm_compute.
Qed.

(* subscribe with the default argument: nothing is sent, frames only the old graph has stay known. *)
Theorem C84_default_move_refuted {E : Type} (einv : E -> E) h s ev io g1 g2 t1 t2 f : all_steps einv told h roam_new ->
  rrun einv h roam_new = (s, ev, Ret tt) -> ro_at s = Some g1 -> in_world (ro_w s) g1 t1 -> in_world (ro_w s) g2 t2 ->
  contains_frame (es_g t1) f = true -> contains_frame (es_g t2) f = false ->
  exists s' r, sub_subscribe io g2 false s = (s', [], Ret tt) /\ ro_at s' = Some g2 /\ ro_w s' = ro_w s /\
    replay ev empty_replica = Some r /\ f ∈ r_frames r /\ ~ knows s' r.
Proof. exact (stale_move einv h s ev io g1 g2 t1 t2 f). Qed.
Print Assumptions C84_default_move_refuted.

(* GraphEventSubscriber::unsubscribe: nothing is sent, the subscriber goes on knowing the graph it left. *)
Theorem C84_unsubscribe_refuted {E : Type} (einv : E -> E) h s ev io g t f : all_steps einv told h roam_new ->
  rrun einv h roam_new = (s, ev, Ret tt) -> ro_at s = Some g -> in_world (ro_w s) g t -> contains_frame (es_g t) f = true ->
  exists s' r, sub_unsubscribe io s = (s', [], Ret tt) /\ ro_at s' = None /\ ro_w s' = ro_w s /\
    replay ev empty_replica = Some r /\ f ∈ r_frames r /\ ~ knows s' r.
Proof. exact (stale_leave einv h s ev io g t f). Qed.
Print Assumptions C84_unsubscribe_refuted.

Example C84_stale_case : let s := (rr rops1).1.1 in exists t1 t2, in_world (ro_w s) 1 t1 /\ in_world (ro_w s) 0 t2 /\ ro_at s = Some 1 /\
  contains_frame (es_g t1) fa = true /\ contains_frame (es_g t2) "new" = false /\
  (sub_subscribe xio 0 false s).2 = Ret tt /\ (sub_unsubscribe xio s).2 = Ret tt.
Proof.
  cbv zeta. set (s := (rr rops1).1.1).
  exists (ESt (default gst0 (w_graphs (ro_w s) !! 1)) (w_heap (ro_w s))), (ESt (default gst0 (w_graphs (ro_w s) !! 0)) (w_heap (ro_w s))).
  split; [split; [apply some_default; by vm_compute|done]|]. split; [split; [apply some_default; by vm_compute|done]|]. by vm_compute.
Qed.

(* Subscribed without the current state to a graph with frames, then moved with it: frames are taken back that were never told. *)
Theorem C84_late_move_refuted : let ops := [RStep (WNew 0); RStep (WNew 1)] ++ calls 0 iops1 ++ [RSub 0 false; RSub 1 true] in
  (rr ops).2 = Ret tt /\ replay (rr ops).1.2 empty_replica = None.
Proof. by vm_compute. Qed.
Print Assumptions C84_late_move_refuted.

(* enableEvents(false): as long as the program deals with that graph only, the subscriber hears nothing, not even when it
   subscribes or leaves with the current state. *)
Theorem C84_switched_off {E : Type} (einv : E -> E) ord io g h s s' ev r : (ro_at s = None \/ ro_at s = Some g) ->
  Forall (fun x => about g x.2) h -> rrun einv ((ord, io, REnable g false) :: h) s = (s', ev, r) -> ev = [].
Proof. exact (switched_off einv ord io g h s s' ev r). Qed.
Print Assumptions C84_switched_off.

Example C84_off_case : let ops := calls 0 [EGraph (OAddFrame "x"); EGraph (ORemoveFrame "x"); EGraph (OAddFrame "y")] ++ [RUnsub; RSub 0 true; RPubUnsub 0 true] in
  let s := (rr ([RStep (WNew 0); RSub 0 true] ++ calls 0 iops1)).1.1 in
  ro_at s = Some 0 /\ Forall (fun x => about 0 x.2) (rhist ops) /\ (rrun Z.opp (rhist (REnable 0 false :: ops)) s).2 = Ret tt /\
  (rrun Z.opp (rhist (REnable 0 false :: ops)) s).1.2 = [] /\ length (rrun Z.opp (rhist ops) s).1.2 = 27.
Proof. cbv zeta. split; [by vm_compute|]. split; [repeat constructor|]. by vm_compute. Qed.

(* Events of the old graph are switched off: nothing is taken back and the new graph contradicts what is known. *)
Theorem C84_switched_off_refuted : let ops := [RStep (WNew 0); RStep (WNew 1)] ++ calls 0 iops1 ++ calls 1 [EGraph (OAddFrame fa)] ++
    [RSub 0 true; REnable 0 false; RSub 1 true] in
  (rr ops).2 = Ret tt /\ replay (rr ops).1.2 empty_replica = None.
Proof. by vm_compute. Qed.
Print Assumptions C84_switched_off_refuted.

(* Subscribed at the graph and then by the subscriber: it is in the list twice and gets every event twice. *)
Theorem C84_twice_refuted : let ops := [RStep (WNew 0); RPubSub 0 true; RSub 0 true] ++ calls 0 [EGraph (OAddFrame fa)] in
  (rr ops).2 = Ret tt /\ ro_at (rr ops).1.1 = Some 0 /\ (rr ops).1.2 = [EvFrameAdded fa; EvFrameAdded fa] /\
  replay (rr ops).1.2 empty_replica = None.
Proof. by vm_compute. Qed.
Print Assumptions C84_twice_refuted.
