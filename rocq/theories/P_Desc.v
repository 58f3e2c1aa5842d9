(** Property C99: the edge descriptors in events. *)
From stdpp Require Import prelude strings gmap.
From Verif Require Import Outcome ItemClass Digraph TreeView GraphModel GraphOps SpecStore SpecObs GraphWf GraphThms GraphStep
  ItemsModel SpecReplica SpecItems ItemsThms QueueModel SpecDesc DescThms ExGraph ExItems ExDesc.

(** ** C99: descriptors of events stay valid until the removal of the edge is announced *)
(* A graph: whatever calls follow, the descriptors are those of the edges between the named frames, and can be read,
   as long as no event says that the edge was removed; after it using them is undefined behaviour. *)
Theorem C99_until_removed {D E : Type} (d0 : D) (einv : E -> E) s h s' ev r ev1 e ev2 : reachable d0 einv s -> hist_noself h ->
  run d0 einv h s = (s', ev, r) -> r = Ret tt \/ (exists x, r = Throw x) -> ev = ev1 ++ e :: ev2 ->
  ((forall x, x ∈ ev2 -> ~ removal_of e x) ->
    current s' e /\ forall i, i ∈ descriptors e -> exists p, get_edge_property_e s' i = Ret p) /\
  ((exists x, x ∈ ev2 /\ removal_of e x) -> forall i, i ∈ descriptors e -> get_edge_property_e s' i = UB).
Proof. exact (desc_run d0 einv s h s' ev r ev1 e ev2). Qed.
Print Assumptions C99_until_removed.

(* The same for a graph with items. *)
Theorem C99_until_removed_items {E : Type} (einv : E -> E) s h s' ev r ev1 e ev2 : ereachable einv s -> enoself h ->
  erun einv h s = (s', ev, r) -> r = Ret tt \/ (exists x, r = Throw x) -> ev = ev1 ++ e :: ev2 ->
  ((forall x, x ∈ ev2 -> ~ removal_of e x) ->
    current (es_g s') e /\ forall i, i ∈ descriptors e -> exists p, get_edge_property_e (es_g s') i = Ret p) /\
  ((exists x, x ∈ ev2 /\ removal_of e x) -> forall i, i ∈ descriptors e -> get_edge_property_e (es_g s') i = UB).
Proof. exact (desc_erun einv s h s' ev r ev1 e ev2). Qed.
Print Assumptions C99_until_removed_items.

(* A queue that was subscribed with or without publishing the current state: everything in it is current. *)
Theorem C99_queue_current {E : Type} (einv : E -> E) s io ev0 h s' ev r : ereachable einv s -> enoself h ->
  ev0 = [] \/ eg_publish io s = (ev0, Ret tt) ->
  erun einv h s = (s', ev, r) -> r = Ret tt \/ (exists x, r = Throw x) ->
  forall e, e ∈ q_receive (ev0 ++ ev) -> current (es_g s') e.
Proof. exact (queue_erun einv s io ev0 h s' ev r). Qed.
Print Assumptions C99_queue_current.

(* flush with a receiver that itself makes any calls to the graph when it is handed an event, none of them undefined:
   every event is current when it is handed out, also those that arrive meanwhile. *)
Theorem C99_flush_current {E : Type} (einv : E -> E) s io ev0 h s1 ev r client fuel s' log handed nq' r' : ereachable einv s -> enoself h ->
  ev0 = [] \/ eg_publish io s = (ev0, Ret tt) ->
  erun einv h s = (s1, ev, r) -> r = Ret tt \/ (exists x, r = Throw x) ->
  (forall s e, enoself (client s e)) ->
  nq_flush (busy einv client) fuel (s1, []) (nq_of (q_receive (ev0 ++ ev))) = ((s', log), handed, nq', r') ->
  (forall s2 e, (s2, e) ∈ log -> exists u, snd (erun einv (client s2 e) s2) = Ret u) ->
  log.*2 = handed /\ forall s2 e, (s2, e) ∈ log -> current (es_g s2) e.
Proof. exact (flush_erun einv s io ev0 h s1 ev r client fuel s' log handed nq' r'). Qed.
Print Assumptions C99_flush_current.

(** An edge is added, set, removed and added again; the queue was subscribed to a graph with two edges and is flushed
    by a receiver that removes, adds and sets further edges. *)
Example C99_case : let s := istate Z.opp iops1 in let q := erun Z.opp (ihist dops) s in
  ereachable Z.opp s /\ enoself (ihist dops) /\
  snd (fst q) = [EvEdgeAdded fd fa 5; EvEdgeModified fb fa 2 1; EvEdgeRemoved fb fc; EvEdgeModified fd fa 5 6;
    EvEdgeAdded fc fb 7; EvEdgeRemoved fa fd; EvEdgeAdded fa fd 9; EvItemRemoved fa 1] /\ snd q = Ret tt /\
  get_edge_property_e (es_g (fst (fst q))) 5 = UB /\ get_edge_property_e (es_g (fst (fst q))) 7 = Ret 9%Z /\
  exists ev0, eg_publish xio s = (ev0, Ret tt) /\
    q_receive (ev0 ++ snd (fst q)) = [EvFrameAdded fa; EvFrameAdded fb; EvFrameAdded fc; EvFrameAdded fd; EvEdgeAdded fa fb 1;
      EvItemAdded fa 1; EvItemAdded fa 2; EvItemAdded fa 5; EvItemAdded fa 3; EvItemAdded fb 4; EvEdgeModified fb fa 2 1;
      EvEdgeAdded fc fb 7; EvEdgeAdded fa fd 9; EvItemRemoved fa 1].
Proof.
  cbv zeta. split; [exact iops1_reachable|]. split; [repeat constructor; done|]. split; [by vm_compute|].
  split; [by vm_compute|]. split; [by vm_compute|]. split; [by vm_compute|]. eexists. by vm_compute.
Qed.

Example C99_flush_case : let s := fst (fst (erun Z.opp (ihist dops) (istate Z.opp iops1))) in
  let q := q_receive (fst (eg_publish xio (istate Z.opp iops1)) ++ snd (fst (erun Z.opp (ihist dops) (istate Z.opp iops1)))) in
  (forall s e, enoself (dclient s e)) /\
  let f := nq_flush (busy Z.opp dclient) 20 (s, []) (nq_of q) in
  snd f = Ret tt /\ snd (fst (fst f)) = take 12 q ++ [EvItemRemoved fa 1; EvEdgeAdded fc fa 11; EvEdgeModified fa fc 12 11] /\
  forallb (fun x => match snd (erun Z.opp (dclient x.1 x.2) x.1) with Ret _ => true | _ => false end) (fst (fst (fst f))).2 = true.
Proof. cbv zeta. split; [exact dclient_noself|]. by vm_compute. Qed.
