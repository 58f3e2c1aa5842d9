(** Properties of the event queue: C35-C37, C68. *)
From stdpp Require Import prelude strings gmap gmultiset.
From Verif Require Import Outcome SpecReplica QueueModel SpecQueue QueueThms ExGraph ExQueue.

(** ** C35: queued events have the same net effect *)
(* Frames: every consistent stream. *)
Theorem C35_frames_net_effect evs r0 r : replay evs r0 = Some r -> frames_after (q_receive evs) (r_frames r0) = r_frames r.
Proof. exact (queue_frames evs r0 r). Qed.
Print Assumptions C35_frames_net_effect.

(* Frames, edges and items: the flushed events give the same replica as the received events, provided that no edge
   known before is removed twice.  Missing: those streams, see below. *)
Theorem C35_net_effect_partial evs r0 r : sound_replica r0 -> replay evs r0 = Some r -> removed_once r0 evs -> no_short_lived_items evs ->
  replay (q_receive evs) r0 = Some r.
Proof. exact (queue_replays evs r0 r). Qed.
Print Assumptions C35_net_effect_partial.

(* An edge known before that is removed, added and removed again disappears from the queue, so that it stays in the
   replica; for all consistent streams that end with such a pattern. *)
Theorem C35_edge_removed_twice_refuted a b e1 x e2 y e3 r0 r : (a, b) ∈ r_edges r0 -> replay (e1 ++ x :: e2 ++ y :: e3) r0 = Some r ->
  on_edge a b x -> is_add x -> on_edge a b y -> is_remove y -> (forall z, z ∈ e2 -> is_remove z -> ~ on_edge a b z) ->
  (forall z, z ∈ e3 -> ~ on_edge a b z) ->
  (a, b) ∉ r_edges r /\ (a, b) ∈ edges_after (q_receive (e1 ++ x :: e2 ++ y :: e3)) (r_edges r0).
Proof. exact (queue_edge_wrong a b e1 x e2 y e3 r0 r). Qed.
Print Assumptions C35_edge_removed_twice_refuted.

Example C35_case : sound_replica qrep /\ replay qstream qrep = Some qrep2 /\ removed_once qrep qstream /\ no_short_lived_items qstream /\
  q_receive qstream = [EvEdgeRemoved fb fa; EvFrameRemoved fb; EvFrameAdded fb; EvEdgeAdded fc fb 9; EvItemAdded fc 3; EvEdgeModified fb fc 9 10].
Proof.
  split; [exact qrep_sound|]. split; [exact qstream_replay|]. split; [exact qstream_once|]. split; [exact qstream_items|]. by vm_compute.
Qed.
Example C35_case_refuted : let evs := [EvEdgeRemoved fa fb] ++ EvEdgeAdded fb fa 4 :: [] ++ EvEdgeRemoved fa fb :: [EvFrameAdded fd] in
  (fa, fb) ∈ r_edges qrep /\ (exists r, replay evs qrep = Some r) /\ q_receive evs = [EvFrameAdded fd].
Proof. split; [apply (bool_decide_unpack _); by vm_compute|]. split; [eexists; by vm_compute|]. by vm_compute. Qed.

(** ** C36: the queue keeps order and coalesces *)
Theorem C36_subsequence evs : sublist (q_receive evs) evs.
Proof. exact (q_receive_sublist evs). Qed.
Print Assumptions C36_subsequence.

Theorem C36_flush_delivers_the_queue {H : Type} (react : H -> event -> H * list event) q h fuel :
  (forall h e, (react h e).2 = []) -> length q < fuel ->
  exists h', nq_flush react fuel h (nq_of q) = (h', q, (length q, []), Ret tt).
Proof. exact (fun Hr Hl => flush_queue react q h fuel Hr Hl). Qed.
Print Assumptions C36_flush_delivers_the_queue.

Theorem C36_one_modification evs a b x y : is_modify x -> is_modify y -> on_edge a b x -> on_edge a b y -> ~ sublist [x; y] (q_receive evs).
Proof. exact (one_modify evs a b x y). Qed.
Print Assumptions C36_one_modification.

Theorem C36_latest_modification a b e1 x e2 : is_modify x -> on_edge a b x -> (forall z, z ∈ e2 -> is_modify z -> ~ on_edge a b z) ->
  (forall y, y ∈ q_receive (e1 ++ x :: e2) -> is_modify y -> on_edge a b y -> y = x) /\
  ((forall z, z ∈ e2 -> is_remove z -> ~ on_edge a b z) -> x ∈ q_receive (e1 ++ x :: e2)).
Proof. exact (latest_modification a b e1 x e2). Qed.
Print Assumptions C36_latest_modification.

Theorem C36_added_and_removed a b e1 x e2 y e3 : on_edge a b x -> is_add x -> on_edge a b y -> is_remove y ->
  (forall z, z ∈ e2 -> is_remove z -> ~ on_edge a b z) -> (forall z, z ∈ e3 -> ~ on_edge a b z) ->
  forall z, z ∈ q_receive (e1 ++ x :: e2 ++ y :: e3) -> ~ on_edge a b z.
Proof. exact (added_removed_gone a b e1 x e2 y e3). Qed.
Print Assumptions C36_added_and_removed.

Example C36_case : q_receive [EvEdgeAdded fa fb 1; EvEdgeModified fb fa 1 2; EvEdgeAdded fb fc 3; EvEdgeModified fa fb 2 1; EvEdgeModified fb fc 3 4;
    EvItemAdded fa 7; EvEdgeRemoved fb fa; EvEdgeModified fc fb 4 3]
  = [EvEdgeAdded fb fc 3; EvItemAdded fa 7; EvEdgeModified fc fb 4 3].
Proof. by vm_compute. Qed.

(** ** C37: flushed events are applicable in order *)
(* Missing: edges removed twice (C35) and frames added and removed with item events in between, see below. *)
Theorem C37_applicable_partial evs r0 r : sound_replica r0 -> replay evs r0 = Some r -> removed_once r0 evs -> no_short_lived_items evs ->
  exists r', replay (q_receive evs) r0 = Some r'.
Proof. exact (fun H1 H2 H3 H4 => ex_intro _ r (queue_replays evs r0 r H1 H2 H3 H4)). Qed.
Print Assumptions C37_applicable_partial.

(* The item events of a frame that was added and removed stay in the queue although the frame events are gone. *)
Theorem C37_item_events_refuted f i r0 : f ∉ r_frames r0 -> (forall a b, (a, b) ∈ r_edges r0 -> a <> f /\ b <> f) ->
  (forall g j, (g, j) ∈ r_items r0 -> g <> f) ->
  let evs := [EvFrameAdded f; EvItemAdded f i; EvItemRemoved f i; EvFrameRemoved f] in
  replay evs r0 = Some r0 /\ q_receive evs = [EvItemAdded f i; EvItemRemoved f i] /\ replay (q_receive evs) r0 = None.
Proof. exact (short_lived_items f i r0). Qed.
Print Assumptions C37_item_events_refuted.

Example C37_case : fd ∉ r_frames qrep /\ (forall a b, (a, b) ∈ r_edges qrep -> a <> fd /\ b <> fd) /\ (forall g j, (g, j) ∈ r_items qrep -> g <> fd).
Proof. exact qrep_no_fd. Qed.

(** ** C68: flush with a receiver that changes the graph *)
(* No undefined behaviour as long as no event received during process supersedes the event being processed; then all
   events, also the new ones, are processed (or the receiver goes on for ever).  Missing: see below. *)
Theorem C68_flush_reentrant_partial {H : Type} (react : H -> event -> H * list event) fuel h q :
  (forall h e new, new ∈ (react h e).2 -> mergeable e new = false) ->
  let '(_, _, nq, r) := nq_flush react fuel h (nq_of q) in r = Fuel \/ r = Ret tt /\ nq.2 = [].
Proof. exact (fun Hr => flush_no_ub react Hr fuel h (nq_of q) (proj1 (nq_of_fresh q))). Qed.
Print Assumptions C68_flush_reentrant_partial.

(* If the receiver causes an event that supersedes the one being processed (e.g. modifies the same edge again), the
   element under the iterator is erased: undefined behaviour, for every queue. *)
Theorem C68_flush_reentrant_refuted {H : Type} (react : H -> event -> H * list event) fuel h e q h1 evs new :
  react h e = (h1, evs) -> new ∈ evs -> mergeable e new = true ->
  exists nq', nq_flush react (S fuel) h (nq_of (e :: q)) = (h1, [e], nq', UB).
Proof. exact (flush_reentrant react fuel h e q h1 evs new). Qed.
Print Assumptions C68_flush_reentrant_refuted.

Example C68_case : qreact 2 (EvEdgeModified fa fb 1 2) = (1, [EvEdgeModified fb fa 2 1]) /\
  mergeable (EvEdgeModified fa fb 1 2) (EvEdgeModified fb fa 2 1) = true /\
  (forall h e new, new ∈ (qreact2 h e).2 -> mergeable e new = false) /\
  exists h nq, nq_flush qreact2 9 2 (nq_of [EvFrameAdded fa; EvFrameAdded fb]) =
    (h, [EvFrameAdded fa; EvFrameAdded fb; EvItemAdded fa 2; EvItemAdded fb 1], nq, Ret tt).
Proof. split; [done|]. split; [done|]. split; [exact qreact2_ok|]. eexists _, _. by vm_compute. Qed.
