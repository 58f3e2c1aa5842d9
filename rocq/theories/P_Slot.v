(** Properties of the signals of tree views as their slots find them: C97. *)
From stdpp Require Import prelude strings gmap.
From Coq Require Import ZArith.
From Verif Require Import ListLib Outcome Digraph Bfs TreeView GraphModel GraphOps GraphWf GraphStep GraphThms SpecObs SpecWalk SpecTree SpecView
  VisitThms ViewRun SlotModel SpecSlot SlotThms SlotThms2 ExGraph ExView.

(** ** C97: what slots see *)

(* The states at the emissions are those of the calls of C01-C30: the same final state, events and outcome. *)
Theorem C97_same_calls {D E} (d0 : D) (einv : E -> E) ord op s s' tr r :
  gsee d0 einv ord op s = (s', tr, r) -> gstep d0 einv ord op s = (s', events_in tr, r).
Proof. exact (same_calls d0 einv ord op s s' tr r). Qed.
Print Assumptions C97_same_calls.

(* At every emission of a view, its tree is what the signals so far, this one included, say; at the end of the call too.  The log
   of the view is the list of its emissions. *)
Theorem C97_hears {D E} (d0 : D) (einv : E -> E) i ord op (s s' : gst D E) tr r w : keeps_view i op ->
  gsee d0 einv ord op s = (s', tr, r) -> gs_views s !! i = Some w ->
  (exists w', gs_views s' !! i = Some w' /\ tv_log w' = tv_log w ++ sigs_in i tr /\
     forall p c, child w' p c <-> heard_all (child w) (sigs_in i tr) p c) /\
  forall l1 x st l2, tr = l1 ++ inr (Seen i x st) :: l2 -> exists w1, gs_views st !! i = Some w1 /\
    tv_log w1 = tv_log w ++ sigs_in i l1 /\ forall p c, child w1 p c <-> heard_all (child w) (sigs_in i l1 ++ [x]) p c.
Proof. exact (fun Hk H => gsee_hears d0 einv i ord op s s' tr r Hk H w). Qed.
Print Assumptions C97_hears.

(* The full statement is for all views.  Proved for views in step with the graph, and for views without vertices and cross edges
   that a tree is asked for; whatever the outcome of the call. *)
Theorem C97_contract_partial {D E} (d0 : D) (einv : E -> E) ord op (s s' : gst D E) tr r i x st w :
  reachable d0 einv s -> op_noself op -> ord_ok (ord i) ->
  gsee d0 einv ord op s = (s', tr, r) -> inr (Seen i x st) ∈ tr -> gs_views s !! i = Some w ->
  (asks_tree i op /\ tv_tree w = ∅ /\ tv_cross w = []) \/ (~ asks_tree i op /\ in_sync (gs_dg s) w) ->
  seen_ok (Seen i x st).
Proof. exact (contract d0 einv ord op s s' tr r i x st w). Qed.
Print Assumptions C97_contract_partial.

(* For calls that remove edges it is enough that the view is a tree of vertices of the graph: also after a removal threw. *)
Theorem C97_removal {D E} (d0 : D) (einv : E -> E) ord op (s s' : gst D E) tr r i x st w :
  removes op -> ord_ok (ord i) -> gsee d0 einv ord op s = (s', tr, r) ->
  gs_views s !! i = Some w -> is_tree w -> (forall v, tv_vertex_exists w v = true -> bg_alive (gs_dg s) v = true) ->
  inr (Seen i x st) ∈ tr -> seen_ok (Seen i x st).
Proof. exact (removal_contract d0 einv ord op s s' tr r i x st w). Qed.
Print Assumptions C97_removal.

(* The slots find the graph as the call leaves it, the views subscribed earlier as the call leaves them and the other views as they
   were. *)
Theorem C97_others {D E} (d0 : D) (einv : E -> E) ord op (s s' : gst D E) tr r i x st :
  reachable d0 einv s -> op_noself op -> one_edge op -> gsee d0 einv ord op s = (s', tr, r) -> inr (Seen i x st) ∈ tr ->
  i ∈ gs_subs s /\ gs_dg st = gs_dg s' /\ gs_subs st = gs_subs s /\
  (forall j, earlier (gs_subs s) j i -> gs_views st !! j = gs_views s' !! j) /\
  (forall j, j <> i -> ~ earlier (gs_subs s) j i -> gs_views st !! j = gs_views s !! j).
Proof. exact (other_views d0 einv ord op s s' tr r i x st). Qed.
Print Assumptions C97_others.

(* The signals come before the event of an added edge and after the event of a removed one. *)
Theorem C97_order {D E} (d0 : D) (einv : E -> E) ord op (s s' : gst D E) tr r l1 x l2 :
  reachable d0 einv s -> op_noself op -> one_edge op -> gsee d0 einv ord op s = (s', tr, r) -> tr = l1 ++ inr x :: l2 ->
  (forall o t e, inl (EvEdgeAdded o t e) ∉ l1) /\ (forall o t, inl (EvEdgeRemoved o t) ∉ l2).
Proof. exact (signal_order d0 einv ord op s s' tr r l1 x l2). Qed.
Print Assumptions C97_order.

(* Only subscribed views emit signals, and the view a tree is asked for. *)
Theorem C97_where {D E} (d0 : D) (einv : E -> E) ord op (s s' : gst D E) tr r i x st :
  reachable d0 einv s -> op_noself op -> gsee d0 einv ord op s = (s', tr, r) -> inr (Seen i x st) ∈ tr ->
  i ∈ gs_subs s \/ asks_tree i op.
Proof. exact (emission_where d0 einv ord op s s' tr r i x st). Qed.
Print Assumptions C97_where.

(* "Otherwise they'll never be invoked" is false: a view that is not to be updated emits signals while it is filled, whenever its root
   has a neighbour. *)
Theorem C97_not_updating_refuted {D E} (d0 : D) (einv : E -> E) ord (s : gst D E) root i w v :
  reachable d0 einv s -> bg_alive (gs_dg s) root = true -> adjacent (gs_dg s) root v ->
  gs_views s !! i = Some w -> tv_tree w = ∅ -> tv_cross w = [] ->
  exists x, inr x ∈ snd (fst (gsee d0 einv ord (OGetTreeV root false i) s)) /\ sn_view x = i.
Proof. exact (not_updating d0 einv ord s root i w v). Qed.
Print Assumptions C97_not_updating_refuted.

(* The names of the signals in a trace, with the views that emit them. *)
Definition shown (tr : list (event + seen nat Z)) : list (event + viewid * vsig) :=
  (fun m => match m with inl e => inl e | inr x => inr (sn_view x, sn_sig x) end) <$> tr.

(* Joining two components: four signals of a subscribed view in step with the graph, then the event. *)
Example C97_case : let s := xstate ops5 in let op := OAddEdge fd "f" 3%Z in
  reachable 0 Z.opp s /\ op_noself op /\ one_edge op /\ keeps_view 1 op /\ ord_ok (xord 1) /\ 1 ∈ gs_subs s /\
  gs_views s !! 1 = Some (xview 1 s) /\ ~ asks_tree 1 op /\ in_sync (gs_dg s) (xview 1 s) /\
  shown (snd (fst (gsee 0 Z.opp xord op s))) =
    [inr (1, SigAdded 4 6); inr (1, SigAdded 6 5); inr (1, SigAdded 6 7); inr (1, SigCross (Cross 5 7 13));
     inl (EvEdgeAdded fd "f" 15)].
Proof.
  cbv zeta. split; [exact ops5_reachable|]. split; [done|]. split; [done|]. split; [done|]. split; [by intros ? ? ?|].
  split; [apply (bool_decide_unpack _); by vm_compute|]. split; [by vm_compute|]. split; [by intros ?|].
  split; [exact ops5_sync|]. by vm_compute.
Qed.

(* A removal that throws because of a cross edge: the signal is emitted all the same. *)
Example C97_removal_case : let s := xstate ops5 in let op := ORemoveEdge fa fb in
  removes op /\ ord_ok (xord 1) /\ gs_views s !! 1 = Some (xview 1 s) /\ is_tree (xview 1 s) /\
  (forall v, tv_vertex_exists (xview 1 s) v = true -> bg_alive (gs_dg s) v = true) /\
  let '(s', tr, r) := gsee 0 Z.opp xord op s in
  r = Throw XRuntime /\ shown tr = [inl (EvEdgeRemoved fa fb); inr (1, SigRemoved 1 2)].
Proof.
  cbv zeta. split; [done|]. split; [by intros ? ? ?|]. split; [by vm_compute|].
  destruct (sync_alive_tree Z.opp _ _ (reachable_wf 0 Z.opp _ ops5_reachable) ops5_sync) as [Ht Ha].
  split; [exact Ht|]. split; [exact Ha|]. by vm_compute.
Qed.

(* Two subscribed views: at the first signal of the second one, the first is as the call leaves it. *)
Example C97_others_case : let s := xstate (ops5 ++ [ONewView 2; OGetTree fa true 2; ONewView 3]) in let op := OAddEdge fd "f" 3%Z in
  reachable 0 Z.opp s /\ op_noself op /\ one_edge op /\ gs_subs s = [1; 2] /\ earlier (gs_subs s) 1 2 /\ ~ earlier (gs_subs s) 2 1 /\
  shown (take 5 (snd (fst (gsee 0 Z.opp xord op s)))) =
    [inr (1, SigAdded 4 6); inr (1, SigAdded 6 5); inr (1, SigAdded 6 7); inr (1, SigCross (Cross 5 7 13)); inr (2, SigAdded 4 6)].
Proof.
  cbv zeta. split; [apply xstate_reachable; [by repeat constructor|by vm_compute]|]. split; [done|]. split; [done|].
  assert (Hs : gs_subs (xstate (ops5 ++ [ONewView 2; OGetTree fa true 2; ONewView 3])) = [1; 2]) by by vm_compute.
  split; [exact Hs|]. rewrite Hs. split; [exists [1], []; split; [done|by left]|]. split; [|by vm_compute].
  intros (l1 & l2 & Hl & H2). destruct l1 as [|x [|y l1]]; [by apply elem_of_nil in H2| |].
  - cbn in Hl. injection Hl as <- Hl. done.
  - cbn in Hl. injection Hl as <- <- Hl. by destruct l1.
Qed.

(* A view that is not to be updated is filled with four signals. *)
Example C97_not_updating_case : let s := xstate (ops5 ++ [ONewView 2]) in
  reachable 0 Z.opp s /\ bg_alive (gs_dg s) 1 = true /\ adjacent (gs_dg s) 1 2 /\ gs_views s !! 2 = Some tv_new /\
  tv_tree tv_new = ∅ /\ tv_cross tv_new = [] /\ 2 ∉ gs_subs s /\ asks_tree 2 (OGetTreeV (D := nat) (E := Z) 1 false 2) /\
  shown (snd (fst (gsee 0 Z.opp xord (OGetTreeV 1 false 2) s))) =
    [inr (2, SigAdded 1 2); inr (2, SigAdded 1 3); inr (2, SigCross (Cross 2 3 3)); inr (2, SigAdded 3 4)].
Proof.
  cbv zeta. split; [apply xstate_reachable; [by repeat constructor|by vm_compute]|]. split; [by vm_compute|].
  split; [apply adjacent_bool; by vm_compute|]. split; [by vm_compute|]. split; [done|]. split; [done|].
  split; [apply (bool_decide_unpack _); by vm_compute|]. split; [done|]. by vm_compute.
Qed.
