(** Properties of tree views under removals, their visitors and signals: C19, C20, C22-C24. *)
From stdpp Require Import prelude strings gmap.
From Verif Require Import Outcome Digraph TreeView GraphModel GraphOps SpecStore SpecObs SpecWalk SpecTree SpecView SpecCross
  GraphStep WalkThms VisitThms RemoveThms ViewRemove ViewCross ViewLifeThms ExGraph ExView.

(** ** C19: a subscribed view follows removals

    The full statement is: after remove_edge(a, b) returns or throws, every subscribed view that was in step
    with the graph is in step again ([in_sync]).  It does not hold; the three theorems below say exactly where it
    fails, the last one where it holds. *)

(** Removing an edge that a view lists as cross edge leaves that entry behind. *)
Theorem C19_removed_cross_edge_refuted {D E : Type} (d0 : D) (einv : E -> E) (s : gst D E) a b o t ord i w :
  reachable d0 einv s ->
  get_vertex s a = Ret o -> get_vertex s b = Ret t -> adjacent (gs_dg s) o t ->
  (forall i, ord_ok (ord i)) ->
  (forall i w, i ∈ gs_subs s -> gs_views s !! i = Some w -> in_sync (gs_dg s) w /\ prunable w o t) ->
  i ∈ gs_subs s -> gs_views s !! i = Some w -> filter (between o t) (tv_cross w) <> [] ->
  exists s', remove_edge ord a b s = (s', [EvEdgeRemoved a b], Ret tt) /\
    gs_views s' !! i = Some w /\ ~ in_sync (gs_dg s') w.
Proof. exact (remove_edge_stale d0 einv s a b o t ord i w). Qed.
Print Assumptions C19_removed_cross_edge_refuted.

(** Removing a tree edge below which cross edges leave: an exception, and the view has lost vertices that are
    still connected to its root. *)
Theorem C19_leaving_cross_edge_refuted {D E : Type} (d0 : D) (einv : E -> E) (s : gst D E) a b o t ord i w p c :
  reachable d0 einv s ->
  get_vertex s a = Ret o -> get_vertex s b = Ret t -> adjacent (gs_dg s) o t ->
  (forall i, ord_ok (ord i)) -> gs_subs s = [i] -> gs_views s !! i = Some w -> in_sync (gs_dg s) w ->
  child w p c -> same_ends o t p c -> no_cross_inside w c -> ~ no_cross_below w c ->
  exists s' w', remove_edge ord a b s = (s', [EvEdgeRemoved a b], Throw XRuntime) /\
    (forall u v, adjacent (gs_dg s') u v <-> adjacent (gs_dg s) u v /\ ~ same_ends o t u v) /\
    gs_views s' !! i = Some w' /\ is_tree w' /\ pruned w c w' /\ ~ spanning (gs_dg s') w'.
Proof. exact (remove_edge_leaving d0 einv s a b o t ord i w p c). Qed.
Print Assumptions C19_leaving_cross_edge_refuted.

(** Several cross edges inside the part below the removed tree edge: undefined behaviour. *)
Theorem C19_inner_cross_edges_refuted :
  exists s : gst nat Z, reachable 0 Z.opp s /\ contains_edge s "r" fa = Ret true /\
    snd (remove_edge xord "r" fa s) = UB.
Proof. exists (xstate ops6). split; [exact ops6_reachable|]. by vm_compute. Qed.
Print Assumptions C19_inner_cross_edges_refuted.

(** Where it holds: removing an edge that is no tree edge leaves a spanning tree, and the view is in step if the
    edge was not listed as cross edge; removing a tree edge below which there is no cross edge leaves the view in
    step.  Missing for the full statement: see the three theorems above. *)
Theorem C19_view_follows_removals_partial {D E : Type} (d0 : D) (einv : E -> E) (s : gst D E) a b o t ord :
  reachable d0 einv s ->
  get_vertex s a = Ret o -> get_vertex s b = Ret t -> adjacent (gs_dg s) o t ->
  (forall i, ord_ok (ord i)) ->
  (forall i w, i ∈ gs_subs s -> gs_views s !! i = Some w -> in_sync (gs_dg s) w /\ prunable w o t) ->
  exists s', remove_edge ord a b s = (s', [EvEdgeRemoved a b], Ret tt) /\
    (forall u v, adjacent (gs_dg s') u v <-> adjacent (gs_dg s) u v /\ ~ same_ends o t u v) /\
    gs_subs s' = gs_subs s /\ (forall j, j ∉ gs_subs s -> gs_views s' !! j = gs_views s !! j) /\
    forall i w, i ∈ gs_subs s -> gs_views s !! i = Some w ->
      exists w', gs_views s' !! i = Some w' /\ spanning (gs_dg s') w' /\
       (filter (between o t) (tv_cross w) = [] -> in_sync (gs_dg s') w') /\
       (~ (child w o t \/ child w t o) -> w' = w) /\
       (forall p c, child w p c -> same_ends o t p c -> pruned w c w' /\ in_sync (gs_dg s') w').
Proof. exact (remove_edge_views d0 einv s a b o t ord). Qed.
Print Assumptions C19_view_follows_removals_partial.

(** The view of [ops5]: 1 -> 2, 3; 3 -> 4; cross edge 2-3.  Removing b-c is the first case, a-c the second. *)
Example C19_case :
  let s := xstate ops5 in let w := xview 1 s in
  reachable 0 Z.opp s /\ (forall i, ord_ok (xord i)) /\ gs_subs s = [1] /\ gs_views s !! 1 = Some w /\
  in_sync (gs_dg s) w /\ tv_cross w = [Cross 2 3 3] /\
  (get_vertex s fb = Ret 2 /\ get_vertex s fc = Ret 3 /\ adjacent (gs_dg s) 2 3 /\ prunable w 2 3 /\
   filter (between 2 3) (tv_cross w) <> []) /\
  (get_vertex s fa = Ret 1 /\ adjacent (gs_dg s) 1 3 /\ child w 1 3 /\ no_cross_inside w 3 /\ ~ no_cross_below w 3).
Proof.
  cbv zeta. split; [exact ops5_reachable|]. split; [by intros i v w l|]. split; [by vm_compute|]. split; [by vm_compute|].
  split; [exact ops5_sync|]. split; [by vm_compute|]. split.
  - split; [by vm_compute|]. split; [by vm_compute|]. split; [apply adjacent_bool; by vm_compute|].
    split; [|by vm_compute]. intros p c Hc%child_bool [[-> ->]|[-> ->]]; by vm_compute in Hc.
  - split; [by vm_compute|]. split; [apply adjacent_bool; by vm_compute|].
    split; [apply child_bool; by vm_compute|].
    assert (Hb : forall v, linked (child (xview 1 (xstate ops5))) 3 v -> v ∈ [3; 4]).
    { apply below_closed. by vm_compute. }
    replace (tv_cross (xview 1 (xstate ops5))) with [Cross 2 3 3] by by vm_compute. split.
    + intros x. replace (tv_cross (xview 1 (xstate ops5))) with [Cross 2 3 3] by by vm_compute.
      intros ->%elem_of_list_singleton [H2%Hb _]. cbn in H2. set_solver.
    + intros H. destruct (H (Cross 2 3 3) 3) as [_ Hn]; [|apply linked_refl|done].
      replace (tv_cross (xview 1 (xstate ops5))) with [Cross 2 3 3] by by vm_compute. by left.
Qed.

(** What removing a tree edge does, for every view: undefined behaviour, or the part below the edge is gone with the cross
    edges inside it.  In the second case the view is in step and the call returns exactly if no cross edge leaves that
    part; otherwise it throws.  If no cross edge leaves, undefined behaviour is avoided exactly if the visit of the part
    completes the cross edges inside it in the opposite order of their listing; in particular with at most one. *)
Theorem C19_tree_edge_outcome {D E : Type} (d0 : D) (einv : E -> E) (s : gst D E) a b o t ord i w p c :
  reachable d0 einv s ->
  get_vertex s a = Ret o -> get_vertex s b = Ret t ->
  (forall i, ord_ok (ord i)) -> gs_subs s = [i] -> gs_views s !! i = Some w -> in_sync (gs_dg s) w ->
  child w p c -> same_ends o t p c ->
  exists s' w' r, remove_edge ord a b s = (s', [EvEdgeRemoved a b], r) /\
    (forall u v, adjacent (gs_dg s') u v <-> adjacent (gs_dg s) u v /\ ~ same_ends o t u v) /\
    gs_views s' !! i = Some w' /\
    ((r = UB /\ w' = w) \/
     (r = Ret tt /\ (forall x, x ∈ tv_cross w -> ~ leaving w c x) /\ trimmed w c w' /\ in_sync (gs_dg s') w') \/
     (r = Throw XRuntime /\ (exists x, x ∈ tv_cross w /\ leaving w c x) /\ is_tree w' /\ trimmed w c w' /\
      ~ spanning (gs_dg s') w')) /\
    ((forall x, x ∈ tv_cross w -> ~ leaving w c x) ->
     (r = Ret tt <-> backwards w c (fst <$> fst (tv_visit_bfs (S (size (tv_tree w))) (ord i) w [c])))).
Proof. exact (remove_tree_edge d0 einv s a b o t ord i w p c). Qed.
Print Assumptions C19_tree_edge_outcome.

(** The view of [ops7]: 1 -> 2 -> 3, 4 with the cross edge 3-4 inside; the removal of r-a is defined.  In the view of
    [ops6] there are three cross edges inside, and it is not. *)
Example C19_outcome_case :
  let s := xstate (ops7 ++ [OGetTree "r" true 1]) in let w := xview 1 s in
  reachable 0 Z.opp s /\ get_vertex s "r" = Ret 1 /\ get_vertex s fa = Ret 2 /\ gs_subs s = [1] /\ gs_views s !! 1 = Some w /\
  in_sync (gs_dg s) w /\ child w 1 2 /\ inside w 2 (Cross 3 4 7) /\
  tv_cross w = [Cross 3 4 7] /\ snd (remove_edge xord "r" fa s) = Ret tt /\
  length (tv_cross (xview 1 (xstate ops6))) = 3 /\ snd (remove_edge xord "r" fa (xstate ops6)) = UB.
Proof.
  cbv zeta. split; [exact ops7_reachable|]. split; [by vm_compute|]. split; [by vm_compute|]. split; [by vm_compute|].
  split; [by vm_compute|]. split; [exact ops7_sync|]. split; [apply child_bool; by vm_compute|].
  split; [split; apply linked_step, child_bool; by vm_compute|]. split; [by vm_compute|]. split; [by vm_compute|].
  split; by vm_compute.
Qed.

(** ** C20: removing a bridge prunes exactly the vertices no longer reachable *)
Theorem C20_bridge_removal_prunes {D E : Type} (d0 : D) (einv : E -> E) (s : gst D E) a b o t ord :
  reachable d0 einv s ->
  get_vertex s a = Ret o -> get_vertex s b = Ret t -> adjacent (gs_dg s) o t ->
  (forall i, ord_ok (ord i)) ->
  (forall i w, i ∈ gs_subs s -> gs_views s !! i = Some w -> in_sync (gs_dg s) w /\ prunable w o t) ->
  exists s', remove_edge ord a b s = (s', [EvEdgeRemoved a b], Ret tt) /\
    forall i w p c, i ∈ gs_subs s -> gs_views s !! i = Some w -> child w p c -> same_ends o t p c ->
      exists w', gs_views s' !! i = Some w' /\ in_sync (gs_dg s') w' /\ tv_root w' = tv_root w /\
        (forall v, tv_vertex_exists w v = true ->
           (tv_vertex_exists w' v = false <-> ~ linked (adjacent (gs_dg s')) (tv_root w) v)) /\
        (forall v, tv_vertex_exists w' v = true -> tv_vertex_exists w v = true) /\
        (exists l, tv_log w' = tv_log w ++ ((fun x => SigRemoved (fst x) (snd x)) <$> l) /\ NoDup l.*2 /\
           (forall q v, (q, v) ∈ l <->
              tv_vertex_exists w v = true /\ tv_vertex_exists w' v = false /\ tv_get_parent w v = Ret q) /\
           (forall x y q v q', l !! x = Some (q, v) -> l !! y = Some (q', q) -> x < y)).
Proof. exact (remove_bridge d0 einv s a b o t ord). Qed.
Print Assumptions C20_bridge_removal_prunes.

(** In the view of [ops5] the edge c-d (3-4) is a bridge. *)
Example C20_case :
  let s := xstate ops5 in let w := xview 1 s in
  reachable 0 Z.opp s /\ (forall i, ord_ok (xord i)) /\ gs_subs s = [1] /\ gs_views s !! 1 = Some w /\
  in_sync (gs_dg s) w /\ get_vertex s fc = Ret 3 /\ get_vertex s fd = Ret 4 /\ adjacent (gs_dg s) 3 4 /\
  child w 3 4 /\ prunable w 3 4 /\
  drop (length (tv_log w)) (tv_log (xview 1 (fst (fst (remove_edge xord fc fd s))))) = [SigRemoved 3 4].
Proof.
  cbv zeta. split; [exact ops5_reachable|]. split; [by intros i v w l|]. split; [by vm_compute|]. split; [by vm_compute|].
  split; [exact ops5_sync|]. split; [by vm_compute|]. split; [by vm_compute|].
  split; [apply adjacent_bool; by vm_compute|].
  split; [apply child_bool; by vm_compute|]. split; [|by vm_compute].
  intros p c Hc%child_bool Hends. assert (c = 4) as ->.
  { destruct Hends as [[-> ->]|[-> ->]]; [done|by vm_compute in Hc]. }
  assert (Hb : forall v, linked (child (xview 1 (xstate ops5))) 4 v -> v ∈ [4]).
  { apply below_closed. by vm_compute. }
  intros x v. replace (tv_cross (xview 1 (xstate ops5))) with [Cross 2 3 3] by by vm_compute.
  intros ->%elem_of_list_singleton ->%Hb%elem_of_list_singleton. clear. cbn. lia.
Qed.

(** ** C22: the visitors call back once per vertex, parents first *)
Theorem C22_visitBfs (w : tview) (n : vid) (ord : order) (fuel : nat) :
  is_tree w -> tv_vertex_exists w n = true -> ord_ok ord -> size (tv_tree w) <= fuel ->
  exists l, tv_visit_bfs fuel ord w [n] = (l, Ret tt) /\ visits w n l.
Proof. exact (fun Ht Hn => bfs_visits w Ht n Hn ord fuel). Qed.
Print Assumptions C22_visitBfs.

Theorem C22_visitDfs (w : tview) (n : vid) (ord : order) (fuel : nat) :
  is_tree w -> tv_vertex_exists w n = true -> ord_ok ord -> size (tv_tree w) <= fuel ->
  exists l, tv_visit_dfs fuel ord w [n] = (l, Ret tt) /\ visits w n l.
Proof. exact (fun Ht Hn => dfs_visits w Ht n Hn ord fuel). Qed.
Print Assumptions C22_visitDfs.

Example C22_case : let w := xview 1 (xstate ops5) in
  is_tree w /\ tv_vertex_exists w 3 = true /\ size (tv_tree w) = 4 /\
  tv_visit_bfs 4 (xord 0) w [1] = ([(1, 0); (2, 1); (3, 1); (4, 3)], Ret tt).
Proof. cbv zeta. split; [apply ops5_sync|]. by vm_compute. Qed.

(** ** C23: the signals describe the tree *)
Theorem C23_signals_describe_tree {D E : Type} (d0 : D) (einv : E -> E) (s : gst D E) i w h s' ev r :
  reachable d0 einv s -> i ∈ gs_subs s -> gs_views s !! i = Some w ->
  hist_noself h -> Forall (fun x => op_not i (snd x)) h -> run d0 einv h s = (s', ev, r) -> ok r ->
  exists w' l, gs_views s' !! i = Some w' /\ tv_log w' = tv_log w ++ l /\
    forall p c, child w' p c <-> heard_all (child w) l p c.
Proof. exact (signals_heard d0 einv s i w h s' ev r). Qed.
Print Assumptions C23_signals_describe_tree.

(** A slot connected to edgeAdded and edgeRemoved stays connected, and the calls it gets describe the tree. *)
Theorem C23_connected_slots {D E : Type} (d0 : D) (einv : E -> E) (s : gst D E) i w h s' ev r :
  reachable d0 einv s -> i ∈ gs_subs s -> gs_views s !! i = Some w ->
  hist_noself h -> Forall (fun x => op_not i (snd x)) h -> Forall (fun x => op_no_slot i (snd x)) h ->
  run d0 einv h s = (s', ev, r) -> ok r ->
  exists w' l, gs_views s' !! i = Some w' /\ tv_log w' = tv_log w ++ l /\ same_slots w w' /\
    forall c, c ∈ slots_of KAdded w -> c ∈ slots_of KRemoved w ->
      forall p q, child w' p q <-> heard_all (child w) (told_to c w l) p q.
Proof. exact (slots_hear d0 einv s i w h s' ev r). Qed.
Print Assumptions C23_connected_slots.

Theorem C23_getTree_signals {D E : Type} (s : gst D E) rf root keep i w s' ev r :
  gs_views s !! i = Some w -> get_vertex s rf = Ret root -> get_tree rf keep i s = (s', ev, r) -> ok r ->
  exists w' l, gs_views s' !! i = Some w' /\ tv_log w' = tv_log w ++ l /\
    forall p c, child w' p c <-> heard_all (child w) l p c.
Proof. exact (get_tree_heard s rf root keep i w s' ev r). Qed.
Print Assumptions C23_getTree_signals.

Example C23_case : let s := xstate ops5 in
  reachable 0 Z.opp s /\ 1 ∈ gs_subs s /\ gs_views s !! 1 = Some (xview 1 s) /\
  let h := xhist [OAddEdge fd "f" 3%Z; ORemoveEdge fd "f"] in
  hist_noself h /\ Forall (fun x => op_not 1 (snd x)) h /\
  exists s' ev, run 0 Z.opp h s = (s', ev, Ret tt) /\
    drop (length (tv_log (xview 1 s))) (tv_log (xview 1 s')) =
      [SigAdded 4 6; SigAdded 6 5; SigAdded 6 7; SigCross (Cross 5 7 13);
       SigRemoved 6 7; SigRemoved 6 5; SigRemoved 4 6].
Proof.
  cbv zeta. split; [exact ops5_reachable|]. split; [apply (bool_decide_unpack _); by vm_compute|]. split; [by vm_compute|].
  split; [repeat constructor; done|]. split; [repeat constructor; done|].
  eexists _, _. split; [by vm_compute|]. by vm_compute.
Qed.

Example C23_slots_case : let s := xstate (ops5 ++ [OSlotView 1 KAdded true 7; OSlotView 1 KRemoved true 7]) in
  reachable 0 Z.opp s /\ 1 ∈ gs_subs s /\ gs_views s !! 1 = Some (xview 1 s) /\
  7 ∈ slots_of KAdded (xview 1 s) /\ 7 ∈ slots_of KRemoved (xview 1 s) /\
  let h := xhist [OAddEdge fd "f" 3%Z; ORemoveEdge fd "f"] in
  hist_noself h /\ Forall (fun x => op_not 1 (snd x)) h /\ Forall (fun x => op_no_slot 1 (snd x)) h /\
  exists s' ev, run 0 Z.opp h s = (s', ev, Ret tt) /\
    told_to 7 (xview 1 s) (drop (length (tv_log (xview 1 s))) (tv_log (xview 1 s'))) =
      [SigAdded 4 6; SigAdded 6 5; SigAdded 6 7; SigRemoved 6 7; SigRemoved 6 5; SigRemoved 4 6].
Proof.
  cbv zeta. split; [apply xstate_reachable; [by repeat constructor|by vm_compute]|].
  do 4 (split; [first [by vm_compute|apply (bool_decide_unpack _); by vm_compute]|]).
  split; [repeat constructor; done|]. split; [repeat constructor; done|]. split; [repeat constructor; done|].
  eexists _, _. split; [by vm_compute|]. by vm_compute.
Qed.

(** ** C24: moving and copying a view *)

(** The full statement asks for all three signals' connections; edgeRemoved is not carried over: [C24_connections_lost_refuted]. *)
Theorem C24_move_subscribed_view_partial {D E : Type} (d0 : D) (einv : E -> E) (s : gst D E) i j w :
  reachable d0 einv s -> i ∈ gs_subs s -> gs_views s !! i = Some w -> gs_views s !! j = None ->
  exists s' w' wo, move_view i j s = (s', [], Ret tt) /\ gs_dg s' = gs_dg s /\
    i ∉ gs_subs s' /\ filter (fun k => k = j) (gs_subs s') = [j] /\
    filter (fun k => k <> j) (gs_subs s') = filter (fun k => k <> i) (gs_subs s) /\
    gs_views s' !! j = Some w' /\ gs_views s' !! i = Some wo /\ tv_pub wo = false /\
    tv_root w' = tv_root w /\ tv_tree w' = tv_tree w /\ tv_cross w' = tv_cross w /\ tv_pub w' = true /\
    tv_slots_cross w' = tv_slots_cross w /\ tv_slots_added w' = tv_slots_added w /\ tv_slots_removed w' = [] /\
    forall k, k <> i -> k <> j -> gs_views s' !! k = gs_views s !! k.
Proof. exact (move_view_subscribed d0 einv s i j w). Qed.
Print Assumptions C24_move_subscribed_view_partial.

Theorem C24_move_unsubscribed_view_partial {D E : Type} (s : gst D E) i j w :
  gs_views s !! i = Some w -> gs_views s !! j = None -> tv_pub w = false ->
  exists s' w' wo, move_view i j s = (s', [], Ret tt) /\ gs_dg s' = gs_dg s /\ gs_subs s' = gs_subs s /\
    gs_views s' !! j = Some w' /\ gs_views s' !! i = Some wo /\ tv_pub wo = false /\
    tv_root w' = tv_root w /\ tv_tree w' = tv_tree w /\ tv_cross w' = tv_cross w /\ tv_pub w' = false /\
    tv_slots_cross w' = tv_slots_cross w /\ tv_slots_added w' = tv_slots_added w /\ tv_slots_removed w' = [] /\
    forall k, k <> i -> k <> j -> gs_views s' !! k = gs_views s !! k.
Proof. exact (move_view_unsubscribed s i j w). Qed.
Print Assumptions C24_move_unsubscribed_view_partial.

Theorem C24_copy_view {D E : Type} (s : gst D E) i j w :
  gs_views s !! i = Some w -> gs_views s !! j = None ->
  exists s' w', copy_view i j s = (s', [], Ret tt) /\ gs_dg s' = gs_dg s /\ gs_subs s' = gs_subs s /\
    gs_views s' !! j = Some w' /\ tv_root w' = tv_root w /\ tv_tree w' = tv_tree w /\ tv_cross w' = tv_cross w /\
    tv_pub w' = tv_pub w /\ (forall k, slots_of k w' = []) /\
    forall k, k <> j -> gs_views s' !! k = gs_views s !! k.
Proof. exact (copy_view_exact s i j w). Qed.
Print Assumptions C24_copy_view.

(** The connections of edgeRemoved stay with the object that was moved from. *)
Theorem C24_connections_lost_refuted {D E : Type} (s : gst D E) i j w s' w' :
  gs_views s !! i = Some w -> gs_views s !! j = None -> slots_of KRemoved w <> [] ->
  move_view i j s = (s', [], Ret tt) -> gs_views s' !! j = Some w' -> slots_of KRemoved w' = [] /\ ~ same_slots w w'.
Proof. exact (move_loses_slots s i j w s' w'). Qed.
Print Assumptions C24_connections_lost_refuted.

(** A copy of a subscribed view holds the publisher although it is not subscribed; moving the copy subscribes it. *)
Theorem C24_moved_copy_refuted :
  exists s s' : gst nat Z, reachable 0 Z.opp s /\ 2 ∉ gs_subs s /\ move_view 2 3 s = (s', [], Ret tt) /\ 3 ∈ gs_subs s'.
Proof.
  exists (xstate (ops5 ++ [OCopyView 1 2])), (xstate (ops5 ++ [OCopyView 1 2; OMoveView 2 3])).
  split; [apply xstate_reachable; [by repeat constructor|by vm_compute]|].
  split; [apply (bool_decide_unpack _); by vm_compute|]. split; [by vm_compute|]. apply (bool_decide_unpack _); by vm_compute.
Qed.
Print Assumptions C24_moved_copy_refuted.

Example C24_case : let s := xstate (ops5 ++ [OSlotView 1 KCross true 5; OSlotView 1 KAdded true 6; OSlotView 1 KRemoved true 7]) in
  reachable 0 Z.opp s /\ 1 ∈ gs_subs s /\ gs_views s !! 1 = Some (xview 1 s) /\ gs_views s !! 2 = None /\
  tv_slots_cross (xview 1 s) = [5] /\ tv_slots_added (xview 1 s) = [6] /\ tv_slots_removed (xview 1 s) = [7] /\
  exists s', move_view 1 2 s = (s', [], Ret tt) /\ gs_views s' !! 2 = Some (xview 2 s') /\
    tv_slots_cross (xview 2 s') = [5] /\ tv_slots_added (xview 2 s') = [6] /\ tv_slots_removed (xview 2 s') = [].
Proof.
  cbv zeta. split; [apply xstate_reachable; [by repeat constructor|by vm_compute]|].
  split; [apply (bool_decide_unpack _); by vm_compute|]. do 5 (split; [by vm_compute|]).
  eexists. split; [by vm_compute|]. by vm_compute.
Qed.
