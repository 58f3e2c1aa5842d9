(** C74-C77: tree views as values. *)
From stdpp Require Import prelude strings gmap.
From Verif Require Import Outcome Digraph TreeView GraphModel GraphOps SpecStore SpecObs SpecWalk SpecTree SpecView
  ViewObjModel SpecViewObj ViewObjThms ExGraph ExView.

(** ** C74: getTree by value *)

Theorem C74_getTree_by_value {D E : Type} (d0 : D) (einv : E -> E) (s : gst D E) rf root tmp j :
  reachable d0 einv s -> get_vertex s rf = Ret root ->
  gs_views s !! tmp = None -> gs_views s !! j = None -> tmp <> j ->
  exists s' w', get_tree_value rf tmp j s = (s', [], Ret tt) /\ gs_dg s' = gs_dg s /\ gs_subs s' = gs_subs s /\
    gs_views s' !! j = Some w' /\ (forall k, k <> j -> gs_views s' !! k = gs_views s !! k) /\
    in_sync (gs_dg s) w' /\ tv_root w' = root /\ tv_pub w' = false /\
    tv_slots_cross w' = [] /\ tv_slots_added w' = [] /\ tv_slots_removed w' = [] /\
    forall v, tv_vertex_exists w' v = true ->
      exists l, route (child w') root v l /\ shortest (adjacent (gs_dg s)) root v l.
Proof. exact (get_tree_value_ok d0 einv s rf root tmp j). Qed.
Print Assumptions C74_getTree_by_value.

Theorem C74_unknown_root {D E : Type} (d0 : D) (einv : E -> E) (s : gst D E) rf tmp j :
  reachable d0 einv s -> contains_frame s rf = false ->
  get_tree_value rf tmp j s = (s, [], Throw (XUnknownFrame rf)).
Proof. exact (get_tree_value_unknown d0 einv s rf tmp j). Qed.
Print Assumptions C74_unknown_root.

Example C74_case : let s := xstate ops5 in
  reachable 0 Z.opp s /\ get_vertex s "e" = Ret 5 /\ gs_views s !! 8 = None /\ gs_views s !! 9 = None /\
  contains_frame s "nowhere" = false /\
  snd (get_tree_value "e" 8 9 s) = Ret tt /\ length (tv_cross (xview 9 (fst (fst (get_tree_value "e" 8 9 s))))) = 1.
Proof.
  cbv zeta. split; [exact ops5_reachable|]. by vm_compute.
Qed.

(** ** C75: assignment *)

Theorem C75_assignment {D E : Type} (s : gst D E) i j wi wj :
  gs_views s !! i = Some wi -> gs_views s !! j = Some wj ->
  exists s' w', assign_view i j s = (s', [], Ret tt) /\ gs_dg s' = gs_dg s /\ gs_subs s' = gs_subs s /\
    gs_views s' !! i = Some w' /\ (forall k, k <> i -> gs_views s' !! k = gs_views s !! k) /\
    same_view wj w' /\ tv_pub w' = tv_pub wj /\ tv_log w' = tv_log wi /\ tv_slots_cross w' = tv_slots_cross wi /\
    tv_slots_added w' = tv_slots_added wi /\ tv_slots_removed w' = tv_slots_removed wi.
Proof. exact (assign_view_content s i j wi wj). Qed.
Print Assumptions C75_assignment.

(** The full statement has no condition on the right. *)
Theorem C75_no_dangling_view_partial {D E : Type} (d0 : D) (einv : E -> E) (s : gst D E) i j wi wj s' :
  reachable d0 einv s -> gs_views s !! i = Some wi -> gs_views s !! j = Some wj ->
  assign_view i j s = (s', [], Ret tt) ->
  (stays_valid d0 einv s' <-> (i ∈ gs_subs s -> tv_pub wj = true)).
Proof. exact (assign_valid d0 einv s i j wi wj s'). Qed.
Print Assumptions C75_no_dangling_view_partial.

(** A view assigned from another subscribed view goes on following the graph. *)
Theorem C75_assigned_view_follows {D E : Type} (d0 : D) (einv : E -> E) (s : gst D E) rf i j wi wj s1 h s2 ev r :
  reachable d0 einv s -> i ∈ gs_subs s -> j ∈ gs_subs s ->
  gs_views s !! i = Some wi -> gs_views s !! j = Some wj ->
  in_sync (gs_dg s) wj -> get_vertex s rf = Ret (tv_root wj) ->
  assign_view i j s = (s1, [], Ret tt) ->
  hist_noself h -> Forall (fun x => op_not i (snd x)) h ->
  run d0 einv h s1 = (s2, ev, r) -> r <> UB -> r <> Fuel -> growing rf ev ->
  exists w', gs_views s2 !! i = Some w' /\ in_sync (gs_dg s2) w' /\ get_vertex s2 rf = Ret (tv_root w').
Proof. exact (assigned_follows d0 einv s rf i j wi wj s1 h s2 ev r). Qed.
Print Assumptions C75_assigned_view_follows.

(** A subscribed view assigned from a view without publisher and then destroyed: the next new edge does not
    return; if it was the only subscribed view, its pointer is read. *)
Theorem C75_dangling_view_refuted {D E : Type} (d0 : D) (einv : E -> E) (s : gst D E) i j wi wj s1 a b o t p :
  reachable d0 einv s -> gs_views s !! i = Some wi -> gs_views s !! j = Some wj ->
  i ∈ gs_subs s -> tv_pub wj = false -> assign_view i j s = (s1, [], Ret tt) ->
  get_vertex s a = Ret o -> get_vertex s b = Ret t -> find_edge s o t = Ret None ->
  exists s2 s3 ev r, destroy_view i s1 = (s2, [], Ret tt) /\ add_edge d0 einv a b p s2 = (s3, ev, r) /\
    (forall x, r <> Ret x) /\ (gs_subs s = [i] -> r = UB).
Proof. exact (assign_dangling d0 einv s i j wi wj s1 a b o t p). Qed.
Print Assumptions C75_dangling_view_refuted.

(** A view assigned from a subscribed one holds the publisher but is not subscribed, and cannot be subscribed. *)
Theorem C75_assigned_view_not_subscribed {D E : Type} (d0 : D) (einv : E -> E) (s : gst D E) i j wi wj s1 root :
  reachable d0 einv s -> gs_views s !! i = Some wi -> gs_views s !! j = Some wj ->
  i ∉ gs_subs s -> j ∈ gs_subs s -> bg_alive (gs_dg s) root = true -> assign_view i j s = (s1, [], Ret tt) ->
  i ∉ gs_subs s1 /\ (exists s2 ev, get_tree_v root true i s1 = (s2, ev, UB)).
Proof. exact (assign_not_followed d0 einv s i j wi wj s1 root). Qed.
Print Assumptions C75_assigned_view_not_subscribed.

(** View 1 follows the component of a; view 2 is empty. *)
Example C75_case : let s := xstate (ops5 ++ [ONewView 2]) in
  reachable 0 Z.opp s /\ gs_views s !! 1 = Some (xview 1 s) /\ gs_views s !! 2 = Some (xview 2 s) /\
  gs_subs s = [1] /\ tv_pub (xview 2 s) = false /\ tv_pub (xview 1 s) = true /\
  snd (assign_view 1 2 s) = Ret tt /\ snd (assign_view 2 1 s) = Ret tt /\
  get_vertex s fa = Ret 1 /\ get_vertex s "e" = Ret 5 /\ find_edge s 1 5 = Ret None /\ bg_alive (gs_dg s) 5 = true.
Proof.
  cbv zeta. split; [apply xstate_reachable; [by repeat constructor|by vm_compute]|].
  by vm_compute.
Qed.

(** View 2 follows the component of e and is assigned the view of the component of a. *)
Example C75_follow_case : let s := xstate (ops5 ++ [ONewView 2; OGetTree "e" true 2]) in
  let s1 := fst (fst (assign_view 2 1 s)) in let q := run 0 Z.opp (xhist ops4) s1 in
  reachable 0 Z.opp s /\ 2 ∈ gs_subs s /\ 1 ∈ gs_subs s /\
  gs_views s !! 2 = Some (xview 2 s) /\ gs_views s !! 1 = Some (xview 1 s) /\
  in_sync (gs_dg s) (xview 1 s) /\ get_vertex s fa = Ret (tv_root (xview 1 s)) /\
  assign_view 2 1 s = (s1, [], Ret tt) /\
  hist_noself (xhist ops4) /\ Forall (fun x => op_not 2 (snd x)) (xhist ops4) /\
  snd q = Ret tt /\ growing fa (snd (fst q)) /\ size (tv_tree (xview 2 (fst (fst q)))) = 7.
Proof.
  cbv zeta. split; [apply xstate_reachable; [by repeat constructor|by vm_compute]|].
  do 2 (split; [apply (bool_decide_unpack _); by vm_compute|]). do 2 (split; [by vm_compute|]).
  split.
  { assert (H : gs_dg (xstate (ops5 ++ [ONewView 2; OGetTree "e" true 2])) = gs_dg (xstate ops5)) by by vm_compute.
    rewrite H. assert (H' : xview 1 (xstate (ops5 ++ [ONewView 2; OGetTree "e" true 2])) = xview 1 (xstate ops5)) by by vm_compute.
    rewrite H'. exact ops5_sync. }
  split; [by vm_compute|]. split; [by vm_compute|].
  split; [repeat constructor; done|]. split; [repeat constructor; done|]. split; [by vm_compute|].
  split; [|by vm_compute].
  match goal with |- growing _ ?x => let v := eval vm_compute in x in
    assert (Hv : x = v) by (vm_compute; reflexivity); rewrite Hv; clear Hv end.
  split; [|intros o t]; apply (bool_decide_unpack _); by vm_compute.
Qed.

(** ** C76: clearing and rebuilding *)

Theorem C76_clear_and_getTree {D E : Type} (d0 : D) (einv : E -> E) (s : gst D E) rf root i w :
  reachable d0 einv s -> get_vertex s rf = Ret root -> gs_views s !! i = Some w ->
  exists s' w', (clear_view i ;;; get_tree rf false i) s = (s', [], Ret tt) /\ gs_dg s' = gs_dg s /\
    gs_subs s' = gs_subs s /\ gs_views s' !! i = Some w' /\ (forall k, k <> i -> gs_views s' !! k = gs_views s !! k) /\
    in_sync (gs_dg s) w' /\ tv_root w' = root /\ tv_pub w' = tv_pub w.
Proof. exact (clear_get_tree d0 einv s rf root i w). Qed.
Print Assumptions C76_clear_and_getTree.

(** hasRoot: a view has no root before its first tree and after clear, and has one after getTree. *)
Theorem C76_has_root {D E : Type} (d0 : D) (einv : E -> E) (s : gst D E) rf root i w :
  reachable d0 einv s -> get_vertex s rf = Ret root -> gs_views s !! i = Some w ->
  tv_has_root tv_new = false /\
  (exists s1 w1, clear_view i s = (s1, [], Ret tt) /\ gs_views s1 !! i = Some w1 /\ tv_has_root w1 = false) /\
  (exists s2 w2, (clear_view i ;;; get_tree rf false i) s = (s2, [], Ret tt) /\ gs_views s2 !! i = Some w2 /\ tv_has_root w2 = true).
Proof. exact (fun Hre Hv Hw => conj eq_refl (has_root d0 einv s rf root i w Hre Hv Hw)). Qed.
Print Assumptions C76_has_root.

(** Without clear a vertex of the old tree stays, and the view is not in step with the graph. *)
Theorem C76_getTree_does_not_clear_refuted {D E : Type} (d0 : D) (einv : E -> E) (s : gst D E) rf root i w v :
  reachable d0 einv s -> get_vertex s rf = Ret root -> gs_views s !! i = Some w ->
  tv_vertex_exists w v = true -> ~ linked (adjacent (gs_dg s)) root v ->
  exists s' w', get_tree rf false i s = (s', [], Ret tt) /\ gs_views s' !! i = Some w' /\ tv_root w' = root /\
    tv_vertex_exists w' v = true /\ ~ in_sync (gs_dg s) w'.
Proof. exact (reuse_keeps d0 einv s rf root i w v). Qed.
Print Assumptions C76_getTree_does_not_clear_refuted.

Theorem C76_rebuildTreeViews_refuted {D E : Type} (d0 : D) (einv : E -> E) (s : gst D E) :
  reachable d0 einv s -> gs_subs s <> [] -> exists s' ev, rebuild_tree_views s = (s', ev, UB).
Proof. exact (rebuild_ub d0 einv s). Qed.
Print Assumptions C76_rebuildTreeViews_refuted.

Theorem C76_rebuildTreeViews_partial {D E : Type} (s : gst D E) :
  gs_subs s = [] -> rebuild_tree_views s = (s, [], Ret tt).
Proof. exact (rebuild_none s). Qed.
Print Assumptions C76_rebuildTreeViews_partial.

Example C76_case : let s := xstate ops5 in
  reachable 0 Z.opp s /\ get_vertex s "e" = Ret 5 /\ gs_views s !! 1 = Some (xview 1 s) /\
  tv_vertex_exists (xview 1 s) 1 = true /\ ~ linked (adjacent (gs_dg s)) 5 1 /\ gs_subs s <> [] /\
  gs_subs (xstate ops3) = [].
Proof.
  cbv zeta. split; [exact ops5_reachable|]. do 3 (split; [by vm_compute|]). split; [|by vm_compute].
  apply (unlinked_bool _ _ _ [5; 6; 7]). by vm_compute.
Qed.

(** ** C77: order of destruction *)

(** The full statement is that every order is well defined; exactly those are in which no view that holds a
    publisher outlives the graph. *)
Theorem C77_destruction_order_partial {D E : Type} (s : gst D E) l1 l2 :
  NoDup (l1 ++ l2) -> (forall i, i ∈ l1 ++ l2 <-> is_Some (gs_views s !! i)) ->
  let r := teardown ((DeadView <$> l1) ++ DeadGraph :: (DeadView <$> l2)) (world_of s) in
  ((forall i w, i ∈ l2 -> gs_views s !! i = Some w -> tv_pub w = false) -> r = Ret (World None ∅)) /\
  ((exists i w, i ∈ l2 /\ gs_views s !! i = Some w /\ tv_pub w = true) -> r = UB).
Proof. exact (teardown_order s l1 l2). Qed.
Print Assumptions C77_destruction_order_partial.

Example C77_case : let s := xstate (ops5 ++ [ONewView 2]) in
  NoDup ([2] ++ [1]) /\ (forall i, i ∈ [2] ++ [1] <-> is_Some (gs_views s !! i)) /\
  teardown ((DeadView <$> [2]) ++ DeadGraph :: (DeadView <$> [1])) (world_of s) = UB /\
  tv_pub (xview 2 s) = false.
Proof.
  cbv zeta. split; [apply (bool_decide_unpack _); by vm_compute|]. split.
  { intros i. assert (H : (map_to_list (gs_views (xstate (ops5 ++ [ONewView 2])))).*1 = [1; 2]) by by vm_compute.
    cbn [app]. rewrite !elem_of_cons. split.
    - intros [Hi|[Hi|Hi]].
      + subst i.
        eapply mk_is_Some.
        instantiate (1 := xview 2 (xstate (ops5 ++ [ONewView 2]))).
        vm_compute. reflexivity.
      + subst i. eapply mk_is_Some.
        instantiate (1 := xview 1 (xstate (ops5 ++ [ONewView 2]))).
        vm_compute. reflexivity.
      + exfalso. by apply elem_of_nil in Hi.
    - intros [w Hw]. apply elem_of_map_to_list in Hw. apply (elem_of_list_fmap_1 fst) in Hw. rewrite H in Hw. cbn in Hw.
      rewrite !elem_of_cons in Hw. tauto. }
  by split; vm_compute.
Qed.
