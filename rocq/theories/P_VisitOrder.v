(** Property C108: the visitors of a view keep the order their comments promise. *)
From stdpp Require Import prelude strings gmap.
From Coq Require Import ZArith.
From Verif Require Import Outcome Digraph Bfs TreeView GraphModel GraphOps GraphWf GraphStep SpecObs SpecWalk SpecTree SpecView SpecCross GraphThms ViewFollow
  ViewRemove ViewCross HandlerModel SpecHandler VisitModel SpecVisit VisitViewModel SpecVisitView SpecVisitOrder WalkThms VisitOrder ExGraph ExView.

(* visitBfs goes level by level: no vertex is visited before one that is closer to the start. *)
Theorem C108_bfs (w : tview) (n : vid) (ord : order) (fuel : nat) :
  is_tree w -> tv_vertex_exists w n = true -> ord_ok ord -> size (tv_tree w) <= fuel ->
  exists l, tv_visit_bfs fuel ord w [n] = (l, Ret tt) /\ visits w n l /\ level_order w n (fst <$> l).
Proof. exact (fun Ht Hn Ho => bfs_exact w Ht n Hn ord Ho fuel). Qed.
Print Assumptions C108_bfs.

(* visitDfs finishes a subtree before it goes on: between a vertex and a descendant of it only descendants of it are visited. *)
Theorem C108_dfs (w : tview) (n : vid) (ord : order) (fuel : nat) :
  is_tree w -> tv_vertex_exists w n = true -> ord_ok ord -> size (tv_tree w) <= fuel ->
  exists l, tv_visit_dfs fuel ord w [n] = (l, Ret tt) /\ visits w n l /\ subtree_order w (fst <$> l).
Proof. exact (fun Ht Hn Ho => dfs_exact w Ht n Hn ord Ho fuel). Qed.
Print Assumptions C108_dfs.

(** Children taken in reverse order: the two visitors go differently, and each breaks the order of the other. *)
Example C108_case :
  let w := xview 1 (xstate ops5) in let ord : order := fun _ _ l => reverse l in
  is_tree w /\ tv_vertex_exists w 1 = true /\ ord_ok ord /\ size (tv_tree w) <= 6 /\
  fst <$> fst (tv_visit_bfs 6 ord w [1]) = [1; 3; 2; 4] /\ fst <$> fst (tv_visit_dfs 6 ord w [1]) = [1; 3; 4; 2] /\
  ~ subtree_order w [1; 3; 2; 4] /\ ~ level_order w 1 [1; 3; 4; 2].
Proof.
  intros w ord. pose proof (sy_tree _ _ ops5_sync) as Ht. fold w in Ht. split; [done|]. split; [by vm_compute|].
  split; [intros v x l; apply reverse_Permutation|]. split; [vm_compute; lia|]. split; [by vm_compute|]. split; [by vm_compute|].
  assert (H34 : child w 3 4) by (eexists; split; [by vm_compute|apply (bool_decide_unpack _); by vm_compute]).
  assert (H13 : child w 1 3) by (eexists; split; [by vm_compute|apply (bool_decide_unpack _); by vm_compute]).
  assert (H12 : child w 1 2) by (eexists; split; [by vm_compute|apply (bool_decide_unpack _); by vm_compute]). split.
  - intros H. assert (H32 : linked (child w) 3 2) by (eapply (H 1 2 3); [lia|done..|by apply linked_step]).
    destruct (proj1 (linked_cases w 3 2) H32) as [?|(c & (r & Hr & Hc) & H2)]; [done|]. vm_compute in Hr. injection Hr as <-. cbn in Hc.
    apply elem_of_list_singleton in Hc as ->. destruct (proj1 (linked_cases w 4 2) H2) as [?|(c & (r & Hr & Hc) & _)]; [done|]. vm_compute in Hr. injection Hr as <-.
    cbn in Hc. by apply elem_of_nil in Hc.
  - intros H. assert (Hle : length [1; 3; 4] <= length [1; 2]); [|cbn in Hle; lia]. eapply (H 2 3 4 2); [lia|done|done| |].
    + eapply route_cons; [exact H13|]. eapply route_cons; [exact H34|apply route_refl].
    + eapply route_cons; [exact H12|apply route_refl].
Qed.

(* Functions that use the graph do not change the order: a visit of a view that is not subscribed makes the calls that a function without effects would get. *)
Theorem C108_bfs_program {D E C : Type} (d0 : D) (einv : E -> E) (i : viewid) (z : vfun D E C) (w : tview) ord m c n (s s' : gst D E) seen ev :
  noself_fun z -> spares_view i z -> reachable d0 einv s -> gs_views s !! i = Some w -> i ∉ gs_subs s ->
  view_bfs d0 einv i ord z m c n (s, []) = ((s', seen), ev, Ret tt) -> tv_visit_bfs m ord w [n] = (seen, Ret tt).
Proof. exact (fun Hz Hsp => bfs_program d0 einv i z w ord Hz Hsp m c n s s' seen ev). Qed.
Print Assumptions C108_bfs_program.
Theorem C108_dfs_program {D E C : Type} (d0 : D) (einv : E -> E) (i : viewid) (z : vfun D E C) (w : tview) ord m c n (s s' : gst D E) seen ev :
  noself_fun z -> spares_view i z -> reachable d0 einv s -> gs_views s !! i = Some w -> i ∉ gs_subs s ->
  view_dfs d0 einv i ord z m c n (s, []) = ((s', seen), ev, Ret tt) -> tv_visit_dfs m ord w [n] = (seen, Ret tt).
Proof. exact (fun Hz Hsp => dfs_program d0 einv i z w ord Hz Hsp m c n s s' seen ev). Qed.
Print Assumptions C108_dfs_program.

(** A function that removes an edge of the view's tree at the first vertex; children in reverse order. *)
Example C108_case_program :
  let s := xstate (ops3 ++ [OGetTree fa false 1]) in let ord : order := fun _ _ l => reverse l in
  let z := VFun (fun c _ _ _ => if Nat.eqb c 0 then SCall xord (ORemoveEdge fa fb) (fun _ _ => SEnd) else SEnd) (fun (c : nat) _ _ _ => S c) (fun _ c => c) : vfun nat Z nat in
  let q := view_bfs 0 Z.opp 1 ord z 4 0 1 (s, []) in let q' := view_dfs 0 Z.opp 1 ord z 4 0 1 (s, []) in
  noself_fun z /\ spares_view 1 z /\ reachable 0 Z.opp s /\ gs_views s !! 1 = Some (xview 1 s) /\ 1 ∉ gs_subs s /\
  snd (fst (fst q)) = [(1, 0); (3, 1); (2, 1); (4, 3)] /\ snd (fst q) = [EvEdgeRemoved fa fb] /\ snd q = Ret tt /\
  snd (fst (fst q')) = [(1, 0); (3, 1); (4, 3); (2, 1)] /\ snd q' = Ret tt.
Proof.
  intros s ord z q q'. split. { intros c v p t. unfold z. cbn [vf_do]. case_match; repeat constructor. }
  split. { intros c v p t. unfold z. cbn [vf_do]. case_match; [|constructor]. constructor; [done|]. constructor. }
  split; [apply xstate_reachable; [by repeat constructor|by vm_compute]|].
  split; [by vm_compute|]. split; [apply (bool_decide_unpack _); by vm_compute|]. split_and!; by vm_compute.
Qed.
