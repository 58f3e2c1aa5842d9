(** Concrete slots of tree views that act, used by the examples beside the theorems. *)
From stdpp Require Import prelude strings gmap.
From Coq Require Import ZArith.
From Verif Require Import Outcome Digraph Bfs TreeView GraphModel GraphOps SpecStore SpecObs SpecWalk SpecTree GraphThms ViewFollow
  HandlerModel SpecHandler ActModel ExGraph ExView.

(* Example client of /repo/src/graph/Graph.hpp:95-330: a view of frame a alone; b, c and d form a chain; e is alone. *)
Definition aops0 : list (gop nat Z) :=
  [OAddFrame fa; OAddEdge fb fc 1%Z; OAddEdge fc fd 1%Z; OAddFrame "e"; ONewView 2; ONewView 1].
(* Same client: the view. *)
Definition aops : list (gop nat Z) := aops0 ++ [OGetTree fa true 1].
Lemma aops_reachable : reachable 0 Z.opp (xstate aops).
Proof. apply xstate_reachable; [by repeat constructor|by vm_compute]. Qed.

(* Same client: a program of one call. *)
Definition aone (op : gop nat Z) : script nat Z := SCall xord op (fun _ _ => SEnd).

(* Same client: slots connected to the signals of the view at 1, /repo/src/graph/TreeView.hpp:185-201, that make one call when the
   given edge is added to the tree. *)
Definition areact (o t : vid) (op : gop nat Z) : viewid -> vsig -> gst nat Z -> script nat Z := fun _ x _ =>
  match x with
  | SigAdded o' t' => if bool_decide (o' = o /\ t' = t) then aone op else SEnd
  | _ => SEnd
  end.

Lemma areact_noself o t op : script_noself (aone op) -> forall i x s0, script_noself (areact o t op i x s0).
Proof. intros H i [] s0; cbn; try constructor. destruct (bool_decide _); [done|constructor]. Qed.

Lemma aops_sync : in_sync (gs_dg (xstate aops)) (xview 1 (xstate aops)).
Proof.
  destruct (get_tree_ok Z.opp (xstate aops0) fa 1 true 1 tv_new) as (s' & w' & Hg & Hdg & _ & Hw & _ & Hs & _).
  { apply (reachable_wf 0). apply xstate_reachable; [by repeat constructor|by vm_compute]. }
  { by vm_compute. } { by vm_compute. } { done. } { done. } { done. }
  assert (Hx : xstate aops = s').
  { transitivity (fst (fst (get_tree fa true 1 (xstate aops0)))); [by vm_compute|by rewrite Hg]. }
  rewrite Hx, Hdg. unfold xview. rewrite Hw. exact Hs.
Qed.

Lemma added_in_slot : exists react prog (s : gst nat Z) s' ev w,
  (forall i x s0, script_noself (react i x s0)) /\ script_noself prog /\ reachable 0 Z.opp s /\
  in_sync (gs_dg s) (xview 1 s) /\ gs_subs s = [1] /\
  act_run 0 Z.opp react 50 9 prog (s, 0) = (s', ev, Ret tt) /\
  gs_views (fst s') !! 1 = Some w /\ tv_root w = 1 /\ tv_get_parent w 1 = Ret 4 /\ child w 1 2 /\ child w 3 2 /\ ~ is_tree w.
Proof.
  pose (q := act_run 0 Z.opp (areact 1 2 (OAddEdge fa fd 1%Z)) 50 9 (aone (OAddEdge fa fb 1%Z)) (xstate aops, 0)).
  exists (areact 1 2 (OAddEdge fa fd 1%Z)), (aone (OAddEdge fa fb 1%Z)), (xstate aops), (fst (fst q)), (snd (fst q)), (xview 1 (fst (fst (fst q)))).
  split; [apply areact_noself; repeat constructor; done|]. split; [repeat constructor; done|]. split; [exact aops_reachable|].
  split; [exact aops_sync|]. split; [by vm_compute|].
  split; [by vm_compute|]. split; [by vm_compute|]. split; [by vm_compute|].
  assert (Hp : tv_get_parent (xview 1 (fst (fst (fst q)))) 1 = Ret 4) by by vm_compute.
  split; [done|]. split; [apply child_bool; by vm_compute|]. split; [apply child_bool; by vm_compute|].
  intros Ht. pose proof (it_root _ Ht) as Hr.
  assert (Hroot : tv_root (xview 1 (fst (fst (fst q)))) = 1) by by vm_compute.
  rewrite Hroot, Hp in Hr. discriminate Hr.
Qed.

Lemma removed_in_slot : exists react prog (s : gst nat Z) s' e,
  (forall i x s0, script_noself (react i x s0)) /\ script_noself prog /\ reachable 0 Z.opp s /\
  in_sync (gs_dg s) (xview 1 s) /\ gs_subs s = [1] /\
  act_run 0 Z.opp react 50 9 prog (s, 0) = (s', [EvEdgeRemoved fa "e"; EvEdgeAdded fa "e" e], Ret tt) /\
  contains_edge (fst s') fa "e" = Ret false /\ get_edge_property_e (fst s') e = UB.
Proof.
  pose (q := act_run 0 Z.opp (areact 1 5 (ORemoveEdge fa "e")) 50 9 (aone (OAddEdge fa "e" 1%Z)) (xstate aops, 0)).
  exists (areact 1 5 (ORemoveEdge fa "e")), (aone (OAddEdge fa "e" 1%Z)), (xstate aops), (fst (fst q)), 5.
  split; [apply areact_noself; repeat constructor; done|]. split; [repeat constructor; done|]. split; [exact aops_reachable|].
  split; [exact aops_sync|]. split; [by vm_compute|]. split; [by vm_compute|]. split; [by vm_compute|]. by vm_compute.
Qed.
