(** Concrete handlers used beside the theorems. *)
From stdpp Require Import prelude strings gmap.
From Verif Require Import Outcome Digraph Bfs TreeView GraphModel GraphOps SpecStore SpecObs SpecWalk WalkThms SpecTree
  GraphThms ViewFollow HandlerModel SpecHandler HandlerThms ExGraph ExView.

(* Example client of /repo/src/graph/Graph.hpp:95-330: one edge and a view object. *)
Definition ops8 : list (gop nat Z) := [OAddEdge fa fb 1%Z; ONewView 1].
(* Same client: the view follows frame a. *)
Definition ops9 : list (gop nat Z) := ops8 ++ [OGetTree fa true 1].

Lemma ops9_reachable : reachable 0 Z.opp (xstate ops9).
Proof. apply xstate_reachable; [by repeat constructor|by vm_compute]. Qed.

Lemma ops9_sync : in_sync (gs_dg (xstate ops9)) (xview 1 (xstate ops9)).
Proof.
  destruct (get_tree_ok Z.opp (xstate ops8) fa 1 true 1 tv_new) as (s' & w' & Hg & Hdg & _ & Hw & _ & Hs & _).
  { apply (reachable_wf 0). apply xstate_reachable; [by repeat constructor|by vm_compute]. }
  { by vm_compute. } { by vm_compute. } { done. } { done. } { done. }
  assert (Hx : xstate ops9 = s').
  { transitivity (fst (fst (get_tree fa true 1 (xstate ops8)))); [by vm_compute|by rewrite Hg]. }
  rewrite Hx, Hdg. unfold xview. rewrite Hw. exact Hs.
Qed.

(* Handler of /repo/src/events/GraphEventPublisher.cpp:83: creates frame b when told about frame a. *)
Definition react_frame (e : event) (_ : gst nat Z) : script nat Z :=
  match e with
  | EvFrameAdded f => if decide (f = fa) then SCall xord (OAddFrame fb) (fun _ _ => SEnd) else SEnd
  | _ => SEnd
  end.

Lemma frame_twice : exists react : event -> gst nat Z -> script nat Z, tame react /\
    let q := gstep_h 0 Z.opp (reactor 0 Z.opp react 9 3) 9 xord (OAddEdge fa fb 3%Z) gst0 in
    snd q = Ret tt /\ snd (fst q) = [EvFrameAdded fa; EvFrameAdded fb; EvFrameAdded fb; EvEdgeAdded fa fb 1].
Proof.
  exists react_frame. split; [split; [done|]|by vm_compute].
  intros e s. destruct e; try constructor. cbn. case_decide; repeat constructor.
Qed.

(* Handler of /repo/src/events/GraphEventPublisher.cpp:83: adds a removed edge again. *)
Definition react_back (e : event) (_ : gst nat Z) : script nat Z :=
  match e with
  | EvEdgeRemoved a b => if decide (a = b) then SEnd else SCall xord (OAddEdge a b 7%Z) (fun _ _ => SEnd)
  | _ => SEnd
  end.

Lemma edge_put_back : exists react : event -> gst nat Z -> script nat Z, (forall e s, script_noself (react e s)) /\
    reachable 0 Z.opp (xstate ops9) /\ in_sync (gs_dg (xstate ops9)) (xview 1 (xstate ops9)) /\
    let q := gstep_h 0 Z.opp (reactor 0 Z.opp react 9 3) 9 xord (ORemoveEdge fa fb) (xstate ops9) in
    snd q = Ret tt /\ contains_edge (fst (fst q)) fa fb = Ret true /\ 1 ∈ gs_subs (fst (fst q)) /\
    ~ in_sync (gs_dg (fst (fst q))) (xview 1 (fst (fst q))).
Proof.
  exists react_back. split.
  { intros e s. destruct e; try constructor. cbn. case_decide; repeat constructor. done. }
  split; [exact ops9_reachable|]. split; [exact ops9_sync|]. cbv zeta.
  set (q := gstep_h 0 Z.opp _ 9 xord _ _).
  assert (H1 : snd q = Ret tt) by by vm_compute.
  assert (H2 : contains_edge (fst (fst q)) fa fb = Ret true) by by vm_compute.
  assert (H3 : existsb (Nat.eqb 1) (gs_subs (fst (fst q))) = true) by by vm_compute.
  assert (H4 : existsb (fun e => Nat.eqb (e_src e) 1 && Nat.eqb (e_tgt e) 2) (dg_edges (gs_dg (fst (fst q)))) = true)
    by by vm_compute.
  assert (H5 : tv_root (xview 1 (fst (fst q))) = 1) by by vm_compute.
  assert (H6 : tv_vertex_exists (xview 1 (fst (fst q))) 2 = false) by by vm_compute.
  clearbody q. split; [done|]. split; [done|]. split.
  { apply existsb_exists in H3 as (x & Hx & ->%Nat.eqb_eq). by apply elem_of_list_In. }
  intros Hs. apply adjacent_bool in H4.
  assert (tv_vertex_exists (xview 1 (fst (fst q))) 2 = true).
  { apply (sy_span _ _ Hs). rewrite H5. exists [1; 2]. split; [|done]. repeat constructor. }
  congruence.
Qed.
