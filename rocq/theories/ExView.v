(** Concrete graphs with tree views used by the examples beside the theorems. *)
From stdpp Require Import prelude strings gmap.
From Verif Require Import Outcome Digraph Bfs TreeView GraphModel GraphOps SpecStore SpecObs SpecWalk WalkThms SpecTree
  GraphThms ViewFollow ExGraph.

(* Example client of /repo/src/graph/Graph.hpp:95-330: the graph of [ops1] and a second component, a triangle e-f-g. *)
Definition ops2 : list (gop nat Z) :=
  ops1 ++ [OAddEdge "e" "f" 1%Z; OAddEdge "f" "g" 2%Z; OAddEdge "e" "g" 2%Z].
Lemma ops2_reachable : reachable 0 Z.opp (xstate ops2).
Proof. apply xstate_reachable; [by repeat constructor|by vm_compute]. Qed.

(* Same client: a tree view is created. *)
Definition ops3 : list (gop nat Z) := ops2 ++ [ONewView 1].
Lemma ops3_reachable : reachable 0 Z.opp (xstate ops3).
Proof. apply xstate_reachable; [by repeat constructor|by vm_compute]. Qed.

(* Same client: calls that join the components and more. *)
Definition ops4 : list (gop nat Z) :=
  [OAddFrame "z"; OAddEdge fd "f" 3%Z; OSetProp fa fb 8%Z; OAddEdge "g" fa 1%Z; ORemoveFrame "z"].

(* Same client: the view object at an address. *)
Definition xview (i : viewid) (s : gst nat Z) : tview := default tv_new (gs_views s !! i).

(* Same client: the view at address 1 follows the component of frame a; another listener is connected. *)
Definition ops5 : list (gop nat Z) := ops3 ++ [OGetTree fa true 1].
Lemma ops5_reachable : reachable 0 Z.opp (xstate ops5).
Proof. apply xstate_reachable; [by repeat constructor|by vm_compute]. Qed.

(* Same client: root r, below it a complete graph on four frames, and a view of it. *)
Definition ops6 : list (gop nat Z) :=
  [OAddEdge "r" fa 1%Z; OAddEdge fa fb 1%Z; OAddEdge fa fc 1%Z; OAddEdge fa fd 1%Z;
   OAddEdge fb fc 1%Z; OAddEdge fb fd 1%Z; OAddEdge fc fd 1%Z; ONewView 1; OGetTree "r" true 1].
Lemma ops6_reachable : reachable 0 Z.opp (xstate ops6).
Proof. apply xstate_reachable; [by repeat constructor|by vm_compute]. Qed.

(** Checking the hypotheses about trees by computation. *)
Lemma child_bool w p c : child w p c <-> bool_decide (c ∈ vr_children (tv_rel (tv_tree w) p)) = true.
Proof.
  rewrite bool_decide_eq_true. unfold child, tv_rel. destruct (tv_tree w !! p) as [r|]; cbn.
  - split; [by intros (? & [= <-] & ?)|eauto].
  - split; [by intros (? & ? & _)|]. by intros ?%elem_of_nil.
Qed.

Lemma below_closed w c (S : list vid) :
  bool_decide (c ∈ S) &&
  forallb (fun x => forallb (fun y => bool_decide (y ∈ S)) (vr_children (tv_rel (tv_tree w) x))) S = true ->
  forall v, linked (child w) c v -> v ∈ S.
Proof.
  intros [Hc%bool_decide_eq_true HS]%andb_true_iff. apply linked_ind_r; [done|]. intros x y _ Hx Hxy%child_bool.
  apply bool_decide_eq_true in Hxy. rewrite forallb_forall in HS. specialize (HS x). rewrite <- elem_of_list_In in HS.
  specialize (HS Hx). rewrite forallb_forall in HS. specialize (HS y). rewrite <- elem_of_list_In in HS.
  by apply HS, bool_decide_eq_true in Hxy.
Qed.

Lemma ops5_sync : in_sync (gs_dg (xstate ops5)) (xview 1 (xstate ops5)).
Proof.
  destruct (get_tree_ok Z.opp (xstate ops3) fa 1 true 1 tv_new) as (s' & w' & Hg & Hdg & _ & Hw & _ & Hs & _).
  { apply (reachable_wf 0). apply ops3_reachable. }
  { by vm_compute. } { by vm_compute. } { done. } { done. } { done. }
  assert (Hx : xstate ops5 = s').
  { transitivity (fst (fst (get_tree fa true 1 (xstate ops3)))); [by vm_compute|by rewrite Hg]. }
  rewrite Hx, Hdg. unfold xview. rewrite Hw. exact Hs.
Qed.

Lemma adjacent_bool {D E} (g : digraph D E) u v :
  existsb (fun e => Nat.eqb (e_src e) u && Nat.eqb (e_tgt e) v) (dg_edges g) = true -> adjacent g u v.
Proof.
  intros (e & He & [H1 H2]%andb_true_iff)%existsb_exists. exists e. split; [by apply elem_of_list_In|].
  by apply Nat.eqb_eq in H1, H2.
Qed.

(* Same client: root r, below it a triangle, and a view of it. *)
Definition ops7 : list (gop nat Z) :=
  [OAddEdge "r" fa 1%Z; OAddEdge fa fb 1%Z; OAddEdge fa fc 1%Z; OAddEdge fb fc 1%Z; ONewView 1].
Lemma ops7_reachable : reachable 0 Z.opp (xstate (ops7 ++ [OGetTree "r" true 1])).
Proof. apply xstate_reachable; [by repeat constructor|by vm_compute]. Qed.

Lemma ops7_sync : in_sync (gs_dg (xstate (ops7 ++ [OGetTree "r" true 1]))) (xview 1 (xstate (ops7 ++ [OGetTree "r" true 1]))).
Proof.
  destruct (get_tree_ok Z.opp (xstate ops7) "r" 1 true 1 tv_new) as (s' & w' & Hg & Hdg & _ & Hw & _ & Hs & _).
  { apply (reachable_wf 0). apply xstate_reachable; [by repeat constructor|by vm_compute]. }
  { by vm_compute. } { by vm_compute. } { done. } { done. } { done. }
  assert (Hx : xstate (ops7 ++ [OGetTree "r" true 1]) = s').
  { transitivity (fst (fst (get_tree "r" true 1 (xstate ops7)))); [by vm_compute|by rewrite Hg]. }
  rewrite Hx, Hdg. unfold xview. rewrite Hw. exact Hs.
Qed.

(** A set of vertices closed under edges keeps everything linked inside. *)
Lemma unlinked_bool {D E} (g : digraph D E) u v (S : list vid) :
  bool_decide (u ∈ S) && negb (bool_decide (v ∈ S)) &&
  forallb (fun e => implb (bool_decide (e_src e ∈ S)) (bool_decide (e_tgt e ∈ S))) (dg_edges g) = true ->
  ~ linked (adjacent g) u v.
Proof.
  intros [[Hu%bool_decide_eq_true Hv]%andb_true_iff HS]%andb_true_iff Hl. apply negb_true_iff, bool_decide_eq_false in Hv.
  apply Hv. revert v Hl Hv. refine (_ : forall v, linked (adjacent g) u v -> v ∉ S -> v ∈ S). intros v Hl _. revert v Hl.
  apply linked_ind_r; [done|]. intros x y _ Hx (e & He & <- & <-). rewrite forallb_forall in HS. specialize (HS e).
  rewrite <- elem_of_list_In in HS. specialize (HS He). rewrite (bool_decide_eq_true_2 _ Hx) in HS.
  by apply bool_decide_eq_true in HS.
Qed.
