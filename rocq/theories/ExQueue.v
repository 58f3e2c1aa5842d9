(** Replicas and streams of the examples about the event queue. *)
From stdpp Require Import prelude strings gmap gmultiset.
From Verif Require Import Outcome SpecReplica QueueModel SpecQueue QueueThms ExGraph.

(* Example of what a subscriber knows (/repo/src/events/GraphEvent.hpp:39-48): three frames, one edge, one item. *)
Definition qrep : replica := Replica {[fa; fb; fc]} {[(fa, fb); (fb, fa)]} {[+ (fa, 1) +]}.
(* Same example after the stream below. *)
Definition qrep2 : replica := Replica {[fa; fb; fc]} {[(fc, fb); (fb, fc)]} {[+ (fa, 1); (fc, 3) +]}.
(* Example of a stream of events, /repo/src/events/GraphEventQueue.cpp:44: the edge is modified and removed, fb is removed and
   added again, fd lives shortly, an edge is added, removed, added and modified twice. *)
Definition qstream : list event :=
  [EvEdgeModified fa fb 1 2; EvEdgeRemoved fb fa; EvFrameRemoved fb; EvFrameAdded fd; EvFrameAdded fb; EvEdgeAdded fb fd 5;
   EvEdgeModified fb fd 5 6; EvEdgeRemoved fb fd; EvFrameRemoved fd; EvEdgeAdded fb fc 7; EvEdgeModified fc fb 8 7; EvEdgeRemoved fb fc;
   EvEdgeAdded fc fb 9; EvEdgeModified fc fb 9 10; EvItemAdded fc 3; EvEdgeModified fb fc 9 10].

Lemma qrep_sound : sound_replica qrep.
Proof.
  split; cbn.
  - intros a b Hab. assert (Hc : (a = fa /\ b = fb) \/ (a = fb /\ b = fa)) by set_solver.
    destruct Hc as [[-> ->]|[-> ->]]; (split; [|split]); apply (bool_decide_unpack _); by vm_compute.
  - intros f i Hi. apply gmultiset_elem_of_singleton in Hi. injection Hi as -> ->. apply (bool_decide_unpack _); by vm_compute.
Qed.
Lemma qstream_replay : replay qstream qrep = Some qrep2.
Proof. apply (bool_decide_unpack _). by vm_compute. Qed.

(* Elements of all pairs of a list, in order; to decide statements about sublists by computation. *)
Fixpoint pairs {A} (l : list A) : list (A * A) := match l with [] => [] | x :: l => ((fun y => (x, y)) <$> l) ++ pairs l end.
Lemma pairs_sublist {A} (x y : A) l : sublist [x; y] l -> (x, y) ∈ pairs l.
Proof.
  induction l as [|z l IH]; intros Hs; [by apply sublist_nil_r in Hs|]. cbn. apply elem_of_app.
  inversion Hs as [|? ? ? Hs'|? ? ? Hs']; subst; [|right; by apply IH].
  left. apply elem_of_list_fmap. exists y. split; [done|]. eapply elem_of_sublist; [exact Hs'|]. by left.
Qed.
Lemma qstream_once : removed_once qrep qstream.
Proof.
  intros a b x y Hab Hs Hx Hy Rx Ry. apply pairs_sublist in Hs.
  assert (Hc : (a = fa /\ b = fb) \/ (a = fb /\ b = fa)) by (cbn in Hab; set_solver).
  assert (Hall : Forall (fun p => ~ (is_remove p.1 /\ is_remove p.2 /\ on_edge fa fb p.1 /\ on_edge fa fb p.2)) (pairs qstream)).
  { apply (bool_decide_unpack _). by vm_compute. }
  rewrite list.Forall_forall in Hall. apply (Hall _ Hs). cbn. destruct Hc as [[-> ->]|[-> ->]]; [done|]. by rewrite !(on_edge_rev fa fb).
Qed.
Lemma qstream_items : no_short_lived_items qstream.
Proof.
  intros f x Hs Hx. assert (Hsx : sublist [x; EvFrameRemoved f] qstream). { etrans; [|exact Hs]. by apply sublist_cons. }
  apply pairs_sublist in Hsx.
  assert (Hall : Forall (fun p => match p.1, p.2 with EvItemAdded g _, EvFrameRemoved h | EvItemRemoved g _, EvFrameRemoved h => g <> h | _, _ => True end) (pairs qstream)).
  { repeat constructor. }
  rewrite list.Forall_forall in Hall. apply Hall in Hsx. cbn in Hsx. destruct x; try done; by apply Hsx.
Qed.
Lemma qrep_no_fd : fd ∉ r_frames qrep /\ (forall a b, (a, b) ∈ r_edges qrep -> a <> fd /\ b <> fd) /\ (forall g j, (g, j) ∈ r_items qrep -> g <> fd).
Proof.
  split; [apply (bool_decide_unpack _); by vm_compute|]. split.
  - intros a b Hab. assert (Hc : (a = fa /\ b = fb) \/ (a = fb /\ b = fa)) by (cbn in Hab; set_solver). destruct Hc as [[-> ->]|[-> ->]]; done.
  - intros g j Hi. cbn in Hi. apply gmultiset_elem_of_singleton in Hi. by injection Hi as -> ->.
Qed.

(* Example of GraphEventQueue::process (/repo/src/events/GraphEventQueue.hpp:50): the first [h] modification events are
   answered by modifying the edge again. *)
Definition qreact (h : nat) (e : event) : nat * list event :=
  match h, e with S h, EvEdgeModified o t x y => (h, [EvEdgeModified t o y x]) | _, _ => (h, []) end.
(* Same example: the first [h] new frames get an item. *)
Definition qreact2 (h : nat) (e : event) : nat * list event :=
  match h, e with S h', EvFrameAdded f => (h', [EvItemAdded f h]) | _, _ => (h, []) end.
Lemma qreact2_ok : forall h e new, new ∈ (qreact2 h e).2 -> mergeable e new = false.
Proof.
  intros h e new Hn. unfold qreact2 in Hn. destruct h as [|h], e; cbn in Hn; try (by apply elem_of_nil in Hn). by apply elem_of_list_singleton in Hn as ->.
Qed.
