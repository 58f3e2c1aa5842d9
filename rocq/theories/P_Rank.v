(** Exactly when copying a graph is defined: completes C47. *)
From stdpp Require Import prelude strings gmap gmultiset.
From Verif Require Import Outcome ItemClass Digraph Bfs TreeView GraphModel GraphOps SpecStore SpecObs ItemsModel SpecReplica SpecItems
  SpecRank RankThms ExGraph ExItems.

(** ** C47: the copy constructor is defined if and only if every removed frame was added after all frames still there *)
Theorem C47_copy_defined_iff {E} (einv : E -> E) h s ev : ehist_ok h -> erun einv h (est_new ∅) = (s, ev, Ret tt) ->
  (no_gap (slots ev) -> exists c, eg_copy s = Ret c) /\ (~ no_gap (slots ev) -> eg_copy s = UB).
Proof. exact (items_defined_iff einv h s ev). Qed.
Print Assumptions C47_copy_defined_iff.

Theorem C47_plain_copy_defined_iff {E} (einv : E -> E) {D} (d0 : D) h (s : gst D E) ev : hist_noself h -> run d0 einv h gst0 = (s, ev, Ret tt) ->
  (no_gap (slots ev) -> exists c, copy_graph s = Ret c) /\ (~ no_gap (slots ev) -> copy_graph s = UB).
Proof. exact (plain_defined_iff einv d0 h s ev). Qed.
Print Assumptions C47_plain_copy_defined_iff.

(* A copy starts again without gaps; its frames count as added in the order in which it publishes them. *)
Theorem C47_copied_copy_defined_iff {E} (einv : E -> E) io s0 c h s ev : ereachable einv s0 -> eg_copy s0 = Ret c -> ehist_ok h ->
  erun einv h c = (s, ev, Ret tt) ->
  (no_gap (slots ((eg_publish io c).1 ++ ev)) -> exists c', eg_copy s = Ret c') /\
  (~ no_gap (slots ((eg_publish io c).1 ++ ev)) -> eg_copy s = UB).
Proof. exact (copied_defined_iff einv io s0 c h s ev). Qed.
Print Assumptions C47_copied_copy_defined_iff.

(* Frames x and y come and go at the end: the copy is defined although frames were removed.  Removing d before adding z is not. *)
Example C47_gap_case :
  let ops1 := iops1 ++ [EGraph (OAddFrame "x"); EGraph (OAddFrame "y"); EGraph (ORemoveFrame "x"); EGraph (ORemoveFrame "y")] in
  let ops2 := iops1 ++ [EGraph (ORemoveFrame fd); EGraph (OAddFrame "z")] in
  Forall eop_ok ops1 /\ (irun Z.opp ops1).2 = Ret tt /\ Forall eop_ok ops2 /\ (irun Z.opp ops2).2 = Ret tt /\
  slots (irun Z.opp ops1).1.2 = [Some fa; Some fb; Some fc; Some fd; None; None] /\ no_gap (slots (irun Z.opp ops1).1.2) /\
  slots (irun Z.opp ops2).1.2 = [Some fa; Some fb; Some fc; None; Some "z"] /\ ~ no_gap (slots (irun Z.opp ops2).1.2).
Proof.
  cbv zeta. split; [ops_ok|]. split; [by vm_compute|]. split; [ops_ok|]. split; [by vm_compute|].
  match goal with |- ?a = ?b /\ _ => assert (a = b) as -> by by vm_compute end.
  match goal with |- _ /\ _ /\ ?a = ?b /\ _ => assert (a = b) as -> by by vm_compute end.
  split; [done|]. split; [|split; [done|]].
  - intros i j f Hij Hj. destruct i as [|[|[|[|i]]]]; try done. destruct j as [|[|[|[|[|[|j]]]]]]; try done; lia.
  - intros Hg. apply (Hg 3 4 "z"); [lia|done|done].
Qed.
