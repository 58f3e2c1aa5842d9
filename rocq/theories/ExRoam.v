(** A program with three graphs and a subscriber that moves between them. *)
From stdpp Require Import prelude strings gmap gmultiset.
From Verif Require Import Outcome ItemClass Digraph Bfs TreeView GraphModel GraphOps SpecStore SpecObs ItemsModel SpecReplica SpecItems
  RoamModel SpecRoam ExGraph ExItems.

(* Example client of /repo/src/events/GraphEventSubscriber.hpp:48-50: history with one iteration order. *)
Definition rhist (ops : list (rop Z)) : list ((viewid -> order) * iorder * rop Z) := (fun op => (xord, xio, op)) <$> ops.
(* Same client: state, events and outcome of a program. *)
Definition rr (ops : list (rop Z)) := rrun Z.opp (rhist ops) roam_new.
(* Same client: graph calls. *)
Definition calls (g : nat) (ops : list (eop Z)) : list (rop Z) := (fun op => RStep (WCall g op)) <$> ops.

(* Same client: graphs 0 and 1, the subscriber at 0, calls on both, a copy of 0, the subscriber moves to the copy, to 1, calls on all. *)
Definition rops1 : list (rop Z) :=
  [RStep (WNew 0)] ++ calls 0 iops1 ++ [RSub 0 true; RStep (WNew 1)] ++ calls 1 [EGraph (OAddEdge fa "y" 1%Z); EAddItemTo fa 1] ++
  calls 0 [EGraph (OAddFrame "x"); ERemoveItem 3] ++ [RStep (WCopy 0 2); RSub 2 true] ++
  calls 0 [EGraph (ORemoveFrame "x")] ++ calls 2 [EGraph (OAddEdge "x" fa 4%Z)] ++ [RSub 1 true] ++
  calls 1 [EGraph (ORemoveEdge fa "y"); EGraph (ORemoveFrame "y"); EGraph (OAddFrame fa)].

(** Programs without removal by iterator. *)
Lemma rhist_told ops s : Forall (fun op => match op with
    | RStep op => wop_ok op /\ match op with WCall _ (ERemoveItemIt _ _ _ _ _) => False | _ => True end
    | RSub _ b => b = true | _ => False end) ops -> all_steps Z.opp told (rhist ops) s.
Proof.
  intros H. revert s. induction H as [|op ops H1 H2 IH]; intros s; [done|]. split; [apply xio_ok|]. split; [|apply IH].
  destruct op as [op|g b| | | |]; try done. destruct H1 as [H1 H3]. split; [done|]. destruct op as [|g op| |]; try done. by intros t _; destruct op.
Qed.
