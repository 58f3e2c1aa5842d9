(** Concrete users of a shared graph for the examples beside the theorems. *)
From stdpp Require Import prelude strings gmap.
From Verif Require Import Outcome Digraph TreeView GraphModel SpecObs LockModel SpecLock ExGraph.

(* Example client of /repo/src/util/ThreadSaveEnvireGraph.hpp:82-192: one thread adds a frame and looks for it; the other locks, looks for
   the same frame and for an edge, and unlocks. *)
Definition lusers : list (user (cvalue)) :=
  [UCall (WAddFrame "x") (fun _ => UCall (WContainsFrame "x") (fun _ => UEnd));
   ULock (UCall (WContainsFrame "x") (fun _ => UCall (WContainsEdge fa fb) (fun _ => UUnlock UEnd)))].
(* Same client: the world after a schedule. *)
Definition lworld (sched : list nat) : option (world (gst nat Z) cvalue) :=
  wrun sched (world_start (small_graph 0) (xstate ops1) lusers).
(* Same client: values, mutex and turns. *)
Definition lvalues (w : option (world (gst nat Z) cvalue)) :=
  match w with Some w => Some (snd <$> w_threads w, w_mutex w, w_turns w) | None => None end.
(* Same client: a thread that adds frames whose names a handler derives: the handler calls addFrame again, /repo/src/util/ThreadSaveEnvireGraph.hpp:198-199. *)
Definition nested_add (c : wcall) : body (gst nat Z) cvalue :=
  match c with
  | WAddFrame f => BNest (WContainsFrame f) (small_graph 0 (WContainsFrame f)) (fun _ => small_graph 0 c)
  | _ => small_graph 0 c
  end.

Lemma lusers_disciplined : Forall (disciplined 0) lusers.
Proof. repeat (apply Forall_cons; split); [| |constructor]; cbn; unfold safe_unlocked; repeat split; try done; auto with lia; by left. Qed.
