(** Property C101, programs: slots of tree views that only read. *)
From stdpp Require Import prelude strings gmap.
From Coq Require Import ZArith.
From Verif Require Import Outcome Digraph Bfs TreeView GraphModel GraphOps SpecObs HandlerModel SpecHandler ActModel SpecAct SpecActProg ActProg
  ExGraph ExView ExAct.

(* Slots that return and write neither to the graph nor to its views: a whole program, however it goes on after each call, returns or
   throws what it does without slots, and leaves the same graph, subscriptions and views; frames and edges are announced alike. *)
Theorem C101_reader_program {D E : Type} (d0 : D) (einv : E -> E) h (prog : script D E) s s0 ev0 r :
  considerate id id (fun _ => True) h -> script_noself prog -> reachable d0 einv s ->
  plain d0 einv prog s = (s0, ev0, r) -> ended r ->
  exists N, forall fuel n, N <= fuel -> exists n1 ev1,
    act_exec d0 einv h fuel prog (s, n) = ((s0, n1), ev1, r) /\ filter structural ev1 = filter structural ev0.
Proof. exact (reader_program d0 einv h prog s s0 ev0 r). Qed.
Print Assumptions C101_reader_program.

(** Slots that look up the frame a; the program adds an edge, tries to add it again, removes it if that failed and throws. *)
Example C101_case_program :
  let h := fun (i : viewid) (x : vsig) => cbind (aread (fun s : gst nat Z => Ret (contains_frame s fa))) (fun _ => cret tt) in
  let prog := SCall xord (OAddEdge fa fb 2%Z) (fun _ _ => SCall xord (OAddEdge fa fb 3%Z) (fun _ r =>
    match r with Throw _ => SCall xord (ORemoveEdge fa fb) (fun _ _ => SThrow XRuntime) | _ => SEnd end)) in
  considerate (@id nat) (@id Z) (fun _ => True) h /\ script_noself prog /\ reachable 0 Z.opp (xstate aops) /\
  snd (plain 0 Z.opp prog (xstate aops)) = Throw XRuntime /\
  snd (fst (plain 0 Z.opp prog (xstate aops))) = [EvEdgeAdded fa fb 5; EvEdgeRemoved fa fb] /\
  tv_log (xview 1 (fst (fst (plain 0 Z.opp prog (xstate aops))))) =
    [SigAdded 1 2; SigAdded 2 3; SigAdded 3 4; SigRemoved 3 4; SigRemoved 2 3; SigRemoved 1 2].
Proof.
  cbv zeta. split.
  { intros i x s s' ev r _ [= <- <- <-]. by split_and!. }
  split.
  { constructor; [done|]. intros _ _. constructor; [done|]. intros _ [[]|y| |]; repeat constructor. }
  split; [exact aops_reachable|]. split; [by vm_compute|]. split; by vm_compute.
Qed.
