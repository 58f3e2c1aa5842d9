(** Programs with access objects used as examples. *)
From stdpp Require Import prelude gmap.
From Verif Require Import AccessModel SpecAccess.

(* Thread 0 copies its object, destroys the first one, uses the copy, gets it anew and destroys it; thread 1 calls a guarded function. *)
Definition aps1 : list (list aop) :=
  [[AGet (0, 0); ACopy (0, 0) (0, 1); ADrop (0, 0); AUse (0, 1); AGet (0, 1); ADrop (0, 1)]; [AGet (1, 0); AUse (1, 0); ADrop (1, 0)]].

(* Thread 0 gives thread 1 a copy of its object. *)
Definition aps2 : list (list aop) := [[AGet (0, 0); ACopy (0, 0) (1, 0); AUse (0, 0); ADrop (0, 0)]; [AUse (1, 0); ADrop (1, 0)]].

Definition aend (sched : list nat) (ps : list (list aop)) : astate := default (access_start []) (aruns sched (access_start ps)).

(* For [aend] to be the end of a run, it must be one. *)
Lemma aend_runs sched ps : bool_decide (is_Some (aruns sched (access_start ps))) = true -> aruns sched (access_start ps) = Some (aend sched ps).
Proof. unfold aend. by intros [s ->]%bool_decide_eq_true. Qed.

Lemma aps1_own : all_keep_own aps1.
Proof.
  intros i p Hp. destruct i as [|[|i]]; cbn in Hp; [injection Hp as <-..|done]; cbn [keeps_own fst]; repeat split; set_solver.
Qed.
