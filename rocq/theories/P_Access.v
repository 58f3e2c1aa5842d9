(** Properties of access objects: C94. *)
From stdpp Require Import prelude gmap.
From Verif Require Import AccessModel SpecAccess AccessThms ExAccess.

(** ** C94: access objects hold the graph's lock
    Full statement: as long as a GraphAccess or a copy of it exists, the graph is locked for the thread that asked for it; a thread with
    an object has the graph to itself; no program with access objects has undefined behaviour or deadlocks.  The first holds for all
    programs, the others only for programs whose threads keep their objects to themselves: see the refutations.  [ps]: the program of
    each thread; [sched]: any order of the threads' steps. *)
Theorem C94_held (ps : list (list aop)) sched s x g :
  aruns sched (access_start ps) = Some s -> a_vars s !! x = Some g -> owner s = Some (a_getter s g).
Proof. exact (held ps sched s x g). Qed.
Print Assumptions C94_held.

(* The first object is gone, its copy still holds the lock, thread 1 waits. *)
Example C94_case : let s := aend [0; 0; 1; 0] aps1 in aruns [0; 0; 1; 0] (access_start aps1) = Some s /\ a_vars s !! (0, 0) = None /\
  a_vars s !! (0, 1) = Some 0 /\ a_getter s 0 = 0 /\ astep 1 s = AWaits.
Proof. split; [apply aend_runs; by vm_compute|by vm_compute]. Qed.

(** With the last object the lock is given back: the mutex is free exactly when no object exists. *)
Theorem C94_free (ps : list (list aop)) sched s : aruns sched (access_start ps) = Some s -> a_vars s = ∅ <-> owner s = None.
Proof. exact (free ps sched s). Qed.
Print Assumptions C94_free.

Example C94_free_case : let s := aend [0; 0; 0; 0; 0; 0] aps1 in aruns [0; 0; 0; 0; 0; 0] (access_start aps1) = Some s /\
  owner s = None /\ a_threads s = [[]; [AGet (1, 0); AUse (1, 0); ADrop (1, 0)]] /\
  owner (aend [0; 0; 0; 0; 0] aps1) = Some 0 /\ map_to_list (a_vars (aend [0; 0; 0; 0; 0] aps1)) = [((0, 1), 1)].
Proof. split; [apply aend_runs; by vm_compute|by vm_compute]. Qed.

(** Threads that keep their objects to themselves: nothing is undefined, in whatever order they run. *)
Theorem C94_defined_partial (ps : list (list aop)) sched : all_keep_own ps -> exists s, aruns sched (access_start ps) = Some s.
Proof. exact (own_defined ps sched). Qed.
Print Assumptions C94_defined_partial.

(** Whoever uses the graph has it locked, so that no two threads use it at once. *)
Theorem C94_exclusive_partial (ps : list (list aop)) sched s : all_keep_own ps -> aruns sched (access_start ps) = Some s ->
  (forall i, about_to_use s i -> owner s = Some i) /\ ~ graph_race s.
Proof. exact (fun H E => conj (fun i => own_use ps sched s i H E) (own_no_race ps sched s H E)). Qed.
Print Assumptions C94_exclusive_partial.

(** While one thread has an object, the other threads do nothing but wait. *)
Theorem C94_others_wait_partial (ps : list (list aop)) sched s i x g :
  all_keep_own ps -> aruns sched (access_start ps) = Some s -> a_vars s !! x = Some g -> i <> x.1 ->
  astep i s = AWaits \/ astep i s = AEnded.
Proof. exact (own_others ps sched s i x g). Qed.
Print Assumptions C94_others_wait_partial.

(** No deadlock: if not all threads have ended, one can go on; every step that is not waiting brings the threads nearer to their end; and
    from wherever the threads have got to, they can end, without objects and with the graph unlocked. *)
Theorem C94_no_deadlock_partial (ps : list (list aop)) sched s : all_keep_own ps -> aruns sched (access_start ps) = Some s ->
  (finished s \/ exists i s', astep i s = AWent s') /\ (forall i s', astep i s = AWent s' -> left_to_do s' < left_to_do s) /\
  exists more s', aruns (sched ++ more) (access_start ps) = Some s' /\ finished s' /\ a_vars s' = ∅ /\ owner s' = None.
Proof.
  exact (fun H E => conj (own_progress ps sched s H E) (conj (fun i s' => astep_shorter i s s') (own_can_finish ps sched s H E))).
Qed.
Print Assumptions C94_no_deadlock_partial.

Example C94_own_case : all_keep_own aps1 /\ let s := aend [1; 0; 1; 1; 0] aps1 in aruns [1; 0; 1; 1; 0] (access_start aps1) = Some s /\
  about_to_use (aend [1; 0] aps1) 1 /\ owner (aend [1; 0] aps1) = Some 1 /\ owner s = Some 0 /\ a_log s = [1] /\
  a_log (aend [1; 0; 1; 1; 0; 0; 0; 0; 0; 0] aps1) = [1; 0].
Proof.
  split; [exact aps1_own|]. split; [apply aend_runs; by vm_compute|].
  split; [by exists (1, 0), [ADrop (1, 0)]|]. by vm_compute.
Qed.

(** False of the code: the last copy of an object may be destroyed by any thread, but the mutex has to be unlocked by the one that locked
    it.  Whenever another thread destroys the last copy, the behaviour is undefined. *)
Theorem C94_wrong_thread_refuted (ps : list (list aop)) sched s i x g k :
  aruns sched (access_start ps) = Some s -> a_threads s !! i = Some (ADrop x :: k) -> a_vars s !! x = Some g ->
  a_getter s g <> i -> (forall y, a_vars s !! y = Some g -> y = x) -> astep i s = AUndefined.
Proof. exact (wrong_thread ps sched s i x g k). Qed.
Print Assumptions C94_wrong_thread_refuted.

Example C94_wrong_thread_case : aruns [0; 0; 0; 0; 1; 1] (access_start aps2) = None /\
  is_Some (aruns [0; 0; 0; 0; 1] (access_start aps2)) /\ is_Some (aruns [0; 0; 1; 1; 0; 0] (access_start aps2)).
Proof. split; [by vm_compute|]. split; by apply (bool_decide_unpack _). Qed.

(** False of the code: a thread with a copy of another thread's object uses the graph without waiting; both may use it at once. *)
Theorem C94_shared_copy_raced_refuted : exists ps sched s, aruns sched (access_start ps) = Some s /\ graph_race s.
Proof.
  exact (ex_intro _ aps2 (ex_intro _ [0; 0] (ex_intro _ (aend [0; 0] aps2)
    (conj (aend_runs [0; 0] aps2 eq_refl) (ex_intro _ 0 (ex_intro _ 1 (conj (O_S 0)
      (conj (ex_intro _ (0, 0) (ex_intro _ [ADrop (0, 0)] eq_refl)) (ex_intro _ (1, 0) (ex_intro _ [ADrop (1, 0)] eq_refl)))))))))).
Qed.
Print Assumptions C94_shared_copy_raced_refuted.
