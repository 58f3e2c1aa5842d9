(** Model of the access objects of ThreadSaveEnvireGraph (/repo/src/util/ThreadSaveEnvireGraph.hpp:21-64) used by several threads.
    Executable definitions only. *)
From stdpp Require Import prelude gmap.

(* A variable of type GraphAccess; the first number is the thread whose variable it is.
   /repo/src/util/ThreadSaveEnvireGraph.hpp:21-55. *)
Definition avar : Type := nat * nat.

(* What a thread does: x = getThreadSaveAccess() (62-64), y = x or the construction of y as a copy of x (the copy functions the compiler
   generates for 21-55), the end of the life of x (36-38), a use of the graph through x (40-42).
   A guarded member function such as addFrame (82-85) is the three steps AGet x, AUse x, ADrop x of an object nobody else knows.
   /repo/src/util/ThreadSaveEnvireGraph.hpp. *)
Inductive aop : Type := AGet (x : avar) | ACopy (x y : avar) | ADrop (x : avar) | AUse (x : avar).

(* The objects, the lock_guards they share, the mutex with its owner and count, what the threads have still to do, and the threads that
   used the graph, in order.  [a_vars]: the number of the lock_guard the object holds a shared_ptr to; the lock_guard is
   deleted with the last of them (53).  [a_getter]: the thread that created a lock_guard, kept for statements only.
   Simplification: shared_ptr counts the objects itself, lock_guards are not numbered twice.
   /repo/src/util/ThreadSaveEnvireGraph.hpp:51-54, 195-199. *)
Record astate := AState {
  a_vars : gmap avar nat;
  a_mutex : option (nat * nat);
  a_threads : list (list aop);
  a_getter : nat -> nat;
  a_next : nat;
  a_log : list nat }.

(* Before the threads start, /repo/src/util/ThreadSaveEnvireGraph.hpp:57. *)
Definition access_start (ps : list (list aop)) : astate := AState ∅ None ps (fun _ => 0) 0 [].

(* One step of a thread: it goes on, it waits for the mutex, it has ended, or undefined behaviour.
   /repo/src/util/ThreadSaveEnvireGraph.hpp:21-64. *)
Inductive aprogress : Type := AWent (s : astate) | AWaits | AEnded | AUndefined.

(* Does an object hold a shared_ptr to lock_guard [g]?  /repo/src/util/ThreadSaveEnvireGraph.hpp:53. *)
Definition shared (m : gmap avar nat) (g : nat) : bool := bool_decide (g ∈ (map_to_list m).*2).

(* The shared_ptr that held [old] was overwritten or destroyed, [m] are the objects after that: if it was the last, thread [i] runs the
   destructor of the lock_guard, which unlocks the mutex; None if the mutex is not its.
   /repo/src/util/ThreadSaveEnvireGraph.hpp:53. *)
Definition release (i : nat) (m : gmap avar nat) (old : option nat) (mu : option (nat * nat)) : option (option (nat * nat)) :=
  match old with
  | None => Some mu
  | Some g =>
    if shared m g then Some mu else
    match mu with
    | Some (j, S n) => if Nat.eqb j i then Some (match n with 0 => None | S _ => Some (j, n) end) else None
    | Some (_, 0) | None => None
    end
  end.

(* One step of thread [i].  Assignment acquires the mutex before the old lock_guard is given up (the temporary object is complete first).
   Using an object that does not exist is undefined.  /repo/src/util/ThreadSaveEnvireGraph.hpp:21-64. *)
Definition astep (i : nat) (s : astate) : aprogress :=
  match a_threads s !! i with
  | None | Some [] => AEnded
  | Some (o :: k) =>
    let put m mu get nx log := AWent (AState m mu (<[i := k]> (a_threads s)) get nx log) in
    let change m old mu get nx := match release i m old mu with None => AUndefined | Some mu' => put m mu' get nx (a_log s) end in
    match o with
    | AGet x =>
      let go mu := let g := a_next s in
        change (<[x := g]> (a_vars s)) (a_vars s !! x) mu (fun h => if Nat.eqb h g then i else a_getter s h) (S g) in
      match a_mutex s with
      | None => go (Some (i, 1))
      | Some (j, n) => if Nat.eqb j i then go (Some (i, S n)) else AWaits
      end
    | ACopy x y =>
      match a_vars s !! x with
      | None => AUndefined
      | Some g => change (<[y := g]> (a_vars s)) (a_vars s !! y) (a_mutex s) (a_getter s) (a_next s)
      end
    | ADrop x =>
      match a_vars s !! x with
      | None => AUndefined
      | Some g => change (delete x (a_vars s)) (Some g) (a_mutex s) (a_getter s) (a_next s)
      end
    | AUse x =>
      match a_vars s !! x with
      | None => AUndefined
      | Some g => put (a_vars s) (a_mutex s) (a_getter s) (a_next s) (a_log s ++ [i])
      end
    end
  end.

(* The threads scheduled in any order; None is undefined behaviour.  /repo/src/util/ThreadSaveEnvireGraph.hpp:21-64. *)
Fixpoint aruns (sched : list nat) (s : astate) : option astate :=
  match sched with
  | [] => Some s
  | i :: sched' =>
    match astep i s with
    | AWent s' => aruns sched' s'
    | AWaits | AEnded => aruns sched' s
    | AUndefined => None
    end
  end.
