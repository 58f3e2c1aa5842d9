(** What is said about access objects.  Independent of the mutex: which programs keep their objects to themselves, and what a race is.
    No proofs in this file. *)
From stdpp Require Import prelude gmap.
From Verif Require Import AccessModel.

(* A program of thread [i] that only has objects of its own, uses only objects that exist, [xs] at the moment, and in the
   end has destroyed all of them. *)
Fixpoint keeps_own (i : nat) (xs : gset avar) (p : list aop) : Prop :=
  match p with
  | [] => xs = ∅
  | AGet x :: p' => x.1 = i /\ keeps_own i ({[x]} ∪ xs) p'
  | ACopy x y :: p' => x ∈ xs /\ y.1 = i /\ keeps_own i ({[y]} ∪ xs) p'
  | ADrop x :: p' => x ∈ xs /\ keeps_own i (xs ∖ {[x]}) p'
  | AUse x :: p' => x ∈ xs /\ keeps_own i xs p'
  end.
Definition all_keep_own (ps : list (list aop)) : Prop := forall i p, ps !! i = Some p -> keeps_own i ∅ p.

(* The next thing thread [i] does is to use the graph. *)
Definition about_to_use (s : astate) (i : nat) : Prop := exists x k, a_threads s !! i = Some (AUse x :: k).

(* A data race: two threads are about to use the graph. *)
Definition graph_race (s : astate) : Prop := exists i j, i <> j /\ about_to_use s i /\ about_to_use s j.

(* The thread the mutex belongs to. *)
Definition owner (s : astate) : option nat := fst <$> a_mutex s.

Definition finished (s : astate) : Prop := forall i p, a_threads s !! i = Some p -> p = [].

(* The number of things the threads have still to do. *)
Definition left_to_do (s : astate) : nat := length (concat (a_threads s)).
