(** Model of the identifiers of items: SpatioTemporal::generateNewUUID and RandomGenerator, used by several threads.
    Executable definitions only. *)
From stdpp Require Import prelude gmap.
From Verif Require Import Outcome.

Section uuid.
(* [draw] is operator() of boost::uuids::random_generator: the identifier and the new state of the generator.
   /repo/src/items/SpatioTemporal.hpp:91-94, /repo/src/items/RandomGenerator.hpp:47-57.
   [which] says which generator a thread uses. *)
Context {G U : Type} (draw : G -> U * G) (which : nat -> nat).

(* How a program makes an item: constructors that draw an identifier, the copy constructor, clone.
   /repo/src/items/Item.hpp:58-68, 70-76, 87-94. *)
Inductive mk := MNew | MCopy (i : nat) | MClone (i : nat).

(* States of the generators; for every thread in the middle of operator(), the state it has read and the item it makes;
   the items made so far with their identifiers.  Simplified: a thread reads the whole state of a generator at once and writes it
   at once (in C++ both may be interrupted and the overlap is a data race). *)
Record ids := Ids { id_gens : nat -> G; id_busy : gmap nat (G * mk); id_objs : list (mk * U) }.

(* Before the first item, /repo/src/items/SpatioTemporal.hpp:91-94. *)
Definition ids_new (g0 : nat -> G) : ids := Ids g0 ∅ [].

(* An item is finished: a new one has the identifier drawn, a copy or clone that of the original.
   /repo/src/items/Item.hpp:61, 67, 73, 91. *)
Definition finish (a : mk) (u : U) (l : list (mk * U)) : list (mk * U) :=
  match a with
  | MNew => l ++ [(a, u)]
  | MCopy i | MClone i => match l !! i with Some (_, v) => l ++ [(a, v)] | None => l end
  end.

(* The item at [i] exists, as far as the statement needs one.  Client code of /repo/src/items/Item.hpp:58-94. *)
Definition possible (a : mk) (l : list (mk * U)) : bool :=
  match a with MNew => true | MCopy i | MClone i => bool_decide (i < length l) end.

(* Thread [t] goes on: it finishes the call of operator() it is in, or it starts to make an item as [a] says; a copy needs no
   identifier, a clone draws one and drops it (/repo/src/items/Item.hpp:89-91).  A thread cannot copy an item that does not exist. *)
Definition id_step (x : nat * mk) (s : ids) : ids :=
  let '(t, a) := x in
  match id_busy s !! t with
  | Some (g, a') =>
      let '(u, g') := draw g in
      Ids (fun i => if Nat.eqb i (which t) then g' else id_gens s i) (delete t (id_busy s)) (finish a' u (id_objs s))
  | None =>
      if possible a (id_objs s) then
        match a with
        | MCopy i => Ids (id_gens s) (id_busy s) (match id_objs s !! i with Some (_, v) => id_objs s ++ [(a, v)] | None => id_objs s end)
        | _ => Ids (id_gens s) (<[t := (id_gens s (which t), a)]> (id_busy s)) (id_objs s)
        end
      else s
  end.

(* A schedule of threads.  Same lines. *)
Definition id_run (l : list (nat * mk)) (s : ids) : ids := foldl (fun s x => id_step x s) s l.
End uuid.
Global Arguments ids : clear implicits.

(* SpatioTemporal::generateNewUUID, which every constructor of an item calls: one generator for the whole process
   (base::Singleton).  /repo/src/items/SpatioTemporal.hpp:91-94, /repo/src/items/Item.hpp:61, 67. *)
Definition shared_generator (t : nat) : nat := 0.
(* RandomGenerator::getRandomGenerator: one generator for every thread.  Nothing in the repository calls it.
   /repo/src/items/RandomGenerator.hpp:47-57. *)
Definition thread_generator (t : nat) : nat := t.
