(** Vocabulary for the identifiers of items. *)
From stdpp Require Import prelude gmap.
From Verif Require Import UuidModel.

(** The items from which the items made by [l] come: a new item comes from itself, a copy or clone from where its original comes. *)
Definition origin_of (os : list nat) (a : mk) : nat :=
  match a with MNew => length os | MCopy i | MClone i => default 0 (os !! i) end.
Definition origins (l : list mk) : list nat := foldl (fun os a => os ++ [origin_of os a]) [] l.

Section spec.
Context {G U : Type} (draw : G -> U * G) (which : nat -> nat).

(** The [n]-th identifier a generator gives when it is left alone. *)
Definition nth_id (g : G) (n : nat) : U := (draw (Nat.iter n (fun g => (draw g).2) g)).1.
(** No generator ever repeats itself or another one. *)
Definition no_repetition (g0 : nat -> G) : Prop := forall i j m n, nth_id (g0 i) m = nth_id (g0 j) n -> i = j /\ m = n.

(** No thread begins to use a generator that another one is using. *)
Fixpoint in_turns (l : list (nat * mk)) (s : ids G U) : Prop :=
  match l with
  | [] => True
  | (t, a) :: l' => (id_busy s !! t = None -> a <> MNew /\ (forall i, a <> MClone i) \/
                      forall t', t' <> t -> which t' = which t -> id_busy s !! t' = None) /\
                    in_turns l' (id_step draw which (t, a) s)
  end.
End spec.

(** Thread [t] makes [n] new items, two accesses to the generator each. *)
Definition makes (t n : nat) : list (nat * mk) := concat (replicate n [(t, MNew); (t, MNew)]).
