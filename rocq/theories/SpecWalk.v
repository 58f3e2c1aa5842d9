(** Specification: routes in a relation. *)
From stdpp Require Import prelude.

Section walk.
Context {A : Type} (R : A -> A -> Prop).

(** Consecutive elements are related. *)
Fixpoint chain (l : list A) : Prop :=
  match l with
  | a :: l' => match l' with b :: _ => R a b | [] => True end /\ chain l'
  | [] => True
  end.

(** [l] leads from [a] to [b]. *)
Definition route (a b : A) (l : list A) : Prop :=
  head l = Some a /\ last l = Some b /\ chain l.

Definition linked (a b : A) : Prop := exists l, route a b l.

(** A shortest route: no route from [a] to [b] has fewer elements. *)
Definition shortest (a b : A) (l : list A) : Prop :=
  route a b l /\ forall l', route a b l' -> length l <= length l'.

End walk.
