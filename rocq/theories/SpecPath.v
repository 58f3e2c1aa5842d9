(** Vocabulary for statements about paths. *)
From stdpp Require Import prelude strings gmap.
From Verif Require Import Outcome Digraph TreeView GraphModel GraphOps SpecObs GraphStep TransformModel SpecWalk SpecSearch SpecTransform PathModel.

(** [a] and [b] follow each other in the list. *)
Definition consecutive {A} (l : list A) (a b : A) : Prop := exists k, l !! k = Some a /\ l !! S k = Some b.

(** Steps without self edges. *)
Definition phist_ok {T D} (h : list (pop T D)) : Prop :=
  Forall (fun op => match op with PGraph _ op => op_noself op | PQuery => True end) h.

(** No step ended in undefined behaviour. *)
Definition defined {A} (r : outcome A) : Prop := match r with Ret _ | Throw _ => True | _ => False end.
