(** Vocabulary for a subscriber in a program with several graphs. *)
From stdpp Require Import prelude strings gmap gmultiset.
From Verif Require Import Outcome ItemClass Digraph TreeView GraphModel ItemsModel SpecReplica SpecItems RoamModel.

Section spec.
Context {E : Type} (einv : E -> E).
Implicit Types s : roam E.

(** Steps that the program may make: legal graph calls with events that tell everything (C28), and moves of the subscriber that
    ask for the current state. *)
Definition told s (op : rop E) : Prop :=
  match op with
  | RStep op => wop_ok op /\
      match op with WCall g op => forall t, in_world (ro_w s) g t -> logged t op | _ => True end
  | RSub _ publish => publish = true
  | _ => False
  end.

(** Every step of a history satisfies [C] in the state it is made in. *)
Fixpoint all_steps (C : roam E -> rop E -> Prop) (h : list ((viewid -> order) * iorder * rop E)) s : Prop :=
  match h with
  | [] => True
  | (ord, io, op) :: h' => iorder_ok io /\ C s op /\ all_steps C h' (rstep einv ord io op s).1.1
  end.

(** A step that is about graph [g] only and does not switch its events on again. *)
Definition about (g : nat) (op : rop E) : Prop :=
  match op with
  | RStep (WNew g') | RStep (WCall g' _) | RStep (WCopy _ g') | RStep (WFilterCopy _ _ _ g') => g' = g
  | RSub g' _ | RPubSub g' _ | RPubUnsub g' _ => g' = g
  | RUnsub => True
  | REnable g' b => g' = g -> b = false
  end.

(** The subscriber's replica is exactly the graph its pPublisher points to; without one it knows nothing. *)
Definition knows s (r : replica) : Prop :=
  match ro_at s with
  | Some g => exists t, in_world (ro_w s) g t /\ mirrors t r
  | None => r = empty_replica
  end.

End spec.
