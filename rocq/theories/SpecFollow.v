(** Vocabulary for clients that follow a graph through a queue or through a typed dispatcher. *)
From stdpp Require Import prelude strings gmap gmultiset.
From Verif Require Import Outcome ItemClass Digraph TreeView GraphModel ItemsModel SpecReplica SpecQueue SpecItems QueueModel.

Section spec.
Context {E : Type} (einv : E -> E).
Implicit Types s : est E.

(** A history: graph calls with the iteration orders of the hash tables they walk. *)
Notation history := (list ((viewid -> order) * iorder * eop E)).

(** The client's replica after each window of calls has been followed by a flush of the queue; [None] if a processed event
    contradicts the replica. *)
Fixpoint flushed (hs : list history) s (r : replica) : option replica :=
  match hs with
  | [] => Some r
  | h :: hs => let '(s', ev, _) := erun einv h s in
      match replay (q_receive ev) r with Some r' => flushed hs s' r' | None => None end
  end.

(** The graph after all windows. *)
Fixpoint state_after (hs : list history) s : est E :=
  match hs with [] => s | h :: hs => state_after hs (erun einv h s).1.1 end.

(** The calls are defined and announced in full (C28). *)
Definition announced (h : history) s : Prop :=
  ehist_ok h /\ all_calls einv logged h s /\ (erun einv h s).2 = Ret tt.

(** Within one window no edge that was there before is removed twice and no frame is added, gets item events and is
    removed again (C35). *)
Definition calm (h : history) s : Prop :=
  let ev := (erun einv h s).1.2 in
  (forall a b x y, contains_edge (es_g s) a b = Ret true -> sublist [x; y] ev ->
     on_edge a b x -> on_edge a b y -> is_remove x -> is_remove y -> False) /\ no_short_lived_items ev.

(** [P] holds of every window in the state it starts in. *)
Fixpoint every_window (P : history -> est E -> Prop) (hs : list history) s : Prop :=
  match hs with [] => True | h :: hs => P h s /\ every_window P hs (erun einv h s).1.1 end.

(** How often an item was added to a frame, less how often it was removed, according to some events. *)
Definition balance (evs : list event) (f : frameid) (i : iptr) : Z :=
  (Z.of_nat (times (EvItemAdded f i) evs) - Z.of_nat (times (EvItemRemoved f i) evs))%Z.

(** [cls] tells the class of every item object of the program. *)
Definition classes s (cls : iptr -> iclass) : Prop := forall i x, deref s i = Ret x -> cls i = it_class x.

End spec.
