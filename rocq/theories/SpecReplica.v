(** What a subscriber knows about a graph from the events alone: frames, undirected edges and items. *)
From stdpp Require Import prelude strings gmap gmultiset.
From Verif Require Import Outcome.

(** An undirected edge is present in both directions; an item may be in a frame several times. *)
Record replica := Replica {
  r_frames : gset frameid;
  r_edges : gset (frameid * frameid);
  r_items : gmultiset (frameid * iptr) }.

Global Instance replica_eq_dec : EqDecision replica.
Proof. solve_decision. Defined.

Definition empty_replica : replica := Replica ∅ ∅ ∅.

(** Nothing else in the replica mentions the frame. *)
Definition bare (r : replica) (f : frameid) : bool :=
  bool_decide (set_Forall (fun e : frameid * frameid => e.1 <> f /\ e.2 <> f) (r_edges r)) &&
  bool_decide (set_Forall (fun i : frameid * iptr => i.1 <> f) (dom (r_items r))).

(** Effect of an event; [None] if the event contradicts the replica. *)
Definition apply_event (ev : event) (r : replica) : option replica :=
  match ev with
  | EvFrameAdded f =>
      if bool_decide (f ∈ r_frames r) then None else Some (Replica ({[f]} ∪ r_frames r) (r_edges r) (r_items r))
  | EvFrameRemoved f =>
      if bool_decide (f ∈ r_frames r) && bare r f then Some (Replica (r_frames r ∖ {[f]}) (r_edges r) (r_items r)) else None
  | EvEdgeAdded o t _ =>
      if bool_decide (o ∈ r_frames r) && bool_decide (t ∈ r_frames r) && bool_decide ((o, t) ∉ r_edges r) && bool_decide ((t, o) ∉ r_edges r)
      then Some (Replica (r_frames r) ({[(o, t); (t, o)]} ∪ r_edges r) (r_items r)) else None
  | EvEdgeModified o t _ _ => if bool_decide ((o, t) ∈ r_edges r) && bool_decide ((t, o) ∈ r_edges r) then Some r else None
  | EvEdgeRemoved o t =>
      if bool_decide ((o, t) ∈ r_edges r) && bool_decide ((t, o) ∈ r_edges r)
      then Some (Replica (r_frames r) (r_edges r ∖ {[(o, t); (t, o)]}) (r_items r)) else None
  | EvItemAdded f i =>
      if bool_decide (f ∈ r_frames r) then Some (Replica (r_frames r) (r_edges r) (r_items r ⊎ {[+ (f, i) +]})) else None
  | EvItemRemoved f i =>
      if bool_decide ((f, i) ∈ r_items r) then Some (Replica (r_frames r) (r_edges r) (r_items r ∖ {[+ (f, i) +]})) else None
  end.

(** All events in order; [None] as soon as one is not applicable. *)
Fixpoint replay (evs : list event) (r : replica) : option replica :=
  match evs with
  | [] => Some r
  | ev :: evs => match apply_event ev r with Some r' => replay evs r' | None => None end
  end.

(** Edges and items are between and in known frames; edges are present in both directions. *)
Definition sound_replica (r : replica) : Prop :=
  (forall a b, (a, b) ∈ r_edges r -> a ∈ r_frames r /\ b ∈ r_frames r /\ (b, a) ∈ r_edges r) /\
  (forall f i, (f, i) ∈ r_items r -> f ∈ r_frames r).
