(** Specification of the event queue. *)
From stdpp Require Import prelude strings gmap gmultiset.
From Verif Require Import Outcome SpecReplica.

(** The two ends of the edge an event is about. *)
Definition edge_of (ev : event) : option (frameid * frameid) :=
  match ev with
  | EvEdgeAdded o t _ | EvEdgeModified o t _ _ | EvEdgeRemoved o t => Some (o, t)
  | _ => None
  end.
(** The event is about the undirected edge between [a] and [b]. *)
Definition on_edge (a b : frameid) (ev : event) : Prop := edge_of ev = Some (a, b) \/ edge_of ev = Some (b, a).
Definition is_modify (ev : event) : Prop := match ev with EvEdgeModified _ _ _ _ => True | _ => False end.
Definition is_remove (ev : event) : Prop := match ev with EvEdgeRemoved _ _ => True | _ => False end.
Definition is_add (ev : event) : Prop := match ev with EvEdgeAdded _ _ _ => True | _ => False end.
(** The event is about an item of the frame. *)
Definition on_items (f : frameid) (ev : event) : Prop :=
  match ev with EvItemAdded g _ | EvItemRemoved g _ => g = f | _ => False end.

(** No edge of the replica is removed twice. *)
Definition removed_once (r : replica) (evs : list event) : Prop :=
  forall a b x y, (a, b) ∈ r_edges r -> sublist [x; y] evs -> on_edge a b x -> on_edge a b y -> is_remove x -> is_remove y -> False.
(** No frame is added, gets item events and is removed again. *)
Definition no_short_lived_items (evs : list event) : Prop :=
  forall f x, sublist [EvFrameAdded f; x; EvFrameRemoved f] evs -> on_items f x -> False.
(** Frames after replaying only the frame events, without asking for consistency. *)
Definition frames_after (evs : list event) (F : gset frameid) : gset frameid :=
  foldl (fun F ev => match ev with EvFrameAdded f => {[f]} ∪ F | EvFrameRemoved f => F ∖ {[f]} | _ => F end) F evs.
(** Undirected edges after replaying only the edge events, without asking for consistency. *)
Definition edges_after (evs : list event) (X : gset (frameid * frameid)) : gset (frameid * frameid) :=
  foldl (fun X ev => match ev with
    | EvEdgeAdded o t _ => {[(o, t); (t, o)]} ∪ X | EvEdgeRemoved o t => X ∖ {[(o, t); (t, o)]} | _ => X end) X evs.
