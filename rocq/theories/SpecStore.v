(** Specification: the abstract store a user of Graph has in mind.
    Independent of the model; only the names of calls and exceptions are shared. *)
From stdpp Require Import prelude strings gmap.
From Verif Require Import Outcome.

Section store.
Context {D E : Type}.

(** Known frames with their content, and the property of every ordered pair of connected frames. *)
Record store := Store {
  st_frames : gmap frameid D;
  st_edges  : gmap (frameid * frameid) E }.

Definition store0 : store := Store ∅ ∅.

Definition known (st : store) (f : frameid) : Prop := is_Some (st_frames st !! f).
Global Instance known_dec st f : Decision (known st f).
Proof. unfold known. apply _. Defined.

(** Public calls by name. *)
Inductive sop : Type :=
| SEmplaceFrame (f : frameid) (d : D)      (* addFrame: d is the default content *)
| SAddEdge (o t : frameid) (p : E)
| SRemoveEdge (o t : frameid)
| SSetProp (o t : frameid) (p : E)
| SDisconnect (f : frameid)
| SRemoveFrame (f : frameid).

(** Content of frame [f] after making sure it exists. *)
Definition ensure (d0 : D) (f : frameid) (m : gmap frameid D) : gmap frameid D :=
  match m !! f with Some _ => m | None => <[f := d0]> m end.

(** What every call documents. *)
Definition spec_step (d0 : D) (einv : E -> E) (op : sop) (st : store) : store * outcome unit :=
  match op with
  | SEmplaceFrame f d =>
      if decide (known st f) then (st, Throw (XFrameAlreadyExists f))
      else (Store (<[f := d]> (st_frames st)) (st_edges st), Ret tt)
  | SAddEdge o t p =>
      match st_edges st !! (o, t) with
      | Some _ => (st, Throw (XEdgeAlreadyExists o t))
      | None => (Store (ensure d0 t (ensure d0 o (st_frames st)))
                       (<[(o, t) := p]> (<[(t, o) := einv p]> (st_edges st))), Ret tt)
      end
  | SRemoveEdge o t =>
      if decide (known st o) then
        if decide (known st t) then
          match st_edges st !! (o, t) with
          | None => (st, Throw (XUnknownEdge o t))
          | Some _ => (Store (st_frames st) (delete (o, t) (delete (t, o) (st_edges st))), Ret tt)
          end
        else (st, Throw (XUnknownFrame t))
      else (st, Throw (XUnknownFrame o))
  | SSetProp o t p =>
      if decide (known st o) then
        if decide (known st t) then
          match st_edges st !! (o, t) with
          | None => (st, Throw (XUnknownEdge o t))
          | Some _ => (Store (st_frames st)
                         (<[(o, t) := p]> (<[(t, o) := einv p]> (st_edges st))), Ret tt)
          end
        else (st, Throw (XUnknownFrame t))
      else (st, Throw (XUnknownFrame o))
  | SDisconnect f =>
      if decide (known st f) then
        (Store (st_frames st) (filter (fun kv => fst (fst kv) <> f /\ snd (fst kv) <> f) (st_edges st)),
         Ret tt)
      else (st, Throw (XUnknownFrame f))
  | SRemoveFrame f =>
      if decide (known st f) then
        if decide (map_Exists (fun k (_ : E) => fst k = f \/ snd k = f) (st_edges st))
        then (st, Throw (XFrameStillConnected f))
        else (Store (delete f (st_frames st)) (st_edges st), Ret tt)
      else (st, Throw (XUnknownFrame f))
  end.

(** A sequence of calls whose exceptions are caught. *)
Fixpoint spec_run (d0 : D) (einv : E -> E) (ops : list sop) (st : store) : store :=
  match ops with
  | [] => st
  | op :: ops' => spec_run d0 einv ops' (fst (spec_step d0 einv op st))
  end.

End store.
Global Arguments store : clear implicits.
Global Arguments sop : clear implicits.
