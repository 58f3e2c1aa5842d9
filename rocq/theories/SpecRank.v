(** Vocabulary for the order in which frames were added. *)
From stdpp Require Import prelude strings.
From Verif Require Import Outcome.

(** The frames in the order they were added, removed ones crossed out, according to the events of a graph. *)
Definition slot (l : list (option frameid)) (e : event) : list (option frameid) :=
  match e with
  | EvFrameAdded f => l ++ [Some f]
  | EvFrameRemoved f => (fun x => if decide (x = Some f) then None else x) <$> l
  | _ => l
  end.
Definition slots (evs : list event) : list (option frameid) := foldl slot [] evs.

(** No frame was removed that had been added before a frame still there. *)
Definition no_gap (l : list (option frameid)) : Prop :=
  forall i j f, i < j -> l !! j = Some (Some f) -> l !! i <> Some None.
