(** Vocabulary for renamed frames. *)
From stdpp Require Import prelude strings gmap.
From Verif Require Import Outcome GraphModel.

(** Renaming one name in a list. *)
Definition renamed (f n x : frameid) : frameid := if decide (x = f) then n else x.

(** No name leads to the vertex. *)
Definition nameless {D E} (s : gst D E) (v : vid) : Prop := forall x, get_vertex s x <> Ret v.
