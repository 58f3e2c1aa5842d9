(** Specification of route queries, in terms of the public const calls only. *)
From stdpp Require Import prelude strings gmap.
From Verif Require Import Outcome Digraph TreeView GraphModel.

(** Two frames are joined by an edge. *)
Definition joined {D E} (s : gst D E) (a b : frameid) : Prop := contains_edge s a b = Ret true.
