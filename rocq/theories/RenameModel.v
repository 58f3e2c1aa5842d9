(** Model of renaming a frame behind the graph's back.  Executable definitions only. *)
From stdpp Require Import prelude strings gmap.
From Verif Require Import Outcome Digraph GraphModel.

Section rename.
Context {D E : Type}.

(* The id member of the frame property of the vertex [v] is overwritten; the label map of the labeled_graph is not told.
   /repo/src/items/Frame.hpp:74, as done at /repo/test/test_graph.cpp:1394-1398. *)
Definition bg_set_name (v : vid) (n : frameid) (g : digraph D E) : digraph D E :=
  Digraph ((fun r => if Nat.eqb (v_id r) v then VRec (v_id r) (v_index r) n (v_data r) else r) <$> dg_verts g)
          (dg_edges g) (dg_map g) (dg_nextv g) (dg_nexte g) (dg_maxvi g) (dg_nv g) (dg_ne g).

(* graph()[v].setId(n), which any code can call as the base class labeled_graph is public; a dangling descriptor is UB.
   /repo/src/graph/Graph.hpp:61, /repo/src/items/Frame.hpp:74. *)
Definition set_frame_id (v : vid) (n : frameid) : call (gst D E) unit := fun s =>
  if bg_alive (gs_dg s) v then (gs_set_dg (bg_set_name v n (gs_dg s)) s, [], Ret tt) else (s, [], UB).
End rename.
