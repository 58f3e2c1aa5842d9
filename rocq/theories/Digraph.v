(** boost::labeled_graph<boost::directed_graph<F,E>> as used by envire_core.
    Executable definitions only.  The boost sources are not part of /repo; what
    is modelled is their behaviour at the call sites cited below. *)
From stdpp Require Import prelude strings gmap.
From Verif Require Import Outcome.

Section digraph.
Context {D E : Type}.

(* One stored vertex: its address, boost's vertex_index, FRAME_PROP::getId() and the
   remaining content of FRAME_PROP.
   /repo/src/graph/GraphTypes.hpp:126-159 (GraphBase), /repo/src/items/Frame.hpp:52-60. *)
Record vrec := VRec { v_id : vid; v_index : nat; v_name : frameid; v_data : D }.

(* One stored directed edge: its address, source, target and EDGE_PROP.
   /repo/src/graph/GraphTypes.hpp:126-159. *)
Record erec := ERec { e_id : eid; e_src : vid; e_tgt : vid; e_prop : E }.

(* State of the graph object.  [dg_verts] / [dg_edges] are boost's vertex and edge lists in
   iteration order (listS, static_asserts at /repo/src/graph/Graph.hpp:388-396),
   [dg_map] is labeled_graph::_map, [dg_nv]/[dg_ne] are directed_graph's counters,
   [dg_maxvi] its m_max_vertex_index, [dg_nextv]/[dg_nexte] the allocator (addresses are
   fresh numbers).
   Simplification: the per-vertex out- and in-edge lists are not stored; they are the
   sub-sequences of [dg_edges], which is what boost's push_back/erase keep. *)
Record digraph := Digraph {
  dg_verts : list vrec;
  dg_edges : list erec;
  dg_map   : gmap frameid vid;
  dg_nextv : vid;
  dg_nexte : eid;
  dg_maxvi : nat;
  dg_nv    : nat;
  dg_ne    : nat }.

(* Default constructor of the graph, /repo/src/graph/Graph.hpp:384-400. *)
Definition bg_empty : digraph := Digraph [] [] ∅ 1 1 0 0 0.

(* labeled_graph::vertex(label): null_vertex if unknown; used at
   /repo/src/graph/Graph.hpp:423, 478, 664-665, 1025. *)
Definition bg_vertex (g : digraph) (l : frameid) : vid :=
  default null_vertex (dg_map g !! l).

(* Is the descriptor a pointer to a live vertex?  Not a C++ function: dereferencing a
   descriptor for which this is false is undefined behaviour
   (e.g. graph()[vertex] at /repo/src/graph/Graph.hpp:472). *)
Definition bg_alive (g : digraph) (v : vid) : bool :=
  existsb (fun r => Nat.eqb (v_id r) v) (dg_verts g).

(* Dereferencing a vertex descriptor, graph()[v]; /repo/src/graph/Graph.hpp:472, 932. *)
Definition bg_vrec (g : digraph) (v : vid) : option vrec :=
  find (fun r => Nat.eqb (v_id r) v) (dg_verts g).

(* Name stored at a live vertex (graph()[v].getId()); total only for convenience, callers
   check liveness.  /repo/src/graph/Graph.hpp:472. *)
Definition bg_name (g : digraph) (v : vid) : frameid :=
  default ""%string (v_name <$> bg_vrec g v).

(* boost::edge(u,v,g): first edge in u's out list with target v;
   /repo/src/graph/Graph.hpp:459, 637, 691-692, 888, 893, 1056. *)
Definition bg_edge (g : digraph) (u v : vid) : option erec :=
  find (fun e => Nat.eqb (e_src e) u && Nat.eqb (e_tgt e) v) (dg_edges g).

(* Dereferencing an edge descriptor, this->operator[](edge); /repo/src/graph/Graph.hpp:869. *)
Definition bg_erec (g : digraph) (i : eid) : option erec :=
  find (fun e => Nat.eqb (e_id e) i) (dg_edges g).

(* boost::out_edges(u,g); /repo/src/graph/Graph.hpp:497. *)
Definition bg_out (g : digraph) (u : vid) : list erec :=
  filter (fun e => e_src e = u) (dg_edges g).

(* in-edges of u, part of boost::degree; /repo/src/graph/Graph.hpp:510, 800. *)
Definition bg_in (g : digraph) (u : vid) : list erec :=
  filter (fun e => e_tgt e = u) (dg_edges g).

(* boost::degree(u,g) of a bidirectional graph: in_degree + out_degree;
   /repo/src/graph/Graph.hpp:510, 800. *)
Definition bg_degree (g : digraph) (u : vid) : nat :=
  length (bg_in g u) + length (bg_out g u).

(* labeled_graph::add_vertex(label, prop): inserts into the label map first and creates a vertex
   only if the label is new, otherwise returns the vertex already stored;
   called at /repo/src/graph/Graph.hpp:441. *)
Definition bg_add_vertex (l : frameid) (d : D) (g : digraph) : digraph * vid :=
  match dg_map g !! l with
  | Some v => (g, v)
  | None =>
      let v := dg_nextv g in
      (Digraph (dg_verts g ++ [VRec v (dg_maxvi g) l d]) (dg_edges g)
               (<[l := v]> (dg_map g)) (S v) (dg_nexte g) (S (dg_maxvi g))
               (S (dg_nv g)) (dg_ne g), v)
  end.

(* boost::add_edge(u,v,prop,g) with listS edge lists: always inserts;
   /repo/src/graph/Graph.hpp:643-648. *)
Definition bg_add_edge (u v : vid) (p : E) (g : digraph) : digraph * eid :=
  let i := dg_nexte g in
  (Digraph (dg_verts g) (dg_edges g ++ [ERec i u v p]) (dg_map g)
           (dg_nextv g) (S i) (dg_maxvi g) (dg_nv g) (S (dg_ne g)), i).

(* boost::remove_edge(descriptor, g); removing an edge that is not there (descriptor of a
   destroyed edge) is undefined behaviour, expressed by None.
   /repo/src/graph/Graph.hpp:698, 701. *)
Definition bg_remove_edge (i : eid) (g : digraph) : option digraph :=
  match bg_erec g i with
  | None => None
  | Some _ =>
      Some (Digraph (dg_verts g) (filter (fun e => e_id e <> i) (dg_edges g)) (dg_map g)
                    (dg_nextv g) (dg_nexte g) (dg_maxvi g) (dg_nv g) (pred (dg_ne g)))
  end.

(* boost::remove_vertex(v, directed_graph) followed by _map.erase(label);
   /repo/src/graph/Graph.hpp:515-522.  The vertex list entry disappears, indices of other
   vertices are not renumbered, edges are not touched. *)
Definition bg_remove_vertex (v : vid) (l : frameid) (g : digraph) : digraph :=
  Digraph (filter (fun r => v_id r <> v) (dg_verts g)) (dg_edges g) (delete l (dg_map g))
          (dg_nextv g) (dg_nexte g) (dg_maxvi g) (pred (dg_nv g)) (dg_ne g).

(* this->operator[](edge) = prop; /repo/src/graph/Graph.hpp:894, 898. *)
Definition bg_set_prop (i : eid) (p : E) (g : digraph) : digraph :=
  Digraph (dg_verts g)
          ((fun e => if Nat.eqb (e_id e) i then ERec (e_id e) (e_src e) (e_tgt e) p else e)
             <$> dg_edges g)
          (dg_map g) (dg_nextv g) (dg_nexte g) (dg_maxvi g) (dg_nv g) (dg_ne g).

(* Writing to the frame property through graph()[v] / this->operator[](frame);
   /repo/src/graph/EnvireGraph.cpp:122, 130, 266. *)
Definition bg_set_data (v : vid) (d : D) (g : digraph) : digraph :=
  Digraph ((fun r => if Nat.eqb (v_id r) v then VRec (v_id r) (v_index r) (v_name r) d else r)
             <$> dg_verts g)
          (dg_edges g) (dg_map g) (dg_nextv g) (dg_nexte g) (dg_maxvi g) (dg_nv g) (dg_ne g).

End digraph.
Global Arguments vrec : clear implicits.
Global Arguments erec : clear implicits.
Global Arguments digraph : clear implicits.
