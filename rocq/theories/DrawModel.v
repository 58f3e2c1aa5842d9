(** Model of the dot output (/repo/src/graph/GraphDrawing.hpp).  Executable definitions only. *)
From stdpp Require Import prelude strings gmap pretty.
From Verif Require Import Outcome ItemClass Digraph TreeView GraphModel ItemsModel MiscModel.

(* std::endl and "\n", /repo/src/graph/GraphDrawing.hpp:130. *)
Definition newline : string := String (Ascii.ascii_of_nat 10) "".

(* Output of the elements of a sequence one after the other, /repo/src/graph/GraphDrawing.hpp:54-59. *)
Fixpoint texts (l : list string) : string :=
  match l with
  | [] => ""
  | x :: l' => x +:+ texts l'
  end.

(* GraphPropWriter, /repo/src/graph/GraphDrawing.hpp:127-131. *)
Definition graph_text : string :=
  "graph[size=""88,136"", ranksep=3.0, nodesep=2.0, fontname=""Helvetica"", fontsize=8];" +:+ newline.

(* boost::get(boost::vertex_index, graph, v), implicit in /repo/src/graph/GraphDrawing.hpp:172; total only for convenience, the ends of an
   edge are alive. *)
Definition bg_index {D E} (g : digraph D E) (v : vid) : nat := default 0 (v_index <$> bg_vrec g v).

(* boost::write_graphviz as called at /repo/src/graph/GraphDrawing.hpp:172-175, 181-184, 190-193, from Boost's documentation:
   header, graph properties, one statement per vertex, one per edge, closing brace.  Vertices are named by their vertex index,
   sizes and indices are printed in decimal ([pretty]).
   [vtext], [etext]: what the vertex and edge writers print. *)
Definition write_graphviz {D E} (vtext : vrec D -> string) (etext : erec E -> string) (g : digraph D E) : string :=
  "digraph G {" +:+ newline +:+ graph_text +:+
  texts ((fun v => pretty (v_index v) +:+ vtext v +:+ ";" +:+ newline) <$> dg_verts g) +:+
  texts ((fun e => pretty (bg_index g (e_src e)) +:+ "->" +:+ pretty (bg_index g (e_tgt e)) +:+ " " +:+ etext e +:+ ";" +:+ newline)
           <$> dg_edges g) +:+
  "}" +:+ newline.

(* EnvireGraphVertexWriter, /repo/src/graph/GraphDrawing.hpp:46-61, with Frame::calculateTotalItemCount
   (/repo/src/items/Frame.hpp:82-91).  [io]: iteration order of the item map, [tname]: demangleTypeName of the type
   (/repo/src/util/Demangle.cpp:32-52, calls the C++ runtime). *)
Definition frame_text (io : iorder) (tname : tyid -> string) (v : vrec imap) : string :=
  let rows := (fun T => (T, default [] (v_data v !! T))) <$> io (v_id v) (v_data v) in
  "[shape=record, label=""{{" +:+ v_name v +:+ "|" +:+
  pretty (foldl (fun c l => c + length l) 0 (lists_of io (v_id v) (v_data v))) +:+ "}" +:+
  texts ((fun '(T, l) => "| {" +:+ escape_angle_braces (tname T) +:+ "|" +:+ pretty (length l) +:+ "}") <$> rows) +:+
  "}""" +:+ ",style=filled,fillcolor=lightblue]".

(* GenericVertexWriter, /repo/src/graph/GraphDrawing.hpp:73-80; [vstr]: toString of the frame property. *)
Definition vertex_text {D} (vstr : vrec D -> string) (v : vrec D) : string :=
  "[shape=record, label=""{{" +:+ vstr v +:+ "}" +:+ "}""" +:+ ",style=filled,fillcolor=lightblue]".

(* EnvireGraphEdgeWriter and GenericEdgeWriter, /repo/src/graph/GraphDrawing.hpp:92-100, 112-117.
   [estr]: the text of the edge property (base::Time and boost::format at 95-97, toString at 115). *)
Definition edge_text {E} (estr : E -> string) (e : erec E) : string :=
  "[label=""" +:+ estr (e_prop e) +:+ """" +:+ ",shape=ellipse,color=red,style=filled,fillcolor=lightcoral]".

(* GraphDrawing::write for an EnvireGraph, /repo/src/graph/GraphDrawing.hpp:170-176. *)
Definition write_envire_graph {E} (io : iorder) (tname : tyid -> string) (estr : E -> string) (s : est E) : string :=
  write_graphviz (frame_text io tname) (edge_text estr) (gs_dg (es_g s)).

(* GraphDrawing::write for other graphs, /repo/src/graph/GraphDrawing.hpp:178-194. *)
Definition write_graph {D E} (vstr : vrec D -> string) (estr : E -> string) (s : gst D E) : string :=
  write_graphviz (vertex_text vstr) (edge_text estr) (gs_dg s).
