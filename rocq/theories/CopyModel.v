(** EnvireGraph::createStructuralCopy (/repo/src/graph/EnvireGraph.cpp:334-365).  Executable definitions only. *)
From stdpp Require Import prelude strings gmap.
From Verif Require Import Outcome ItemClass Digraph Bfs TreeView GraphModel GraphOps TransformModel ItemsModel.

Section copy.
Context {T : Type} (one : T) (mul : T -> T -> T) (inv : T -> T).
Local Notation est := (est (tf T)).

(* The loop over the vertices of the source, /repo/src/graph/EnvireGraph.cpp:338-344.  The state is the destination;
   the source is another graph, so it does not change.  (A graph copied into itself throws at the first frame.) *)
Fixpoint copy_frames (src : gst imap (tf T)) (vs : list (vrec imap)) : call est unit :=
  match vs with
  | [] => cret tt
  | r :: vs' =>
      f <-- cread (fun _ => get_frame_id src (v_id r)) ;;
      lift (add_frame ∅ f) ;;;
      copy_frames src vs'
  end.

(* try ... catch(EdgeAlreadyExistsException&) {}, /repo/src/graph/EnvireGraph.cpp:355-363. *)
Definition ignore_existing (m : call est unit) : call est unit := fun s =>
  let '(s', ev, r) := m s in
  (s', ev, match r with Throw (XEdgeAlreadyExists _ _) => Ret tt | r => r end).

(* The loop over the edges of the source, /repo/src/graph/EnvireGraph.cpp:346-364. *)
Fixpoint copy_edges (src : gst imap (tf T)) (es : list (erec (tf T))) : call est unit :=
  match es with
  | [] => cret tt
  | e :: es' =>
      a <-- cread (fun _ => get_frame_id src (e_src e)) ;;
      b <-- cread (fun _ => get_frame_id src (e_tgt e)) ;;
      x <-- cread (fun _ => get_transform_v one mul src (e_src e) (e_tgt e)) ;;
      ignore_existing (lift (add_transform inv ∅ a b x)) ;;;
      copy_edges src es'
  end.

(* EnvireGraph::createStructuralCopy, /repo/src/graph/EnvireGraph.cpp:334-365. *)
Definition create_structural_copy (src : est) : call est unit :=
  copy_frames (es_g src) (dg_verts (gs_dg (es_g src))) ;;;
  copy_edges (es_g src) (dg_edges (gs_dg (es_g src))).

End copy.
