(** Model of the structure visualisation
    (/repo/viz/EnvireGraphStructureVisualization/EnvireGraphStructureVisualization.cpp).
    Executable definitions only. *)
From stdpp Require Import prelude strings gmap.
From Verif Require Import Outcome Digraph Bfs TreeView GraphModel TransformModel.

(* What is drawn: the calls made on vizkit3d's TransformerGraph and NodeLink, in order: frames added
   (:163, 166), transformations set (:168), links created (:183), the root made (:191).
   /repo/viz/EnvireGraphStructureVisualization/EnvireGraphStructureVisualization.cpp:145-194.
   Simplification: vizkit3d itself is not part of the repository; a new TransformerGraph (:149) has no
   frame, and getFrame finds exactly the frames that were added. *)
Record scene (T : Type) := Scene {
  sc_frames : list frameid;
  sc_tfs : list (frameid * frameid * tf T);
  sc_links : list (frameid * frameid);
  sc_root : option frameid }.
Global Arguments Scene {_} _ _ _ _.
Global Arguments sc_frames {_} _.
Global Arguments sc_tfs {_} _.
Global Arguments sc_links {_} _.
Global Arguments sc_root {_} _.

Section draw.
Context {T : Type} (one : T) (mul : T -> T -> T).
Context {D : Type}.
Implicit Types (s : gst D (tf T)) (sc : scene T).

(* TransformerGraph::create, /repo/viz/EnvireGraphStructureVisualization/EnvireGraphStructureVisualization.cpp:149. *)
Definition scene0 : scene T := Scene [] [] [] None.

(* addFrame unless getFrame finds it, /repo/viz/EnvireGraphStructureVisualization/EnvireGraphStructureVisualization.cpp:162-166. *)
Definition sc_need (f : frameid) sc : scene T :=
  if bool_decide (f ∈ sc_frames sc) then sc
  else Scene (sc_frames sc ++ [f]) (sc_tfs sc) (sc_links sc) (sc_root sc).

(* The slot connected to edgeAdded, /repo/viz/EnvireGraphStructureVisualization/EnvireGraphStructureVisualization.cpp:153-169.
   Simplification: convertTransform (:197-205: normalises the quaternion, changes the type) is left out;
   the transform read from the graph is recorded. *)
Definition on_edge_added s (o t : vid) sc : outcome (scene T) :=
  obind (get_transform_v one mul s o t) (fun x =>
  obind (get_frame_id s o) (fun a =>
  obind (get_frame_id s t) (fun b =>
    let sc' := sc_need b (sc_need a sc) in
    Ret (Scene (sc_frames sc') (sc_tfs sc' ++ [(a, b, x)]) (sc_links sc') (sc_root sc'))))).

(* The slot connected to crossEdgeAdded, /repo/viz/EnvireGraphStructureVisualization/EnvireGraphStructureVisualization.cpp:171-187.  A failed assert is UB. *)
Definition on_cross_edge_added s (c : cross) sc : outcome (scene T) :=
  obind (get_frame_id s (ce_origin c)) (fun a =>
  obind (get_frame_id s (ce_target c)) (fun b =>
    if bool_decide (a ∈ sc_frames sc) && bool_decide (b ∈ sc_frames sc)
    then Ret (Scene (sc_frames sc) (sc_tfs sc) (sc_links sc ++ [(a, b)]) (sc_root sc))
    else UB)).

(* The slots are called while getTree fills the view, one signal after the other.
   /repo/viz/EnvireGraphStructureVisualization/EnvireGraphStructureVisualization.cpp:153-189. *)
Fixpoint on_signals s (l : list vsig) sc : outcome (scene T) :=
  match l with
  | [] => Ret sc
  | SigAdded o t :: l' => obind (on_edge_added s o t sc) (on_signals s l')
  | SigCross c :: l' => obind (on_cross_edge_added s c sc) (on_signals s l')
  | SigRemoved _ _ :: l' => on_signals s l' sc
  end.

(* drawGraphStructure, /repo/viz/EnvireGraphStructureVisualization/EnvireGraphStructureVisualization.cpp:145-194. *)
Definition draw_graph s (root : frameid) : outcome (scene T) :=
  if Nat.eqb (num_vertices s) 0 then Ret scene0
  else
    obind (get_vertex s root) (fun v =>
    obind (get_tree_into s v tv_new) (fun w =>
    obind (on_signals s (tv_log w) scene0) (fun sc =>
      Ret (Scene (sc_frames sc) (sc_tfs sc) (sc_links sc) (Some root))))).

(* Data: the members the list of roots uses, /repo/viz/EnvireGraphStructureVisualization/EnvireGraphStructureVisualization.cpp:39-47.
   [vz_scene] is nextNode ([None] is the null pointer), [vz_changed] counts the propertyChanged signals.
   Simplification: QString, std::string and FrameId are one type (the conversions between them, :54, 69,
   118, 125-135, are exact for valid UTF-8). *)
Record viz := Viz {
  vz_nodes : list frameid;
  vz_next : list frameid;
  vz_root : frameid;
  vz_scene : option (scene T);
  vz_shown : option (scene T);
  vz_changed : nat }.

(* A new plugin, /repo/viz/EnvireGraphStructureVisualization/EnvireGraphStructureVisualization.cpp:39-47, 73-77. *)
Definition viz0 : viz := Viz [] [] "" None None 0.

(* QStringList::removeOne: the first occurrence, /repo/viz/EnvireGraphStructureVisualization/EnvireGraphStructureVisualization.cpp:57. *)
Fixpoint remove_one (f : frameid) (l : list frameid) : list frameid :=
  match l with
  | [] => []
  | x :: l' => if bool_decide (x = f) then l' else x :: remove_one f l'
  end.

(* QStringList::removeAll, /repo/viz/EnvireGraphStructureVisualization/EnvireGraphStructureVisualization.cpp:128. *)
Definition remove_all (f : frameid) (l : list frameid) : list frameid := filter (fun x => x <> f) l.

(* getNodes, /repo/viz/EnvireGraphStructureVisualization/EnvireGraphStructureVisualization.cpp:49-61. *)
Definition vz_get_nodes (z : viz) : list frameid :=
  let list := vz_next z in
  if negb (bool_decide (vz_root z = "")) && negb (bool_decide (list = []))
  then vz_root z :: remove_one (vz_root z) list
  else list.

(* setNodes, /repo/viz/EnvireGraphStructureVisualization/EnvireGraphStructureVisualization.cpp:63-71. *)
Definition vz_set_nodes (values : list frameid) (z : viz) : viz :=
  Viz values (vz_next z) (match values with f :: _ => f | [] => vz_root z end)
      (vz_scene z) (vz_shown z) (vz_changed z).

(* areSame, /repo/viz/EnvireGraphStructureVisualization/EnvireGraphStructureVisualization.cpp:207-217. *)
Fixpoint are_same (a b : list frameid) : bool :=
  match a, b with
  | [], [] => true
  | x :: a', y :: b' => bool_decide (x = y) && are_same a' b'
  | _, _ => false
  end.

(* updateMainNode, /repo/viz/EnvireGraphStructureVisualization/EnvireGraphStructureVisualization.cpp:88-103. *)
Definition vz_update_main (z : viz) : viz :=
  let shown := match vz_scene z with Some sc => Some sc | None => vz_shown z end in
  if are_same (vz_next z) (vz_nodes z)
  then Viz (vz_nodes z) (vz_next z) (vz_root z) (vz_scene z) shown (vz_changed z)
  else Viz (vz_next z) (vz_next z) (vz_root z) (vz_scene z) shown (S (vz_changed z)).

(* initNodeList, /repo/viz/EnvireGraphStructureVisualization/EnvireGraphStructureVisualization.cpp:111-137: the new list and the new root. *)
Definition init_node_list s (root : frameid) : outcome (list frameid * frameid) :=
  obind (frame_ids s (v_id <$> dg_verts (gs_dg s))) (fun next =>
    match next with
    | [] => Ret ([], "")
    | f :: _ =>
        if bool_decide (root ∈ next) then Ret (root :: remove_all root next, root)
        else Ret (next, f)
    end).

(* updateDataIntern, /repo/viz/EnvireGraphStructureVisualization/EnvireGraphStructureVisualization.cpp:105-109. *)
Definition vz_update_data s (z : viz) : outcome viz :=
  obind (init_node_list s (vz_root z)) (fun '(next, root) =>
  obind (draw_graph s root) (fun sc =>
    Ret (Viz (vz_nodes z) next root (Some sc) (vz_shown z) (vz_changed z)))).

End draw.
Global Arguments viz : clear implicits.

(* What happens to the plugin: a new sample, the user selects, the GUI thread redraws.
   /repo/viz/EnvireGraphStructureVisualization/EnvireGraphStructureVisualization.cpp:63, 88, 105. *)
Inductive vop (D T : Type) :=
| VSample (s : gst D (tf T))
| VSelect (values : list frameid)
| VRedraw.
Global Arguments VSample {_ _} _.
Global Arguments VSelect {_ _} _.
Global Arguments VRedraw {_ _}.

(* One of these, /repo/viz/EnvireGraphStructureVisualization/EnvireGraphStructureVisualization.cpp:63-71, 88-103, 105-109. *)
Definition vstep {D T} (one : T) (mul : T -> T -> T) (op : vop D T) (z : viz T) : outcome (viz T) :=
  match op with
  | VSample s => vz_update_data one mul s z
  | VSelect values => Ret (vz_set_nodes values z)
  | VRedraw => Ret (vz_update_main z)
  end.

(* A sequence of these, /repo/viz/EnvireGraphStructureVisualization/EnvireGraphStructureVisualization.cpp:63-109. *)
Fixpoint vrun {D T} (one : T) (mul : T -> T -> T) (ops : list (vop D T)) (z : viz T) : outcome (viz T) :=
  match ops with
  | [] => Ret z
  | op :: ops' => obind (vstep one mul op z) (vrun one mul ops')
  end.
