(** Specification of the structure visualisation: what has to be drawn and which roots are offered, in
    terms of the const calls of the graph. *)
From stdpp Require Import prelude strings gmap.
From Verif Require Import Outcome Digraph TreeView GraphModel TransformModel SpecSearch SpecWalk VizModel.

Section viz.
Context {D T : Type}.
Implicit Types (s : gst D (tf T)) (sc : scene T).

(** How often two frames are drawn as connected, in either direction: by a transformation or by a link. *)
Definition same_ends (a b : frameid) (p : frameid * frameid) : Prop := p = (a, b) \/ p = (b, a).
Global Instance same_ends_dec a b p : Decision (same_ends a b p).
Proof. unfold same_ends. apply _. Defined.
Definition times_drawn sc (a b : frameid) : nat :=
  length (filter (same_ends a b) ((sc_tfs sc).*1 ++ sc_links sc)).

(** The transformations that place a frame. *)
Definition placed_by sc (f : frameid) : list (frameid * frameid * tf T) :=
  filter (fun x => x.1.2 = f) (sc_tfs sc).

(** The scene shows the component of [root]: each frame once; every frame but the root is placed by one
    transformation, the one the graph stores for that pair, relative to a frame nearer to the root;
    every edge of the component is drawn once; nothing else is drawn. *)
Record shows_component s (root : frameid) sc : Prop := {
  sh_once : NoDup (sc_frames sc);
  sh_frames : forall f, f ∈ sc_frames sc <-> linked (joined s) root f;
  sh_real : forall a b x, (a, b, x) ∈ sc_tfs sc -> get_edge_property s a b = Ret x;
  sh_links : forall a b, (a, b) ∈ sc_links sc -> joined s a b;
  sh_placed : forall f, f ∈ sc_frames sc -> f <> root -> exists a x, placed_by sc f = [(a, f, x)];
  sh_root : placed_by sc root = [] /\ sc_root sc = Some root;
  sh_below : forall f, f ∈ sc_frames sc -> linked (fun a b => (a, b) ∈ (sc_tfs sc).*1) root f;
  sh_pairs : forall a b, joined s a b -> linked (joined s) root a -> times_drawn sc a b = 1 }.

(** The list names the frames of the graph, each once. *)
Definition lists_frames s (l : list frameid) : Prop :=
  NoDup l /\ forall f, f ∈ l <-> contains_frame s f = true.

(** The last sample. *)
Definition last_sample (cur : option (gst D (tf T))) (op : vop D T) : option (gst D (tf T)) :=
  match op with VSample s => Some s | _ => cur end.

(** The user selects frames of the last sample only. *)
Fixpoint selects_frames (cur : option (gst D (tf T))) (ops : list (vop D T)) : Prop :=
  match ops with
  | [] => True
  | op :: ops' =>
      match op, cur with
      | VSelect (f :: _), Some s => contains_frame s f = true
      | _, _ => True
      end /\ selects_frames (last_sample cur op) ops'
  end.

End viz.
