(** Concrete visualisations used by the examples beside the theorems. *)
From stdpp Require Import prelude strings gmap.
From Verif Require Import Outcome Digraph Bfs TreeView GraphModel GraphOps SpecStore SpecObs TransformModel VizModel SpecViz ExGraph ExTransform.

(* Example client of /repo/viz/EnvireGraphStructureVisualization/EnvireGraphStructureVisualization.cpp:145: a drawing of a graph. *)
Definition mdraw (s : gst nat mtf) (root : frameid) : outcome (scene mot) := draw_graph mot_one mot_mul s root.
(* Same client, :63-109: a history of the plugin. *)
Definition mviz (ops : list (vop nat mot)) : outcome (viz mot) := vrun mot_one mot_mul ops viz0.

(* Same client: the graph of [mops1] and a frame without edges. *)
Definition vops1 : list (gop nat mtf) := mops1 ++ [OAddFrame "z"].
Lemma vops1_reachable : reachable 0 mtf_inv (mstate vops1).
Proof. apply mstate_reachable; [by repeat constructor|by vm_compute]. Qed.
(* Same client: then frame d is gone. *)
Definition vops2 : list (gop nat mtf) := vops1 ++ [ORemoveEdge fc fd; ORemoveFrame fd].
Lemma vops2_reachable : reachable 0 mtf_inv (mstate vops2).
Proof. apply mstate_reachable; [by repeat constructor|by vm_compute]. Qed.
Lemma vops0_reachable : reachable 0 mtf_inv (gst0 : gst nat mtf).
Proof. change (reachable 0 mtf_inv (mstate [])). apply mstate_reachable; [by repeat constructor|by vm_compute]. Qed.

(* Same client: a frame connected to itself, and to another frame. *)
Definition vops3 : list (gop nat mtf) := [OAddEdge fa fa (mrel 1 fa fa); OAddEdge fa fb (mrel 2 fa fb)].

(* Same client: two samples and a selection between them. *)
Definition vhist (s1 s2 : gst nat mtf) : list (vop nat mot) :=
  [VSample s1; VRedraw; VSelect [fd; fa]; VSample s1; VRedraw; VSample s2].
Lemma vhist_samples s1 s2 s : VSample s ∈ vhist s1 s2 -> s = s1 \/ s = s2.
Proof.
  unfold vhist. intros Hs. repeat (apply elem_of_cons in Hs as [Hs|Hs]; [first [discriminate Hs|injection Hs as ->; auto]|]).
  by apply elem_of_nil in Hs.
Qed.
Lemma vhist_selects s1 s2 : contains_frame s1 fd = true -> selects_frames None (vhist s1 s2).
Proof. intros H. cbn. tauto. Qed.
