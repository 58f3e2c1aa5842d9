(** Properties of the structure visualisation: C87, C88. *)
From stdpp Require Import prelude strings gmap.
From Verif Require Import Outcome Digraph Bfs TreeView GraphModel GraphOps SpecStore SpecObs SpecWalk SpecSearch TransformModel VizModel SpecViz
  VizThms ExGraph ExTransform ExViz.

(** ** C87: the drawing shows the component of its root *)
(* For every graph without edges from a frame to itself.  Missing: a root without neighbours, and graphs with such edges;
   both are wrong, see below. *)
Theorem C87_shows_component_partial {D T : Type} (d0 : D) (one : T) (mul : T -> T -> T) (inv : T -> T) (s : gst D (tf T)) root g :
  reachable d0 (tf_inverse inv) s -> joined s root g ->
  exists sc, draw_graph one mul s root = Ret sc /\ shows_component s root sc.
Proof. exact (draw_component d0 one mul inv s root g). Qed.
Print Assumptions C87_shows_component_partial.

Example C87_case : let s := mstate vops1 in reachable 0 mtf_inv s /\ joined s fb fa /\
  mdraw s fb = Ret (Scene [fb; fa; fc; fd] [(fb, fa, mrel 11 fb fa); (fb, fc, mrel 12 fb fc); (fc, fd, mrel 14 fc fd)]
                          [(fa, fc)] (Some fb)).
Proof. cbv zeta. split; [exact vops1_reachable|]. by vm_compute. Qed.

(* The other inputs: no frame at all, a root that is not in the graph. *)
Theorem C87_other_roots {D T : Type} (one : T) (mul : T -> T -> T) (s : gst D (tf T)) root :
  (num_vertices s = 0 -> draw_graph one mul s root = Ret (Scene [] [] [] None)) /\
  (num_vertices s <> 0 -> contains_frame s root = false -> draw_graph one mul s root = Throw (XUnknownFrame root)).
Proof. exact (conj (draw_empty one mul s root) (draw_unknown one mul s root)). Qed.
Print Assumptions C87_other_roots.

Example C87_other_case : num_vertices (mstate []) = 0 /\ num_vertices (mstate vops1) = 7 /\ contains_frame (mstate vops1) "y" = false /\
  mdraw (mstate vops1) "y" = Throw (XUnknownFrame "y").
Proof. by vm_compute. Qed.

(* A root without neighbours is not drawn, although it is made the root of the drawing. *)
Theorem C87_root_alone_refuted {D T : Type} (d0 : D) (one : T) (mul : T -> T -> T) (inv : T -> T) (s : gst D (tf T)) root :
  reachable d0 (tf_inverse inv) s -> contains_frame s root = true -> (forall g, ~ joined s root g) ->
  draw_graph one mul s root = Ret (Scene [] [] [] (Some root)).
Proof. exact (draw_alone d0 one mul inv s root). Qed.
Print Assumptions C87_root_alone_refuted.

Example C87_root_alone_case : let s := mstate vops1 in reachable 0 mtf_inv s /\ contains_frame s "z" = true /\
  mdraw s "z" = Ret (Scene [] [] [] (Some "z")).
Proof. cbv zeta. split; [exact vops1_reachable|]. by vm_compute. Qed.

(* A root with an edge to itself: the cross edge is announced before any frame is drawn and the assertion fails. *)
Theorem C87_self_edge_refuted : exists ops, (mrun ops).2 = Ret tt /\ contains_edge (mstate ops) fa fb = Ret true /\ mdraw (mstate ops) fa = UB.
Proof. exists vops3. by vm_compute. Qed.
Print Assumptions C87_self_edge_refuted.

(** ** C88: the roots on offer *)
(* After every sample: the frames of the sample, each once, the current root first; the selected root is kept while the graph has it;
   the drawing is made from the root that is shown first. *)
Theorem C88_sample {D T : Type} (d0 : D) (one : T) (mul : T -> T -> T) (inv : T -> T) (s : gst D (tf T)) (z : viz T) :
  reachable d0 (tf_inverse inv) s ->
  exists z' sc, vstep one mul (VSample s) z = Ret z' /\ lists_frames s (vz_next z') /\ vz_get_nodes z' = vz_next z' /\
    (vz_next z' <> [] -> head (vz_next z') = Some (vz_root z')) /\ (vz_next z' = [] -> vz_root z' = "") /\
    (contains_frame s (vz_root z) = true -> vz_root z' = vz_root z) /\
    draw_graph one mul s (vz_root z') = Ret sc /\ vz_scene z' = Some sc /\
    vz_nodes z' = vz_nodes z /\ vz_shown z' = vz_shown z /\ vz_changed z' = vz_changed z.
Proof. exact (sample_ok d0 one mul inv s z). Qed.
Print Assumptions C88_sample.

(* The GUI thread: the list and the drawing prepared last are shown, the change of the list is announced once. *)
Theorem C88_redraw {T : Type} (z : viz T) : let z' := vz_update_main z in
  vz_nodes z' = vz_next z /\ vz_next z' = vz_next z /\ vz_root z' = vz_root z /\ vz_get_nodes z' = vz_get_nodes z /\
  (forall sc, vz_scene z = Some sc -> vz_shown z' = Some sc) /\
  vz_changed z' = vz_changed z + (if decide (vz_nodes z = vz_next z) then 0 else 1) /\
  vz_update_main z' = z'.
Proof. exact (redraw_spec z). Qed.
Print Assumptions C88_redraw.

(* In every history of samples, selections and redraws the frames of the last sample are on offer.
   Missing: selections of frames the last sample does not have, see below. *)
Theorem C88_roots_on_offer_partial {D T : Type} (d0 : D) (one : T) (mul : T -> T -> T) (inv : T -> T) (ops : list (vop D T)) :
  (forall s, VSample s ∈ ops -> reachable d0 (tf_inverse inv) s) -> selects_frames None ops ->
  exists z, vrun one mul ops viz0 = Ret z /\
    match foldl last_sample None ops with
    | None => vz_get_nodes z = []
    | Some s => lists_frames s (vz_get_nodes z)
    end.
Proof. exact (fun Hr Hs => vrun_lists d0 one mul inv ops None viz0 Hr Hs eq_refl). Qed.
Print Assumptions C88_roots_on_offer_partial.

Example C88_case : let ops := vhist (mstate vops1) (mstate vops2) in
  (forall s, VSample s ∈ ops -> reachable 0 mtf_inv s) /\ selects_frames None ops /\
  obind (mviz (take 2 ops)) (fun z => Ret (vz_get_nodes z, vz_changed z)) = Ret ([fa; fb; fc; fd; "e"; "f"; "z"], 1) /\
  obind (mviz (take 4 ops)) (fun z => Ret (vz_get_nodes z, vz_changed z)) = Ret ([fd; fa; fb; fc; "e"; "f"; "z"], 1) /\
  obind (mviz ops) (fun z => Ret (vz_get_nodes z, vz_changed z)) = Ret ([fa; fb; fc; "e"; "f"; "z"], 2).
Proof.
  cbv zeta. split.
  { intros s [->| ->]%vhist_samples; [exact vops1_reachable|exact vops2_reachable]. }
  split; [apply vhist_selects; by vm_compute|]. by vm_compute.
Qed.

(* A selection from a list the user saw before the last sample: a frame that is not in the graph is on offer, and first. *)
Theorem C88_old_selection_refuted : exists s1 s2 old, reachable 0 mtf_inv s1 /\ reachable 0 mtf_inv s2 /\
  obind (mviz [VSample s1; VRedraw]) (fun z => Ret (vz_get_nodes z)) = Ret old /\ fd ∈ old /\ contains_frame s2 fd = false /\
  exists l, obind (mviz [VSample s1; VRedraw; VSample s2; VSelect (fd :: old)]) (fun z => Ret (vz_get_nodes z)) = Ret (fd :: l).
Proof.
  exists (mstate vops1), (mstate vops2), [fa; fb; fc; fd; "e"; "f"; "z"]. split; [exact vops1_reachable|]. split; [exact vops2_reachable|].
  split; [by vm_compute|]. split; [set_solver|]. split; [by vm_compute|]. eexists. by vm_compute.
Qed.
Print Assumptions C88_old_selection_refuted.
