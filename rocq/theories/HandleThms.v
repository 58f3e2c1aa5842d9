(** Reading a graph through vertices instead of names. *)
From stdpp Require Import prelude strings gmap.
From Verif Require Import Outcome Digraph TreeView GraphModel GraphOps SpecStore SpecObs GraphStep GraphThms GraphRefine.

Section handle.
Context {D E : Type} (d0 : D) (einv : E -> E).

Lemma by_handle (s : gst D E) st a b va vb : reachable d0 einv s -> observes s st -> get_vertex s a = Ret va -> get_vertex s b = Ret vb ->
  get_frame_id s va = Ret a /\
  get_edge_property_v s va vb = match st_edges st !! (a, b) with Some p => Ret p | None => Throw (XUnknownEdge a b) end /\
  (forall e, get_edge_v s va vb = Ret e -> get_edge_property_e s (e_id e) = get_edge_property_v s va vb).
Proof.
  intros Hre Hob Ha Hb. pose proof (ob_edge _ _ Hob a b) as He.
  pose proof (ob_contains _ _ Hob a) as Ka. pose proof (ob_contains _ _ Hob b) as Kb.
  assert (Hea : get_edge_property s a b = get_edge_property_v s va vb).
  { unfold get_edge_property, get_edge. rewrite Ha. cbn [obind]. rewrite Hb. done. }
  pose proof (reachable_wf d0 einv s Hre) as Hwf.
  apply (get_vertex_inv) in Ha, Hb.
  split; [by eapply (get_frame_id_some einv)|]. split.
  - rewrite <- Hea, He.
    assert (contains_frame s a = true) as Ca by (rewrite (contains_frame_map einv) by done; apply bool_decide_eq_true; rewrite Ha; by eexists).
    assert (contains_frame s b = true) as Cb by (rewrite (contains_frame_map einv) by done; apply bool_decide_eq_true; rewrite Hb; by eexists).
    rewrite Ca in Ka. rewrite Cb in Kb. symmetry in Ka, Kb. apply bool_decide_eq_true in Ka, Kb.
    destruct (decide (known st a)); [|done]. destruct (decide (known st b)); done.
  - intros e Hv. unfold get_edge_property_v. rewrite Hv. done.
Qed.
End handle.
