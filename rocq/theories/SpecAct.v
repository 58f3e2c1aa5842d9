(** Specification of slots of tree views that run during a call without getting in its way. *)
From stdpp Require Import prelude strings gmap.
From Verif Require Import Outcome Digraph TreeView GraphModel GraphOps ActModel.

(** Two graphs that differ at most in the content of frames and edges, and there only in what [kd] and [ke] do not see. *)
Record same_shape {D E D' E'} (kd : D -> D') (ke : E -> E') (g g' : digraph D E) : Prop := SameShape {
  sh_verts : (fun r => (v_id r, v_index r, v_name r, kd (v_data r))) <$> dg_verts g =
             (fun r => (v_id r, v_index r, v_name r, kd (v_data r))) <$> dg_verts g';
  sh_edges : (fun e => (e_id e, e_src e, e_tgt e, ke (e_prop e))) <$> dg_edges g =
             (fun e => (e_id e, e_src e, e_tgt e, ke (e_prop e))) <$> dg_edges g';
  sh_map : dg_map g = dg_map g';
  sh_rest : (dg_nextv g, dg_nexte g, dg_maxvi g, dg_nv g, dg_ne g) =
            (dg_nextv g', dg_nexte g', dg_maxvi g', dg_nv g', dg_ne g') }.

(** Events that tell of frames and edges that come and go. *)
Definition structural (e : event) : Prop :=
  match e with EvFrameAdded _ | EvFrameRemoved _ | EvEdgeAdded _ _ _ | EvEdgeRemoved _ _ => True | _ => False end.
Global Instance structural_dec e : Decision (structural e).
Proof. destruct e; cbn; apply _. Defined.

(** Every name leads to a frame that exists, every edge joins two of them and has its opposite. *)
Definition intact {D E} (g : digraph D E) : Prop :=
  (forall f v, dg_map g !! f = Some v -> bg_alive g v = true) /\
  (forall e, e ∈ dg_edges g -> bg_alive g (e_src e) = true /\ bg_alive g (e_tgt e) = true /\
     exists e', e' ∈ dg_edges g /\ e_src e' = e_tgt e /\ e_tgt e' = e_src e).

(** Slots that, called on an intact graph, always return; that leave the frames, the edges, the list of subscribed views and the views in
    [V] alone; and that announce no frames or edges.  What they may do: read anything, write frame contents and edge properties as far as
    [kd] and [ke] do not see it, make, fill, connect and destroy views that are not in [V]. *)
Definition considerate {D E D' E'} (kd : D -> D') (ke : E -> E') (V : viewid -> Prop) (h : viewid -> vsig -> call (ast D E) unit) : Prop :=
  forall i x s s' ev r, intact (gs_dg (fst s)) -> h i x s = (s', ev, r) ->
    r = Ret tt /\ snd s' = snd s /\ gs_subs (fst s') = gs_subs (fst s) /\
    same_shape kd ke (gs_dg (fst s')) (gs_dg (fst s)) /\
    (forall j, V j -> gs_views (fst s') !! j = gs_views (fst s) !! j) /\
    filter structural ev = [].

(** The view a call fills, if any. *)
Definition fills {D E} (op : gop D E) : option viewid :=
  match op with OGetTree _ _ i | OGetTreeV _ _ i => Some i | _ => None end.
