(** Properties of the plain graph: C01-C06, C08. *)
From stdpp Require Import prelude strings gmap.
From Verif Require Import Outcome Digraph TreeView GraphModel GraphOps SpecStore SpecObs GraphStep
  GraphThms GraphThms2 GraphEmit HandleThms ExGraph.

(** ** C01: edges come in inverse pairs *)
Theorem C01_edges_in_inverse_pairs {D E : Type} (d0 : D) (einv : E -> E) (s : gst D E) :
  reachable d0 einv s ->
  (forall a b, contains_edge s a b = Ret true <-> contains_edge s b a = Ret true) /\
  NoDup ((fun e => (e_src e, e_tgt e)) <$> dg_edges (gs_dg s)) /\
  (forall a b p q, get_edge_property s a b = Ret p -> get_edge_property s b a = Ret q ->
     q = einv p \/ p = einv q) /\
  (forall a b p, get_edge_property s a b = Ret p -> exists q, get_edge_property s b a = Ret q).
Proof. exact (edges_inverse_pairs d0 einv s). Qed.
Print Assumptions C01_edges_in_inverse_pairs.

Example C01_case : reachable 0 Z.opp (xstate ops1) /\
  get_edge_property (xstate ops1) fa fc = Ret (-9)%Z /\
  get_edge_property (xstate ops1) fc fa = Ret 9%Z /\ contains_edge (xstate ops1) fb fd = Ret false.
Proof. split; [exact ops1_reachable|]. by vm_compute. Qed.

(** ** C02: frame names identify frames *)
Theorem C02_frame_names {D E : Type} (d0 : D) (einv : E -> E) (s : gst D E) :
  reachable d0 einv s ->
  (forall f, contains_frame s f = true <->
             exists r, r ∈ dg_verts (gs_dg s) /\ get_frame_id s (v_id r) = Ret f) /\
  (forall r1 r2 f, r1 ∈ dg_verts (gs_dg s) -> r2 ∈ dg_verts (gs_dg s) ->
             get_frame_id s (v_id r1) = Ret f -> get_frame_id s (v_id r2) = Ret f -> r1 = r2) /\
  (forall r, r ∈ dg_verts (gs_dg s) ->
             exists f, get_frame_id s (v_id r) = Ret f /\ get_vertex s f = Ret (v_id r)) /\
  (forall f, contains_frame s f = true ->
             exists v, get_vertex s f = Ret v /\ get_frame_id s v = Ret f) /\
  (forall f, contains_frame s f = false -> get_vertex s f = Throw (XUnknownFrame f)) /\
  (exists names : gset frameid, num_vertices s = size names /\
             forall f, f ∈ names <-> contains_frame s f = true).
Proof. exact (frame_names d0 einv s). Qed.
Print Assumptions C02_frame_names.

Example C02_case :
  let s := xstate (ops1 ++ [ODisconnect fb; ORemoveFrame fb; OAddFrame "e"; OAddFrame fb]) in
  reachable 0 Z.opp s /\ num_vertices s = 5 /\ contains_frame s fb = true.
Proof.
  split; [apply xstate_reachable; [by repeat constructor|by vm_compute]|]. by vm_compute.
Qed.

(** ** C03: documented exceptions exactly under their condition, and nothing changes *)
Theorem C03_throwing_calls_change_nothing {D E : Type} (d0 : D) (einv : E -> E)
    (ord : viewid -> order) (op : sop D E) (s s' : gst D E) ev r :
  reachable d0 einv s -> sop_noself op -> gstep d0 einv ord (call_of op) s = (s', ev, r) ->
  (forall x, r = Throw x -> x <> XRuntime -> documented s op x /\ s' = s /\ ev = []) /\
  (forall x, documented s op x -> ok r -> r <> Throw XRuntime -> r = Throw x) /\
  (gs_subs s = [] -> r = Ret tt \/ exists x, documented s op x /\ r = Throw x).
Proof. exact (throw_changes_nothing d0 einv ord op s s' ev r). Qed.
Print Assumptions C03_throwing_calls_change_nothing.

Example C03_case : reachable 0 Z.opp (xstate ops1) /\ gs_subs (xstate ops1) = [] /\
  (exists s', gstep 0 Z.opp xord (call_of (SRemoveFrame fb)) (xstate ops1) =
              (s', [], Throw (XFrameStillConnected fb))) /\
  (exists s', gstep 0 Z.opp xord (call_of (SRemoveEdge fb fd)) (xstate ops1) =
              (s', [], Throw (XUnknownEdge fb fd))) /\
  (exists s', gstep 0 Z.opp xord (call_of (SSetProp fb "x" 3%Z)) (xstate ops1) =
              (s', [], Throw (XUnknownFrame "x"))) /\
  (exists s', gstep 0 Z.opp xord (call_of (SAddEdge fc fd 3%Z)) (xstate ops1) =
              (s', [], Throw (XEdgeAlreadyExists fc fd))).
Proof. split; [exact ops1_reachable|]. split; [done|]. repeat split; eexists; by vm_compute. Qed.

(** ** C04: every call has exactly the effect of the abstract store *)
Theorem C04_calls_refine_the_store {D E : Type} (d0 : D) (einv : E -> E)
    (ord : viewid -> order) (op : sop D E) (s : gst D E) st (s' : gst D E) ev r :
  reachable d0 einv s -> observes s st -> sop_noself op ->
  gstep d0 einv ord (call_of op) s = (s', ev, r) ->
  match r with
  | Ret _ => snd (spec_step d0 einv op st) = Ret tt /\ observes s' (fst (spec_step d0 einv op st))
  | Throw x => (snd (spec_step d0 einv op st) = Throw x /\ s' = s /\ ev = []) \/
               (x = XRuntime /\ gs_subs s <> [])
  | UB | Fuel => gs_subs s <> []
  end.
Proof. exact (observes_step d0 einv ord op s st s' ev r). Qed.
Print Assumptions C04_calls_refine_the_store.

Theorem C04_histories_refine_the_store {D E : Type} (d0 : D) (einv : E -> E)
    (h : list ((viewid -> order) * sop D E)) (s : gst D E) ev r :
  Forall (fun p => sop_noself (snd p)) h ->
  run d0 einv (prod_map id call_of <$> h) gst0 = (s, ev, r) ->
  r = Ret tt /\ observes s (spec_run d0 einv (snd <$> h) store0).
Proof. exact (observes_run d0 einv h s ev r). Qed.
Print Assumptions C04_histories_refine_the_store.

Theorem C04_handle_calls {D E : Type} (d0 : D) (einv : E -> E) ord (s : gst D E) a b va vb p :
  reachable d0 einv s -> get_vertex s a = Ret va -> get_vertex s b = Ret vb ->
  gstep d0 einv ord (OAddEdgeV va vb p) s = gstep d0 einv ord (OAddEdge a b p) s /\
  gstep d0 einv ord (ORemoveEdgeV va vb) s = gstep d0 einv ord (ORemoveEdge a b) s /\
  gstep d0 einv ord (OSetPropV va vb p) s = gstep d0 einv ord (OSetProp a b p) s.
Proof. exact (handle_calls d0 einv ord s a b va vb p). Qed.
Print Assumptions C04_handle_calls.

(* Reading by vertices gives what reading by names gives. *)
Theorem C04_handle_reads {D E : Type} (d0 : D) (einv : E -> E) (s : gst D E) st a b va vb :
  reachable d0 einv s -> observes s st -> get_vertex s a = Ret va -> get_vertex s b = Ret vb ->
  get_frame_id s va = Ret a /\
  get_edge_property_v s va vb = match st_edges st !! (a, b) with Some p => Ret p | None => Throw (XUnknownEdge a b) end /\
  (forall e, get_edge_v s va vb = Ret e -> get_edge_property_e s (e_id e) = get_edge_property_v s va vb).
Proof. exact (by_handle d0 einv s st a b va vb). Qed.
Print Assumptions C04_handle_reads.

Theorem C04_store_exists {D E : Type} (d0 : D) (einv : E -> E) (s : gst D E) :
  reachable d0 einv s -> exists st, observes s st.
Proof. intros Hre. exact (store_exists einv s (reachable_wf d0 einv s Hre)). Qed.
Print Assumptions C04_store_exists.

Definition C04_ops : list (sop nat Z) :=
  [SEmplaceFrame fa 7; SAddEdge fa fb 1%Z; SAddEdge fb fc 2%Z; SAddEdge fb fa 8%Z; SSetProp fb fa 3%Z;
   SRemoveFrame fc; SDisconnect fc; SRemoveFrame fc; SRemoveEdge fa fc].
Example C04_case :
  Forall sop_noself C04_ops /\
  st_edges (spec_run 0 Z.opp C04_ops store0) = {[ (fa, fb) := (-3)%Z; (fb, fa) := 3%Z ]} /\
  st_frames (spec_run 0 Z.opp C04_ops store0) = {[ fa := 7; fb := 0 ]} /\
  get_edge_property (xstate (call_of <$> C04_ops)) fa fb = Ret (-3)%Z.
Proof.
  split; [by repeat constructor|]. split; [apply (bool_decide_unpack _); by vm_compute|].
  split; [apply (bool_decide_unpack _); by vm_compute|]. by vm_compute.
Qed.

(** ** C05: self edges.  The statement is false of the code; what happens instead: *)
Theorem C05_self_edge_behaviour {D E : Type} (d0 : D) (einv : E -> E) ord (s : gst D E) a p q s1 ev1 r1 :
  reachable d0 einv s -> gs_subs s = [] -> contains_frame s a = true ->
  gstep d0 einv ord (OAddEdge a a p) s = (s1, ev1, r1) ->
  r1 = Ret tt /\ get_edge_property s1 a a = Ret p /\ num_edges s1 = num_edges s + 2 /\
  (exists s2 ev2, gstep d0 einv ord (OSetProp a a q) s1 = (s2, ev2, Ret tt) /\
                  get_edge_property s2 a a = Ret (einv q)) /\
  (exists s2 ev2, gstep d0 einv ord (ORemoveEdge a a) s1 = (s2, ev2, UB)).
Proof. exact (self_edge_calls d0 einv ord s a p q s1 ev1 r1). Qed.
Print Assumptions C05_self_edge_behaviour.

Theorem C05_self_edge_like_any_other_refuted :
  exists (s s1 : gst nat Z) ev1 s2 ev2 s3 ev3 ev4 s4,
    reachable 0 Z.opp s /\ contains_frame s fa = true /\
    gstep 0 Z.opp xord (OAddEdge fa fa 3%Z) s = (s1, ev1, Ret tt) /\
    gstep 0 Z.opp xord (OSetProp fa fa 4%Z) s1 = (s2, ev2, Ret tt) /\
    get_edge_property s2 fa fa <> Ret 4%Z /\
    gstep 0 Z.opp xord (ORemoveEdge fa fa) s1 = (s3, ev3, UB) /\
    gstep 0 Z.opp xord (ODisconnect fa) s1 = (s4, ev4, UB).
Proof.
  exists (xstate [OAddFrame fa]). do 8 eexists.
  split; [apply xstate_reachable; [by repeat constructor|by vm_compute]|].
  split; [by vm_compute|]. split; [by vm_compute|]. split; [by vm_compute|].
  split; [by vm_compute|]. split; by vm_compute.
Qed.
Print Assumptions C05_self_edge_like_any_other_refuted.

Example C05_case : reachable 0 Z.opp (xstate ops1) /\ gs_subs (xstate ops1) = [] /\
  contains_frame (xstate ops1) fa = true.
Proof. split; [exact ops1_reachable|]. by vm_compute. Qed.

(** ** C06: disconnectFrame *)
Theorem C06_disconnect_removes_incident_edges {D E : Type} (d0 : D) (einv : E -> E) ord f
    (s s' : gst D E) ev r :
  reachable d0 einv s -> contains_frame s f = true ->
  gstep d0 einv ord (ODisconnect f) s = (s', ev, r) ->
  (gs_subs s = [] -> r = Ret tt) /\
  (r = Ret tt ->
  (forall a b, contains_edge s' a b = Ret true <->
               contains_edge s a b = Ret true /\ a <> f /\ b <> f) /\
  (forall a b, a <> f -> b <> f -> get_edge_property s' a b = get_edge_property s a b) /\
  (forall n, contains_frame s' n = contains_frame s n) /\
  (forall n, get_frame_property s' n = get_frame_property s n) /\
  exists ns, NoDup ns /\ (forall n, n ∈ ns <-> contains_edge s f n = Ret true) /\
             ev = EvEdgeRemoved f <$> ns).
Proof. exact (disconnect_thm d0 einv ord f s s' ev r). Qed.
Print Assumptions C06_disconnect_removes_incident_edges.

Example C06_case : reachable 0 Z.opp (xstate ops1) /\ gs_subs (xstate ops1) = [] /\
  contains_frame (xstate ops1) fc = true /\
  snd (fst (gstep 0 Z.opp xord (ODisconnect fc) (xstate ops1))) =
    [EvEdgeRemoved fc fb; EvEdgeRemoved fc fa; EvEdgeRemoved fc fd].
Proof. split; [exact ops1_reachable|]. by vm_compute. Qed.

(** ** C08: handles *)
Theorem C08_handles_stay_valid {D E : Type} (d0 : D) (einv : E -> E) (s : gst D E) h s' ev r :
  reachable d0 einv s -> hist_noself h -> run d0 einv h s = (s', ev, r) -> ok r ->
  (forall f v, get_vertex s f = Ret v -> EvFrameRemoved f ∉ ev ->
     get_vertex s' f = Ret v /\ get_frame_id s' v = Ret f) /\
  (forall a b e, get_edge s a b = Ret e ->
     EvEdgeRemoved a b ∉ ev -> EvEdgeRemoved b a ∉ ev ->
     exists p, get_edge_property_e s' (e_id e) = Ret p /\ get_edge_property s' a b = Ret p /\
               exists e', get_edge s' a b = Ret e' /\ e_id e' = e_id e).
Proof. exact (handles_stay d0 einv s h s' ev r). Qed.
Print Assumptions C08_handles_stay_valid.

Theorem C08_vertex_handle_until_removeFrame {D E : Type} (d0 : D) (einv : E -> E)
    (s : gst D E) h s' ev r :
  reachable d0 einv s -> hist_noself h -> run d0 einv h s = (s', ev, r) -> ok r ->
  forall f v, get_vertex s f = Ret v -> (forall ord, (ord, ORemoveFrame f) ∉ h) ->
     get_vertex s' f = Ret v /\ get_frame_id s' v = Ret f.
Proof. exact (vertex_handle_calls d0 einv s h s' ev r). Qed.
Print Assumptions C08_vertex_handle_until_removeFrame.

Definition C08_ops : list (gop nat Z) :=
  [OAddEdge fa fd 6%Z; ODisconnect fb; ORemoveFrame fb; OSetProp fd fc 1%Z; OAddFrame fb].
Example C08_case : exists s' ev,
  reachable 0 Z.opp (xstate ops1) /\ hist_noself (xhist C08_ops) /\
  run 0 Z.opp (xhist C08_ops) (xstate ops1) = (s', ev, Ret tt) /\
  get_vertex (xstate ops1) fd = Ret 4 /\ EvFrameRemoved fd ∉ ev /\
  (exists e, get_edge (xstate ops1) fc fd = Ret e) /\
  EvEdgeRemoved fc fd ∉ ev /\ EvEdgeRemoved fd fc ∉ ev /\
  get_edge_property s' fc fd = Ret (-1)%Z.
Proof.
  do 2 eexists. split; [exact ops1_reachable|]. split; [by repeat constructor|].
  split; [by vm_compute|]. split; [by vm_compute|]. split; [set_solver|].
  split; [eexists; by vm_compute|]. split; [set_solver|]. split; [set_solver|]. by vm_compute.
Qed.
