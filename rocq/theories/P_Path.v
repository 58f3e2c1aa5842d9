(** Properties of paths: C25-C27, C70. *)
From stdpp Require Import prelude strings gmap.
From Verif Require Import Outcome Digraph TreeView GraphModel GraphOps SpecObs SpecWalk SpecSearch
  TransformModel SpecTransform PathModel SpecPath PathThms ExGraph ExTransform ExPath.

(** ** C25: a clean auto-updating path is a real path
    Full statement: in the conclusion only [joined].  It is false, see the two refutations: removals that name the
    frames in the other order are not noticed.  The theorem says that nothing else goes unnoticed. *)
Theorem C25_clean_path_partial {D T : Type} (d0 : D) (one : T) mul inv (s : gst D (tf T)) a b p h x ev rs :
  reachable d0 (tf_inverse inv) s -> get_path s a b true = Ret p -> phist_ok h ->
  prun one mul inv d0 h (PSt s p) = (x, ev, rs) -> Forall defined rs -> p_dirty (ps_p x) = false ->
  forall u v, consecutive (p_frames (ps_p x)) u v -> joined (ps_g x) u v \/ EvEdgeRemoved v u ∈ ev.
Proof. exact (clean_path_partial one mul inv d0 s a b p h x ev rs). Qed.
Print Assumptions C25_clean_path_partial.

(** Between queries the path becomes dirty exactly by removals in its own direction. *)
Theorem C25_dirty_exactly {D T : Type} (d0 : D) (one : T) mul inv (s : gst D (tf T)) a b p h x ev rs :
  get_path s a b true = Ret p -> Forall (fun op => op <> PQuery) h ->
  prun one mul inv d0 h (PSt s p) = (x, ev, rs) -> Forall defined rs ->
  p_frames (ps_p x) = p_frames p /\
  (p_dirty (ps_p x) = true <-> exists u v, consecutive (p_frames p) u v /\ EvEdgeRemoved u v ∈ ev).
Proof. exact (dirty_exactly one mul inv d0 s a b p h x ev rs). Qed.
Print Assumptions C25_dirty_exactly.

Theorem C25_reversed_removal_refuted {D T : Type} (d0 : D) (one : T) mul inv (s : gst D (tf T)) a b p u v ord s' ev r :
  reachable d0 (tf_inverse inv) s -> gs_subs s = [] -> get_path s a b true = Ret p -> consecutive (p_frames p) u v ->
  gstep d0 (tf_inverse inv) ord (ORemoveEdge v u) s = (s', ev, r) ->
  r = Ret tt /\ pstep one mul inv d0 (PGraph ord (ORemoveEdge v u)) (PSt s p) = (PSt s' p, ev, Ret None) /\
  p_dirty p = false /\ ~ joined s' u v.
Proof. exact (reversed_removal one mul inv d0 s a b p u v ord s' ev r). Qed.
Print Assumptions C25_reversed_removal_refuted.

Theorem C25_disconnected_target_refuted {D T : Type} (d0 : D) (one : T) mul inv (s : gst D (tf T)) a b p ord s' ev r :
  reachable d0 (tf_inverse inv) s -> gs_subs s = [] -> get_path s a b true = Ret p -> p_frames p <> [] ->
  gstep d0 (tf_inverse inv) ord (ODisconnect b) s = (s', ev, r) ->
  r = Ret tt /\ pstep one mul inv d0 (PGraph ord (ODisconnect b)) (PSt s p) = (PSt s' p, ev, Ret None) /\
  p_dirty p = false /\ exists u, consecutive (p_frames p) u b /\ ~ joined s' u b.
Proof. exact (target_disconnected one mul inv d0 s a b p ord s' ev r). Qed.
Print Assumptions C25_disconnected_target_refuted.

Example C25_case : let s := mstate pops1 in let p := mpath s fa fd true in
  let c := mprun [mg (ORemoveEdge fc fb); PQuery; mg (OAddEdge fa fc (mrel 20 fa fc)); PQuery] (PSt s p) in
  let c' := mprun [mg (OAddEdge fa fc (mrel 20 fa fc)); mg (ORemoveEdge fb fc); PQuery] (PSt s p) in
  reachable 0 mtf_inv s /\ gs_subs s = [] /\ get_path s fa fd true = Ret p /\ p_frames p = [fa; fb; fc; fd] /\
  snd (fst c) = [EvEdgeRemoved fc fb; EvEdgeAdded fa fc 7] /\ p_dirty (ps_p (fst (fst c))) = false /\
  p_frames (ps_p (fst (fst c))) = [fa; fb; fc; fd] /\
  snd c = [Ret None; Throw (XUnknownTransform fb fc); Ret None; Ret (Some (Tf 11 (true, 1%Z)))] /\
  p_dirty (ps_p (fst (fst c'))) = false /\ p_frames (ps_p (fst (fst c'))) = [fa; fc; fd] /\
  snd c' = [Ret None; Ret None; Ret (Some (Tf 20 (true, 1%Z)))].
Proof. cbv zeta. split; [exact pops1_reachable|]. by vm_compute. Qed.

(** ** C26: transform of a path *)
Theorem C26_short_path {D T : Type} (one : T) mul (s : gst D (tf T)) p :
  length (p_frames p) <= 1 -> get_transform_path one mul s p = (p, [], Ret (tf_of one)).
Proof. exact (path_query_short one mul s p). Qed.
Print Assumptions C26_short_path.

Theorem C26_clean_path {D T : Type} (d0 : D) (one : T) mul inv (s : gst D (tf T)) p :
  group one mul inv -> reachable d0 (tf_inverse inv) s -> 2 <= length (p_frames p) -> p_dirty p = false ->
  chain (joined s) (p_frames p) ->
  exists x a b q, get_transform_path one mul s p = (p, [], Ret x) /\ tf_tr x = route_tf one mul s (p_frames p) /\
    p_frames p !! 0 = Some a /\ p_frames p !! 1 = Some b /\ get_edge_property s a b = Ret q /\ tf_time x = tf_time q.
Proof. exact (fun G => path_query_clean one mul inv d0 G s p). Qed.
Print Assumptions C26_clean_path.

Theorem C26_dirty_path {D T : Type} (d0 : D) (one : T) mul inv (s : gst D (tf T)) p a b :
  group one mul inv -> reachable d0 (tf_inverse inv) s -> 2 <= length (p_frames p) -> p_dirty p = true ->
  head (p_frames p) = Some a -> last (p_frames p) = Some b ->
  (contains_frame s a = true -> contains_frame s b = true -> a <> b -> linked (joined s) a b ->
   exists p' x, get_transform_path one mul s p = (p', [], Ret x) /\ p_dirty p' = false /\ p_auto p' = p_auto p /\
     shortest (joined s) a b (p_frames p') /\ get_frames s a b = Ret (p_frames p') /\
     (forall u v, (u, v) ∈ p_edges p' <-> consecutive (p_frames p') u v) /\
     tf_tr x = route_tf one mul s (p_frames p')) /\
  (contains_frame s a = true -> contains_frame s b = true -> a = b \/ ~ linked (joined s) a b ->
   exists p', get_transform_path one mul s p = (p', [], Throw XInvalidPath) /\ p_frames p' = [] /\ p_dirty p' = false) /\
  (contains_frame s a = false -> get_transform_path one mul s p = (p, [], Throw (XUnknownFrame a))) /\
  (contains_frame s a = true -> contains_frame s b = false ->
   get_transform_path one mul s p = (p, [], Throw (XUnknownFrame b))).
Proof. exact (fun G => path_query_dirty one mul inv d0 G s p a b). Qed.
Print Assumptions C26_dirty_path.

Example C26_case : let s := mstate (pops1 ++ [OAddEdge fa fc (mrel 20 fa fc)]) in
  let p := mpath (mstate pops1) fa fd true in
  reachable 0 mtf_inv s /\ p_frames p = [fa; fb; fc; fd] /\ p_dirty p = false /\
  contains_edge s fa fb = Ret true /\ contains_edge s fb fc = Ret true /\ contains_edge s fc fd = Ret true /\
  snd (get_transform_path mot_one mot_mul s p) = Ret (Tf 11 (true, 1%Z)) /\
  p_frames (fst (fst (get_transform_path mot_one mot_mul s (set_dirty true p)))) = [fa; fc; fd] /\
  snd (get_transform_path mot_one mot_mul s (set_dirty true p)) = Ret (Tf 20 (true, 1%Z)).
Proof.
  cbv zeta. split; [|by vm_compute]. apply mstate_reachable; [|by vm_compute]. repeat constructor; by vm_compute.
Qed.

(** ** C27: a broken path never yields a transform
    Full statement: without the hypothesis about InvalidPath.  It is false, see the refutation: that exception itself
    makes the path empty, and an empty path has the transform identity. *)
Theorem C27_broken_path_partial {D T : Type} (d0 : D) (one : T) mul inv (s : gst D (tf T)) a b p h x ev rs :
  reachable d0 (tf_inverse inv) s -> get_path s a b true = Ret p -> p_frames p <> [] -> phist_ok h ->
  prun one mul inv d0 h (PSt s p) = (x, ev, rs) -> Forall defined rs -> Forall (fun r => r <> Throw XInvalidPath) rs ->
  ~ linked (joined (ps_g x)) a b ->
  exists p' e, get_transform_path one mul (ps_g x) (ps_p x) = (p', [], Throw e).
Proof. exact (broken_path_partial one mul inv d0 s a b p h x ev rs). Qed.
Print Assumptions C27_broken_path_partial.

(** The first query throws InvalidPath; from then on, whatever happens to the graph, queries return identity. *)
Theorem C27_identity_after_exception_refuted {D T : Type} (d0 : D) (one : T) mul inv (s : gst D (tf T)) p a b h x ev rs :
  group one mul inv -> reachable d0 (tf_inverse inv) s -> p_dirty p = true ->
  head (p_frames p) = Some a -> last (p_frames p) = Some b ->
  contains_frame s a = true -> contains_frame s b = true -> a <> b -> ~ linked (joined s) a b ->
  prun one mul inv d0 (PQuery :: h) (PSt s p) = (x, ev, rs) ->
  head rs = Some (Throw XInvalidPath) /\ snd (get_transform_path one mul (ps_g x) (ps_p x)) = Ret (tf_of one).
Proof. exact (fun G => broken_path_identity one mul inv d0 G s p a b h x ev rs). Qed.
Print Assumptions C27_identity_after_exception_refuted.

Example C27_case : let s := mstate pops1 in let p := mpath s fa fd true in
  let c := mprun [mg (ORemoveEdge fb fc)] (PSt s p) in
  let c' := mprun [mg (ORemoveEdge fb fc); PQuery; PQuery; mg (OAddEdge fa fd (mrel 5 fa fd)); PQuery] (PSt s p) in
  reachable 0 mtf_inv s /\ get_path s fa fd true = Ret p /\ p_frames p <> [] /\ snd c = [Ret None] /\
  p_dirty (ps_p (fst (fst c))) = true /\ get_frames (ps_g (fst (fst c))) fa fd = Ret [] /\
  snd (get_transform_path mot_one mot_mul (ps_g (fst (fst c))) (ps_p (fst (fst c)))) = Throw XInvalidPath /\
  snd c' = [Ret None; Throw XInvalidPath; Ret (Some (tf_of mot_one)); Ret None; Ret (Some (tf_of mot_one))].
Proof. cbv zeta. split; [exact pops1_reachable|]. by vm_compute. Qed.

(** ** C70: a path that does not update itself stays as it was *)
Theorem C70_fixed_path {D T : Type} (d0 : D) (one : T) mul inv (s : gst D (tf T)) a b p h x ev rs :
  get_path s a b false = Ret p -> prun one mul inv d0 h (PSt s p) = (x, ev, rs) -> ps_p x = p.
Proof. exact (fixed_path one mul inv d0 s a b p h x ev rs). Qed.
Print Assumptions C70_fixed_path.

Theorem C70_new_path {D E : Type} (d0 : D) (einv : E -> E) (s : gst D E) a b auto p :
  reachable d0 einv s -> get_path s a b auto = Ret p ->
  p_dirty p = false /\ p_auto p = auto /\
  (p_frames p = [] -> a = b \/ ~ linked (joined s) a b) /\
  (p_frames p <> [] -> shortest (joined s) a b (p_frames p) /\ NoDup (p_frames p) /\ a <> b /\
     path_origin p = Ret a /\ path_target p = Ret b /\
     forall i : Z, (0 <= i < Z.of_nat (path_size p))%Z -> exists f, path_at p i = Ret f /\ path_index p i = Ret f).
Proof. exact (new_path d0 einv s a b auto p). Qed.
Print Assumptions C70_new_path.

Example C70_case : let s := mstate pops1 in let p := mpath s fa fd false in
  let c := mprun [mg (ORemoveEdge fb fc); PQuery; mg (OAddEdge fa fc (mrel 20 fa fc)); PQuery] (PSt s p) in
  reachable 0 mtf_inv s /\ get_path s fa fd false = Ret p /\ p_frames (ps_p (fst (fst c))) = [fa; fb; fc; fd] /\
  snd c = [Ret None; Throw (XUnknownTransform fb fc); Ret None; Ret (Some (Tf 11 (true, 1%Z)))] /\
  path_at p 2 = Ret fc /\ path_at p 4 = Throw XOutOfRange.
Proof. cbv zeta. split; [exact pops1_reachable|]. by vm_compute. Qed.
