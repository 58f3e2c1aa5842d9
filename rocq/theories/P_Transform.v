(** Properties of transform queries: C11-C15, C21. *)
From stdpp Require Import prelude strings gmap.
From Verif Require Import Outcome Digraph TreeView GraphModel GraphOps SpecObs SpecWalk SpecSearch
  SpecTree TransformModel SpecTransform TransformThms TransformView ExGraph ExTransform.

(** ** C11: getTransform composes along a shortest route *)
Theorem C11_getTransform_composes {D T : Type} (d0 : D) (one : T) mul inv (s : gst D (tf T)) a b :
  reachable d0 (tf_inverse inv) s -> contains_frame s a = true -> contains_frame s b = true ->
  (forall p, get_transform one mul s a b = Ret p ->
     (joined s a b /\ get_edge_property s a b = Ret p) \/
     (~ joined s a b /\ exists l, shortest (joined s) a b l /\ tf_tr p = route_tf one mul s l)) /\
  (get_transform one mul s a b = Throw (XUnknownTransform a b) <-> num_edges s = 0 \/ ~ linked (joined s) a b) /\
  ((exists p, get_transform one mul s a b = Ret p) \/ get_transform one mul s a b = Throw (XUnknownTransform a b)).
Proof. exact (get_transform_composes d0 one mul inv s a b). Qed.
Print Assumptions C11_getTransform_composes.

Example C11_case : let s := mstate mops1 in
  reachable 0 mtf_inv s /\ contains_frame s fb = true /\ contains_frame s fd = true /\
  mget s fb fd = Ret (Tf 0 (mot_mul (tf_tr (mrel 0 fb fc)) (tf_tr (mrel 0 fc fd)))) /\
  mget s fd fc = Ret (mrel 14 fd fc) /\ mget s fa "e" = Throw (XUnknownTransform fa "e").
Proof. cbv zeta. split; [exact mops1_reachable|]. by vm_compute. Qed.

(** ** C12: transform queries are coherent when the stored transforms are cycle consistent *)
Theorem C12_transforms_coherent {D T : Type} (d0 : D) (one : T) mul inv (s : gst D (tf T)) a b c :
  group one mul inv -> reachable d0 (tf_inverse inv) s -> consistent one mul s -> num_edges s <> 0 ->
  contains_frame s a = true -> linked (joined s) a b -> linked (joined s) b c ->
  exists pab pbc pac pba,
    get_transform one mul s a b = Ret pab /\ get_transform one mul s b c = Ret pbc /\
    get_transform one mul s a c = Ret pac /\ get_transform one mul s b a = Ret pba /\
    tf_tr pac = mul (tf_tr pab) (tf_tr pbc) /\ tf_tr pba = inv (tf_tr pab).
Proof. exact (fun G => transforms_coherent d0 one mul inv G s a b c). Qed.
Print Assumptions C12_transforms_coherent.

Example C12_case : let s := mstate mops2 in
  group mot_one mot_mul mot_inv /\ reachable 0 mtf_inv s /\ consistent mot_one mot_mul s /\ num_edges s <> 0 /\
  contains_frame s fa = true /\ linked (joined s) fa fd /\ linked (joined s) fd fb /\
  mot_mul (true, 1%Z) (false, 2%Z) <> mot_mul (false, 2%Z) (true, 1%Z) /\
  mget s fa fd = Ret (Tf 0 (true, 1%Z)) /\ mget s fd fb = Ret (Tf 0 (false, (-2)%Z)) /\ mget s fa fb = Ret (Tf 11 (true, 3%Z)).
Proof.
  cbv zeta. split; [exact mot_group|]. split; [exact mops2_reachable|]. split; [exact mops2_consistent|]. split; [by vm_compute|].
  split; [by vm_compute|]. split; [exists [fa; fc; fd]; repeat constructor; by vm_compute|].
  split; [exists [fd; fc; fb]; repeat constructor; by vm_compute|]. split; [exact mot_not_commutative|]. by vm_compute.
Qed.

(** ** C13: a forest is always cycle consistent *)
Theorem C13_forest_consistent {D T : Type} (d0 : D) (one : T) mul inv (s : gst D (tf T)) :
  group one mul inv -> reachable d0 (tf_inverse inv) s -> forest s -> consistent one mul s.
Proof. exact (fun G => forest_consistent d0 one mul inv G s). Qed.
Print Assumptions C13_forest_consistent.

Theorem C13_forest_coherent {D T : Type} (d0 : D) (one : T) mul inv (s : gst D (tf T)) a b c :
  group one mul inv -> reachable d0 (tf_inverse inv) s -> forest s -> num_edges s <> 0 ->
  contains_frame s a = true -> linked (joined s) a b -> linked (joined s) b c ->
  exists pab pbc pac pba,
    get_transform one mul s a b = Ret pab /\ get_transform one mul s b c = Ret pbc /\
    get_transform one mul s a c = Ret pac /\ get_transform one mul s b a = Ret pba /\
    tf_tr pac = mul (tf_tr pab) (tf_tr pbc) /\ tf_tr pba = inv (tf_tr pab).
Proof.
  exact (fun G Hr Hf => transforms_coherent d0 one mul inv G s a b c Hr (forest_consistent d0 one mul inv G s Hr Hf)).
Qed.
Print Assumptions C13_forest_coherent.

Example C13_case : let s := mstate mops3 in
  group mot_one mot_mul mot_inv /\ reachable 0 mtf_inv s /\ forest s /\ num_edges s <> 0 /\ contains_frame s fa = true /\
  linked (joined s) fa fd /\ linked (joined s) fd fc /\ mget s fa fd = Ret (Tf 0 (false, (-3)%Z)).
Proof.
  cbv zeta. split; [exact mot_group|]. split; [exact mops3_reachable|]. split; [exact mops3_forest|]. split; [by vm_compute|].
  split; [by vm_compute|]. split; [exists [fa; fb; fd]; repeat constructor; by vm_compute|].
  split; [exists [fd; fb; fc]; repeat constructor; by vm_compute|]. by vm_compute.
Qed.

(** ** C14: the transform of a frame to itself *)
(** Full statement: getTransform(a, a) returns identity for every known frame.  This fails in a graph without edges. *)
Theorem C14_self_transform_partial {D T : Type} (d0 : D) (one : T) mul inv (s : gst D (tf T)) a :
  reachable d0 (tf_inverse inv) s -> contains_frame s a = true -> num_edges s <> 0 ->
  get_transform one mul s a a = Ret (Tf 0 one).
Proof. exact (fun Hr Ha => proj1 (self_transform d0 one mul inv s a Hr Ha)). Qed.
Print Assumptions C14_self_transform_partial.

Theorem C14_self_transform_refuted {D T : Type} (d0 : D) (one : T) mul inv (s : gst D (tf T)) a :
  reachable d0 (tf_inverse inv) s -> contains_frame s a = true -> num_edges s = 0 ->
  get_transform one mul s a a = Throw (XUnknownTransform a a).
Proof. exact (fun Hr Ha => proj2 (self_transform d0 one mul inv s a Hr Ha)). Qed.
Print Assumptions C14_self_transform_refuted.

Example C14_case : reachable 0 mtf_inv (mstate mops1) /\ contains_frame (mstate mops1) fd = true /\
  num_edges (mstate mops1) <> 0 /\ mget (mstate mops1) fd fd = Ret (Tf 0 mot_one) /\
  reachable 0 mtf_inv (mstate [OAddFrame fa]) /\ contains_frame (mstate [OAddFrame fa]) fa = true /\
  num_edges (mstate [OAddFrame fa]) = 0.
Proof.
  split; [exact mops1_reachable|]. split; [by vm_compute|]. split; [by vm_compute|]. split; [by vm_compute|].
  split; [apply mstate_reachable; [by repeat constructor|by vm_compute]|]. by vm_compute.
Qed.

(** ** C15: time stamps *)
Theorem C15_query_times {D T : Type} (d0 : D) (one : T) mul inv (s : gst D (tf T)) a b p :
  reachable d0 (tf_inverse inv) s -> get_transform one mul s a b = Ret p ->
  (joined s a b -> exists q, get_edge_property s a b = Ret q /\ tf_time p = tf_time q) /\
  (~ joined s a b -> tf_time p = 0%Z).
Proof. exact (transform_times d0 one mul inv s a b p). Qed.
Print Assumptions C15_query_times.

Theorem C15_algebra_times {T : Type} (mul : T -> T -> T) (inv : T -> T) (x y : tf T) :
  tf_time (tf_mul mul x y) = Z.max (tf_time x) (tf_time y) /\ tf_tr (tf_mul mul x y) = mul (tf_tr x) (tf_tr y) /\
  tf_time (tf_inverse inv x) = tf_time x /\ tf_tr (tf_inverse inv x) = inv (tf_tr x).
Proof. exact (product_time mul inv x y). Qed.
Print Assumptions C15_algebra_times.

Example C15_case : let s := mstate mops1 in
  reachable 0 mtf_inv s /\ tf_time <$> (match mget s fc fa with Ret p => Some p | _ => None end) = Some 13%Z /\
  joined s fc fa /\ tf_time <$> (match mget s fa fd with Ret p => Some p | _ => None end) = Some 0%Z /\ ~ joined s fa fd.
Proof. cbv zeta. split; [exact mops1_reachable|]. split; [by vm_compute|]. split; [by vm_compute|]. by vm_compute. Qed.

(** ** C21: transforms through a tree view *)
Theorem C21_view_transform {D T : Type} (d0 : D) (one : T) mul inv (s : gst D (tf T)) w a b u v :
  group one mul inv -> reachable d0 (tf_inverse inv) s -> in_sync (gs_dg s) w -> consistent one mul s ->
  get_vertex s a = Ret u -> get_vertex s b = Ret v ->
  tv_vertex_exists w u = true -> tv_vertex_exists w v = true -> a <> b ->
  exists p q, get_transform_view one mul inv s a b w = Ret p /\ get_transform one mul s a b = Ret q /\
    tf_tr p = tf_tr q /\ tf_time p = 0%Z.
Proof. exact (view_transform d0 one mul inv s w a b u v). Qed.
Print Assumptions C21_view_transform.

Theorem C21_view_transform_self {D T : Type} (one : T) mul inv (s : gst D (tf T)) w a u :
  get_vertex s a = Ret u -> get_transform_view one mul inv s a a w = Ret (Tf 0 one).
Proof. exact (view_transform_self one mul inv s w a u). Qed.
Print Assumptions C21_view_transform_self.

Theorem C21_view_transform_outside {D T : Type} (d0 : D) (one : T) mul inv (s : gst D (tf T)) w a b u v :
  reachable d0 (tf_inverse inv) s -> in_sync (gs_dg s) w ->
  get_vertex s a = Ret u -> get_vertex s b = Ret v -> a <> b ->
  tv_vertex_exists w u = false \/ tv_vertex_exists w v = false ->
  get_transform_view one mul inv s a b w = Throw XRuntime.
Proof. exact (view_transform_outside d0 one mul inv s w a b u v). Qed.
Print Assumptions C21_view_transform_outside.

Theorem C21_view_transform_unknown {D T : Type} (d0 : D) (one : T) mul inv (s : gst D (tf T)) w a b :
  reachable d0 (tf_inverse inv) s ->
  (contains_frame s a = false -> get_transform_view one mul inv s a b w = Throw (XUnknownFrame a)) /\
  (contains_frame s a = true -> contains_frame s b = false ->
     get_transform_view one mul inv s a b w = Throw (XUnknownFrame b)).
Proof. exact (view_transform_unknown d0 one mul inv s w a b). Qed.
Print Assumptions C21_view_transform_unknown.

Example C21_case : let s := mstate mops2 in let w := mview 1 s in
  group mot_one mot_mul mot_inv /\ reachable 0 mtf_inv s /\ in_sync (gs_dg s) w /\ consistent mot_one mot_mul s /\
  get_vertex s fa = Ret 1 /\ get_vertex s fd = Ret 4 /\ get_vertex s "e" = Ret 5 /\ tv_vertex_exists w 1 = true /\
  tv_vertex_exists w 4 = true /\ tv_vertex_exists w 5 = false /\ contains_frame s "x" = false /\
  get_transform_view mot_one mot_mul mot_inv s fa fd w = Ret (Tf 0 (true, 1%Z)).
Proof.
  cbv zeta. split; [exact mot_group|]. split; [exact mops2_reachable|]. split; [exact mops2_sync|]. split; [exact mops2_consistent|].
  by vm_compute.
Qed.
