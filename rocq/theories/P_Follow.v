(** Properties of clients that follow a graph and of transforms through edge descriptors: C81-C83. *)
From stdpp Require Import prelude strings gmap gmultiset.
From Verif Require Import Outcome ItemClass Digraph Bfs TreeView GraphModel GraphOps SpecStore SpecObs TransformModel ItemsModel SpecReplica SpecQueue
  SpecItems ItemsThms ItemsPublish QueueModel DispatcherModel SpecFollow FollowThms ExGraph ExTransform ExItems ExFollow.

(** ** C81: transforms through edge descriptors *)
(* Updating: same new state, events and outcome as through the names. *)
Theorem C81_update {D T : Type} (d0 : D) (inv : T -> T) (s : gst D (tf T)) a b e x :
  reachable d0 (tf_inverse inv) s -> get_edge s a b = Ret e ->
  update_transform_e inv (e_id e) x s = update_transform inv a b x s.
Proof. exact (edge_updates d0 inv s a b e x). Qed.
Print Assumptions C81_update.

(* Reading: same transform.  Missing: the time stamp, see below. *)
Theorem C81_read_partial {D T : Type} (d0 : D) (one : T) mul inv (s : gst D (tf T)) a b e :
  reachable d0 (tf_inverse inv) s -> get_edge s a b = Ret e ->
  exists p q, get_transform one mul s a b = Ret p /\ get_edge_property s a b = Ret p /\ get_transform_e s (e_id e) = Ret q /\
    tf_tr q = tf_tr p.
Proof.
  exact (fun Hr He => let '(ex_intro _ p (conj H1 (conj H2 H3))) := edge_transforms d0 one mul inv s a b e Hr He in
    ex_intro _ p (ex_intro _ (Tf 0 (tf_tr p)) (conj H2 (conj H1 (conj H3 eq_refl))))).
Qed.
Print Assumptions C81_read_partial.

(* The time stamp is lost: what is read through an edge always has the null time. *)
Theorem C81_read_time_refuted {D T : Type} (d0 : D) (one : T) mul inv (s : gst D (tf T)) a b e p :
  reachable d0 (tf_inverse inv) s -> get_edge s a b = Ret e -> get_transform one mul s a b = Ret p -> tf_time p <> 0%Z ->
  get_transform_e s (e_id e) = Ret (Tf 0 (tf_tr p)) /\ get_transform_e s (e_id e) <> get_transform one mul s a b.
Proof. exact (edge_time_lost d0 one mul inv s a b e p). Qed.
Print Assumptions C81_read_time_refuted.

Example C81_case : let s := mstate mops1 in reachable 0 mtf_inv s /\ (e_id <$> (match get_edge s fc fa with Ret e => Some e | _ => None end)) = Some 6 /\
  mget s fc fa = Ret (mrel 13 fc fa) /\ get_transform_e s 6 = Ret (mrel 0 fc fa) /\
  mget (update_transform_e mot_inv 6 (Tf 20 (true, 1%Z)) s).1.1 fa fc = Ret (Tf 20 (true, 1%Z)).
Proof. cbv zeta. split; [exact mops1_reachable|]. by vm_compute. Qed.

(** ** C82: a queue keeps up with its graph *)
(* [s] is the graph when the queue is subscribed, [h] the calls up to the first flush, [hs] those between later flushes.  The
   client starts without knowledge.  Missing: windows that C28 ([announced]) and C35 ([calm]) leave out. *)
Theorem C82_queue_keeps_up_partial {E : Type} (einv : E -> E) io s h hs : ereachable einv s -> iorder_ok io -> announced einv h s ->
  let '(s1, ev, _) := erun einv h s in
  no_short_lived_items ((eg_publish io s).1 ++ ev) -> every_window einv (announced einv) hs s1 -> every_window einv (calm einv) hs s1 ->
  (eg_publish io s).2 = Ret tt /\
  exists r1 r, replay (q_receive ((eg_publish io s).1 ++ ev)) empty_replica = Some r1 /\ mirrors s1 r1 /\
    flushed einv hs s1 r1 = Some r /\ mirrors (state_after einv hs s1) r.
Proof. exact (subscribed_follows einv io s h hs). Qed.
Print Assumptions C82_queue_keeps_up_partial.

Example C82_case : let s := istate Z.opp iops1 in let h := ihist fwin0 in let hs := [ihist fwin1; ihist fwin2] in
  let s1 := (erun Z.opp h s).1.1 in
  ereachable Z.opp s /\ iorder_ok xio /\ announced Z.opp h s /\ no_short_lived_items ((eg_publish xio s).1 ++ (erun Z.opp h s).1.2) /\
  every_window Z.opp (announced Z.opp) hs s1 /\ every_window Z.opp (calm Z.opp) hs s1 /\
  q_receive (erun Z.opp (ihist fwin1) s1).1.2 =
    [EvEdgeRemoved fb fa; EvItemRemoved fa 5; EvItemAdded fd 5; EvEdgeAdded fb fa 5] /\
  (length (erun Z.opp (ihist fwin1) s1).1.2 = 8).
Proof.
  cbv zeta. split; [exact iops1_reachable|]. split; [exact xio_ok|].
  split; [apply window_announced; [ops_ok|by repeat constructor|by vm_compute]|].
  split; [apply items_b_ok; by vm_compute|].
  split; [split; [|split; [|done]]; (apply window_announced; [ops_ok|by repeat constructor|by vm_compute])|].
  split; [split; [|split; [|done]]; (apply window_calm; by vm_compute)|]. split; by vm_compute.
Qed.

(* An edge that is removed, added again and removed between two flushes stays in the client's knowledge for ever. *)
Theorem C82_edge_removed_twice_refuted : exists s r, let h := ihist [EGraph (ORemoveEdge fa fb); EGraph (OAddEdge fa fb 3%Z); EGraph (ORemoveEdge fb fa)] in
  ereachable Z.opp s /\ mirrors s r /\ announced Z.opp h s /\
  exists r', flushed Z.opp [h] s r = Some r' /\ (fa, fb) ∈ r_edges r' /\ contains_edge (es_g (state_after Z.opp [h] s)) fa fb = Ret false.
Proof.
  exists (istate Z.opp iops1), (replica_of xio (istate Z.opp iops1)). cbv zeta. split; [exact iops1_reachable|].
  split; [apply (mirrors_eq Z.opp xio); [apply (ereachable_wf Z.opp), iops1_reachable|apply xio_ok|done]|].
  split; [apply window_announced; [ops_ok|by repeat constructor|by vm_compute]|].
  exists (replica_of xio (istate Z.opp iops1)). split; [by vm_compute|]. split; [apply (bool_decide_unpack _); by vm_compute|by vm_compute].
Qed.
Print Assumptions C82_edge_removed_twice_refuted.

(** ** C83: a typed dispatcher knows the items of its type *)
(* Subscribed to the graph [s], then the calls [h].  Missing: calls that C28 leaves out; classes derived from Item (C40). *)
Theorem C83_typed_items_partial {E : Type} (einv : E -> E) io s h f i d cls : ereachable einv s -> iorder_ok io -> announced einv h s ->
  let '(s', ev, _) := erun einv h s in classes s' cls ->
  (eg_publish io s).2 = Ret tt /\
  balance (item_run cls (CItem d) ((eg_publish io s).1 ++ ev)).*1 f i = Z.of_nat (occurrences i (items_in s' f (CItem d))).
Proof. exact (typed_follows einv io s h f i d cls). Qed.
Print Assumptions C83_typed_items_partial.

Example C83_case : let s := istate Z.opp iops1 in let h := ihist (fwin0 ++ fwin1 ++ fwin2) in let s' := (erun Z.opp h s).1.1 in
  let cls := fun i => match deref s' i with Ret x => it_class x | _ => CItem 9 end in
  ereachable Z.opp s /\ iorder_ok xio /\ announced Z.opp h s /\ classes s' cls /\
  (item_run cls (CItem 0) ((eg_publish xio s).1 ++ (erun Z.opp h s).1.2)).*1 =
    [EvItemAdded fa 1; EvItemAdded fa 2; EvItemAdded fa 5; EvItemAdded fb 4; EvItemRemoved fa 5; EvItemAdded fd 5] /\
  items_in s' fa (CItem 0) = [1; 2] /\ items_in s' fd (CItem 0) = [5].
Proof.
  cbv zeta. split; [exact iops1_reachable|]. split; [exact xio_ok|].
  split; [apply window_announced; [ops_ok|by repeat constructor|by vm_compute]|]. split; [intros i x Hx; by rewrite Hx|]. by vm_compute.
Qed.
