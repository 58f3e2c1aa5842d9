(** Lemmas about clients that follow a graph and about transforms through edge descriptors. *)
From stdpp Require Import prelude strings gmap gmultiset.
From Verif Require Import Outcome ItemClass Digraph Bfs TreeView GraphModel GraphOps GraphWf SpecStore SpecObs GraphStep GraphRefine GraphThms
  ItemsModel SpecReplica SpecQueue SpecItems QueueModel QueueThms ItemsData ItemsOps GraphCopy ItemsLog ItemsCopy ItemsThms ItemsPublish
  DispatcherModel SpecDispatch DispatchThms TransformModel SpecFollow.
Local Notation occurrences := SpecItems.occurrences.

(** *** Queues *)
Section follow.
Context {E : Type} (einv : E -> E).
Implicit Types s : est E.

Lemma mirrors_sound s r : ereachable einv s -> mirrors s r -> sound_replica r.
Proof.
  intros Hre Hm. pose proof (ereachable_wf einv s Hre) as Hwf. apply (mirrors_mir einv) in Hm as [[Hf He] Hi]; [|done]. split.
  - intros a b Hab. apply He in Hab as (e & Hin & Ha & Hb). split; [apply Hf; eauto|]. split; [apply Hf; eauto|].
    apply He. destruct (wf_inv einv _ Hwf e Hin) as (e' & Hin' & Hs & Ht & _). exists e'. split; [done|]. split; congruence.
  - intros f i Hfi. apply Hf. assert (Hc : 0 < multiplicity (f, i) (r_items r)) by (by apply elem_of_multiplicity).
    rewrite Hi in Hc. unfold items_of in Hc. destruct (dg_map _ !! f); [eauto|]. rewrite cnt_empty in Hc. lia.
Qed.

Lemma window_follows h s r : ereachable einv s -> mirrors s r -> announced einv h s -> calm einv h s ->
  exists r', replay (q_receive (erun einv h s).1.2) r = Some r' /\ mirrors (erun einv h s).1.1 r'.
Proof.
  intros Hre Hm (Hh & Hl & Hr) [Hc1 Hc2]. destruct (erun einv h s) as [[s' ev] o] eqn:Heq. cbn [fst snd] in *. subst o.
  destruct (events_are_a_log einv s r h s' ev) as (r' & Hr' & Hm'); try done. exists r'. split; [|done].
  apply queue_replays; [by eapply mirrors_sound|done| |done].
  intros a b x y Hab. apply (Hc1 a b x y). by apply (proj1 (proj2 Hm)).
Qed.

Lemma window_reachable h s : ereachable einv s -> announced einv h s -> ereachable einv (erun einv h s).1.1.
Proof.
  intros Hre (Hh & _ & Hr). destruct (erun einv h s) as [[s' ev] o] eqn:Heq. cbn [fst snd] in *. subst o. by eapply ereachable_run.
Qed.

Lemma flushed_follows hs s r : ereachable einv s -> mirrors s r -> every_window einv (announced einv) hs s -> every_window einv (calm einv) hs s ->
  exists r', flushed einv hs s r = Some r' /\ mirrors (state_after einv hs s) r'.
Proof.
  revert s r. induction hs as [|h hs IH]; intros s r Hre Hm Ha Hc; [by exists r|].
  destruct Ha as [Ha Has], Hc as [Hc Hcs]. destruct (window_follows h s r) as (r1 & Hr1 & Hm1); try done.
  pose proof (window_reachable h s Hre Ha) as Hre1. cbn [flushed state_after].
  destruct (erun einv h s) as [[s1 ev] o]. cbn [fst snd] in *. rewrite Hr1. by apply IH.
Qed.

Lemma replay_app l1 l2 r : replay (l1 ++ l2) r = match replay l1 r with Some r1 => replay l2 r1 | None => None end.
Proof. revert r. induction l1 as [|e l1 IH]; intros r; cbn [app replay]; [done|]. by destruct (apply_event e r). Qed.

Lemma subscribed_follows io s h hs : ereachable einv s -> iorder_ok io -> announced einv h s ->
  let '(s1, ev, _) := erun einv h s in
  no_short_lived_items ((eg_publish io s).1 ++ ev) -> every_window einv (announced einv) hs s1 -> every_window einv (calm einv) hs s1 ->
  (eg_publish io s).2 = Ret tt /\
  exists r1 r, replay (q_receive ((eg_publish io s).1 ++ ev)) empty_replica = Some r1 /\ mirrors s1 r1 /\
    flushed einv hs s1 r1 = Some r /\ mirrors (state_after einv hs s1) r.
Proof.
  intros Hre Hio Ha. pose proof (window_reachable h s Hre Ha) as Hre1. destruct Ha as (Hh & Hl & Hr).
  destruct (erun einv h s) as [[s1 ev] o] eqn:Heq. cbn [fst snd] in *. subst o. intros Hn Hw Hc.
  destruct (publish_spec einv io s Hre Hio) as (ev0 & r0 & Hp & _ & Hr0 & Hm0 & _). rewrite Hp in *. cbn [fst snd] in *.
  split; [done|]. destruct (events_are_a_log einv s r0 h s1 ev) as (r1 & Hr1 & Hm1); try done.
  destruct (flushed_follows hs s1 r1) as (r & Hf & Hm); try done. exists r1, r. split; [|done].
  apply queue_replays; [| | |done].
  - split; [intros a b Hab|intros f i Hfi]; by apply elem_of_empty in Hab || by apply gmultiset_elem_of_empty in Hfi.
  - by rewrite replay_app, Hr0.
  - intros a b x y Hab. by apply elem_of_empty in Hab.
Qed.

(** *** Typed dispatchers *)

Lemma balance_app l1 l2 f i : balance (l1 ++ l2) f i = (balance l1 f i + balance l2 f i)%Z.
Proof. unfold balance, times. rewrite !list.filter_app, !app_length. lia. Qed.
Lemma balance_cons e l f i : balance (e :: l) f i = (balance [e] f i + balance l f i)%Z.
Proof. exact (balance_app [e] l f i). Qed.

Lemma replay_balance evs r r' f i : replay evs r = Some r' ->
  Z.of_nat (multiplicity (f, i) (r_items r')) = (Z.of_nat (multiplicity (f, i) (r_items r)) + balance evs f i)%Z.
Proof.
  revert r. induction evs as [|e evs IH]; intros r Hr; cbn [replay] in Hr.
  - injection Hr as ->. unfold balance, times. cbn. lia.
  - destruct (apply_event e r) as [r1|] eqn:H1; [|done]. rewrite (IH r1 Hr), balance_cons.
    cut (Z.of_nat (multiplicity (f, i) (r_items r1)) = Z.of_nat (multiplicity (f, i) (r_items r)) + balance [e] f i)%Z; [lia|].
    clear Hr IH. unfold balance. rewrite !times_cons. unfold times. cbn [filter list_filter length]. unfold one.
    apply apply_inv in H1. destruct (decide (e = EvItemAdded f i)) as [->|Ha]; [|destruct (decide (e = EvItemRemoved f i)) as [->|Hb]].
    + destruct H1 as [_ ->]. cbn [r_items]. rewrite decide_False by done. rewrite multiplicity_disj_union, multiplicity_singleton. lia.
    + destruct H1 as [Hin ->]. rewrite elem_of_multiplicity in Hin. cbn [r_items]. rewrite multiplicity_difference, multiplicity_singleton. lia.
    + destruct e as [f0|f0|o t e|o t e1 e2|o t|f0 j|f0 j]; destruct_and?; subst r1; cbn [r_items]; try lia.
      * rewrite multiplicity_disj_union, multiplicity_singleton_ne by congruence. lia.
      * rewrite multiplicity_difference, multiplicity_singleton_ne by congruence. lia.
Qed.

Lemma balance_filter (P : event -> Prop) `{!forall e, Decision (P e)} evs f i :
  (P (EvItemAdded f i) <-> P (EvItemRemoved f i)) ->
  balance (filter P evs) f i = if decide (P (EvItemAdded f i)) then balance evs f i else 0%Z.
Proof.
  intros HP. induction evs as [|e evs IH]; [by destruct (decide _)|].
  rewrite list.filter_cons. rewrite (balance_cons e evs). destruct (decide (P e)) as [He|He].
  - rewrite balance_cons, IH. destruct (decide (P (EvItemAdded f i))) as [Hi|Hi]; [done|].
    unfold balance, times. rewrite !list.filter_cons. cbn [filter list_filter].
    rewrite (decide_False (P := e = EvItemAdded f i)), (decide_False (P := e = EvItemRemoved f i)) by (intros ->; tauto). done.
  - rewrite IH. destruct (decide (P (EvItemAdded f i))) as [Hi|Hi]; [|done].
    unfold balance at 2, times. rewrite !list.filter_cons. cbn [filter list_filter].
    rewrite (decide_False (P := e = EvItemAdded f i)), (decide_False (P := e = EvItemRemoved f i)) by (intros ->; tauto). cbn. lia.
Qed.

Lemma typed_count s io f i d cls : ereachable einv s -> iorder_ok io -> classes s cls ->
  occurrences i (items_in s f (CItem d)) = if decide (is_a (cls i) (CItem d)) then occurrences i (all_items io s f) else 0.
Proof.
  intros Hre Hio Hc. destruct (ereachable_inv einv s Hre) as [Hwf Hl]. specialize (Hl f).
  rewrite (all_items_eq einv), (items_in_eq einv) by done.
  rewrite (occurrences_perm i _ _ (bag_lists io _ (items_of (gs_dg (es_g s)) f) Hio)).
  change (occurrences i (bag (items_of (gs_dg (es_g s)) f))) with (cnt (items_of (gs_dg (es_g s)) f) i).
  set (m := items_of (gs_dg (es_g s)) f) in *.
  assert (Hty : forall T l, m !! T = Some l -> i ∈ l -> type_index (cls i) = T).
  { intros T l Hm Hin. destruct (Hl T l Hm) as [_ Hall]. rewrite list.Forall_forall in Hall. destruct (Hall i Hin) as (x & Hx & HT).
    rewrite (Hc i x); [done|]. by apply deref_heap. }
  assert (His : is_a (cls i) (CItem d) <-> type_index (cls i) = CItem d).
  { unfold is_a. rewrite orb_True, !bool_decide_spec. split; [|tauto]. intros [->|H]; [done|exact H]. }
  destruct (decide (is_a (cls i) (CItem d))) as [Hi|Hi]; rewrite His in Hi.
  - rewrite (cnt_delete m (CItem d) i). cut (cnt (delete (CItem d) m) i = 0); [lia|].
    destruct (Nat.eq_dec (cnt (delete (CItem d) m) i) 0) as [|Hp]; [done|exfalso].
    assert (Hp' : 0 < occurrences i (bag (delete (CItem d) m))) by (unfold cnt in Hp; lia).
    apply occurrences_pos, elem_of_bag in Hp' as (T & l & Hm & Hin). apply lookup_delete_Some in Hm as [Hne Hm].
    apply Hne. rewrite <- (Hty T l Hm Hin). by symmetry.
  - destruct (Nat.eq_dec (occurrences i (default [] (m !! CItem d))) 0) as [|Hp]; [done|exfalso].
    assert (Hp' : 0 < occurrences i (default [] (m !! CItem d))) by lia. apply occurrences_pos in Hp'.
    destruct (m !! CItem d) as [l|] eqn:Hm; [|by apply elem_of_nil in Hp']. apply Hi. by eapply Hty.
Qed.

Lemma typed_follows io s h f i d cls : ereachable einv s -> iorder_ok io -> announced einv h s ->
  let '(s', ev, _) := erun einv h s in classes s' cls ->
  (eg_publish io s).2 = Ret tt /\
  balance (item_run cls (CItem d) ((eg_publish io s).1 ++ ev)).*1 f i = Z.of_nat (occurrences i (items_in s' f (CItem d))).
Proof.
  intros Hre Hio Ha. pose proof (window_reachable h s Hre Ha) as Hre1. destruct Ha as (Hh & Hl & Hr).
  destruct (erun einv h s) as [[s1 ev] o] eqn:Heq. cbn [fst snd] in *. subst o. intros Hc.
  destruct (publish_spec einv io s Hre Hio) as (ev0 & r0 & Hp & _ & Hr0 & Hm0 & _). rewrite Hp in *. cbn [fst snd] in *.
  split; [done|]. destruct (events_are_a_log einv s r0 h s1 ev) as (r1 & Hr1 & Hm1); try done.
  rewrite item_run_plain, <- list_fmap_compose, (list_fmap_ext _ id) by done. rewrite list_fmap_id.
  rewrite balance_filter by done. cbn [about_item].
  rewrite (typed_count s1 io f i d cls) by done. rewrite <- (proj2 (proj2 Hm1) io f i Hio).
  destruct (decide _); [|done]. assert (Hrep : replay (ev0 ++ ev) empty_replica = Some r1) by by rewrite replay_app, Hr0.
  rewrite (replay_balance _ _ _ f i Hrep). change (r_items empty_replica) with (∅ : gmultiset (frameid * iptr)). rewrite multiplicity_empty. lia.
Qed.

End follow.

(** *** Edge descriptors *)
Section descriptors.
Context {D T : Type} (d0 : D) (one : T) (mul : T -> T -> T) (inv : T -> T).
Implicit Types s : gst D (tf T).
Local Notation einv := (tf_inverse inv).

Lemma edge_found s a b e : reachable d0 einv s -> get_edge s a b = Ret e ->
  exists u v, get_vertex s a = Ret u /\ get_vertex s b = Ret v /\ e_src e = u /\ e_tgt e = v /\
    bg_erec (gs_dg s) (e_id e) = Some e /\ bg_edge (gs_dg s) u v = Some e /\ bg_alive (gs_dg s) u = true /\ num_edges s <> 0.
Proof.
  intros Hre He. pose proof (reachable_wf d0 einv s Hre) as Hwf. unfold get_edge in He.
  destruct (get_vertex s a) as [u| | |] eqn:Ha; try done. destruct (get_vertex s b) as [v| | |] eqn:Hb; try done. cbn [obind] in He.
  unfold get_edge_v, find_edge in He. destruct (bg_alive (gs_dg s) u) eqn:Hu; [|done]. cbn [obind] in He.
  destruct (bg_edge (gs_dg s) u v) as [e'|] eqn:Hed.
  2:{ destruct (get_frame_id s u); try done. destruct (get_frame_id s v); done. }
  injection He as ->. pose proof (proj1 (bg_edge_iff einv _ _ _ _ Hwf) Hed) as (Hin & Hs & Ht).
  exists u, v. repeat (split; [done|]). split; [by apply (bg_erec_iff einv)|]. split; [done|]. split; [done|].
  unfold num_edges. rewrite (wf_ne einv _ Hwf). destruct (dg_edges (gs_dg s)); [by apply elem_of_nil in Hin|done].
Qed.

Lemma edge_transforms s a b e : reachable d0 einv s -> get_edge s a b = Ret e ->
  exists p, get_edge_property s a b = Ret p /\ get_transform one mul s a b = Ret p /\
    get_transform_e s (e_id e) = Ret (Tf 0 (tf_tr p)).
Proof.
  intros Hre He. destruct (edge_found s a b e Hre He) as (u & v & Ha & Hb & Hs & Ht & Hr & Hed & Hu & Hn).
  exists (e_prop e). split; [|split].
  - unfold get_edge_property. rewrite He. cbn [obind]. unfold get_edge_property_e. by rewrite Hr.
  - unfold get_transform. rewrite Ha, Hb. cbn [obind]. unfold get_transform_v. destruct (Nat.eqb_spec (num_edges s) 0); [done|].
    unfold find_edge. rewrite Hu. cbn [obind]. by rewrite Hed.
  - unfold get_transform_e. by rewrite Hr.
Qed.

Lemma edge_time_lost s a b e p : reachable d0 einv s -> get_edge s a b = Ret e -> get_transform one mul s a b = Ret p -> tf_time p <> 0%Z ->
  get_transform_e s (e_id e) = Ret (Tf 0 (tf_tr p)) /\ get_transform_e s (e_id e) <> get_transform one mul s a b.
Proof.
  intros Hre He Hp Ht. destruct (edge_transforms s a b e Hre He) as (q & _ & Hq & Hr). rewrite Hp in Hq. injection Hq as <-.
  split; [done|]. rewrite Hr, Hp. intros [= H]. destruct p as [n x]. cbn in *. by injection H as <-.
Qed.

Lemma edge_updates s a b e x : reachable d0 einv s -> get_edge s a b = Ret e ->
  update_transform_e inv (e_id e) x s = update_transform inv a b x s.
Proof.
  intros Hre He. destruct (edge_found s a b e Hre He) as (u & v & Ha & Hb & Hs & Ht & Hr & Hed & Hu & Hn).
  unfold update_transform_e, update_transform, set_edge_property. rewrite Hr, Hs, Ht.
  by rewrite (cbind_read_ret _ _ s u Ha), (cbind_read_ret _ _ s v Hb).
Qed.
End descriptors.
