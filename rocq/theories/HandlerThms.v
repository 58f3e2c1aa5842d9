(** Event handlers that run inside a call. *)
From stdpp Require Import prelude strings gmap.
From Verif Require Import ListLib Outcome Digraph Bfs TreeView GraphModel GraphOps GraphWf GraphStep
  SpecStore SpecObs GraphThms HandlerModel SpecHandler.

Section tail.
Context {D E : Type} (d0 : D) (einv : E -> E).
Local Notation gst := (gst D E).
Context (h : event -> call gst unit) (fuel : nat).
Implicit Types s : gst.

Definition quiet {A} (m : call gst A) : Prop := forall s, snd (fst (m s)) = [].
Definition tail {A} (mh m : call gst A) : Prop := forall s, mh s = handled_after h (m s).

Lemma handled_nil {A} s (r : outcome A) : handled_after h (s, [], r) = (s, [], r).
Proof. done. Qed.

Lemma tail_quiet {A} (m : call gst A) : quiet m -> tail m m.
Proof. intros Hq s. specialize (Hq s). destruct (m s) as [[s1 ev] r]. cbn in Hq. by subst. Qed.

Lemma tail_bind {A B} (m : call gst A) (kh k : A -> call gst B) :
  quiet m -> (forall a, tail (kh a) (k a)) -> tail (cbind m kh) (cbind m k).
Proof.
  intros Hq Hk s. unfold cbind. specialize (Hq s). destruct (m s) as [[s1 ev] r]. cbn in Hq. subst ev.
  destruct r as [a|x| |]; try done. rewrite (Hk a s1). cbn [app].
  destruct (k a s1) as [[s2 ev2] r2]. by destruct (handled_after _ _) as [[??]?].
Qed.

Lemma tail_notify e : tail (hnotify h e) (cnotify e).
Proof.
  intros s. unfold hnotify, cbind, cnotify. cbn. destruct (h e s) as [[s2 ev] r]. by destruct r as [[]| | |].
Qed.

Lemma quiet_read {A} (f : gst -> outcome A) : quiet (cread f).
Proof. done. Qed.
Lemma quiet_modify f : quiet (cmodify (St := gst) f).
Proof. done. Qed.
Lemma quiet_add o t p : quiet (fun s : gst => let '(g, i) := bg_add_edge o t p (gs_dg s) in (gs_set_dg g s, [], Ret i)).
Proof. intros s. by destruct (bg_add_edge o t p (gs_dg s)). Qed.
Lemma quiet_views (e : erec E) : quiet (add_edge_to_tree_views (D := D) e).
Proof.
  intros s. destruct (add_edge_to_tree_views e s) as [[s1 ev] r] eqn:H.
  unfold add_edge_to_tree_views in H. by apply for_views_frame in H as (_ & _ & ->).
Qed.

Lemma tail_add_vertex f d : tail (add_vertex_h h f d) (add_vertex f d).
Proof.
  intros s. unfold add_vertex_h, add_vertex, cbind, hnotify, cnotify.
  destruct (bg_add_vertex f d (gs_dg s)) as [g v]. cbn. unfold cbind.
  destruct (h (EvFrameAdded f) (gs_set_dg g s)) as [[s2 ev] r]. destruct r; cbn; by rewrite ?app_nil_r.
Qed.

Lemma handled_void {A} (x : gst * list event * outcome A) :
  handled_after h (let '(s1, ev, r) := x in (s1, ev, ovoid r)) =
  let '(s1, ev, r) := handled_after h x in (s1, ev, ovoid r).
Proof.
  destruct x as [[s1 ev] r]. destruct ev as [|e [|? ?]]; destruct r as [a|?| |]; try done.
  cbn. destruct (h e s1) as [[s2 ev2] r2]. by destruct r2.
Qed.

Lemma void_eq {A} (m : call gst A) s : cbind m (fun _ => cret tt) s = let '(s1, ev, r) := m s in (s1, ev, ovoid r).
Proof. unfold cbind, cret. destruct (m s) as [[s1 ev] r]. destruct r; cbn; by rewrite ?app_nil_r. Qed.

Lemma tail_void {A} (mh m : call gst A) : tail mh m -> tail (_ <-- mh ;; cret tt) (_ <-- m ;; cret tt).
Proof. intros H s. rewrite !void_eq, handled_void, (H s). done. Qed.

Lemma tail_emplace f d : tail (emplace_frame_h h f d) (emplace_frame f d).
Proof.
  intros s. unfold emplace_frame_h, emplace_frame. destruct (_ =? _)%nat; [|done]. apply tail_add_vertex.
Qed.

Lemma tail_add_edge_v o t p : tail (add_edge_v_h einv h o t p) (add_edge_v einv o t p).
Proof.
  apply tail_bind; [apply quiet_read|]. intros [e|].
  - apply tail_quiet. intros s. unfold cbind, cread. by destruct (get_frame_id s o), (get_frame_id s t).
  - apply tail_bind; [apply quiet_read|]. intros _.
    apply tail_bind; [apply quiet_add|]. intros i.
    apply tail_bind; [apply quiet_modify|]. intros _.
    apply tail_bind; [apply quiet_views|]. intros _.
    apply tail_bind; [apply quiet_read|]. intros fo.
    apply tail_bind; [apply quiet_read|]. intros ft. apply tail_notify.
Qed.

Lemma tail_set_v o t p : tail (set_edge_property_v_h einv h o t p) (set_edge_property_v einv o t p).
Proof.
  apply tail_bind; [apply quiet_read|]. intros [e|].
  - apply tail_bind; [apply quiet_modify|]. intros _.
    apply tail_bind; [apply quiet_read|]. intros [e'|]; [|by apply tail_quiet].
    apply tail_bind; [apply quiet_modify|]. intros _.
    apply tail_bind; [apply quiet_read|]. intros fo.
    apply tail_bind; [apply quiet_read|]. intros ft. apply tail_notify.
  - apply tail_quiet. intros s. unfold cbind, cread. by destruct (get_frame_id s o), (get_frame_id s t).
Qed.

Lemma tail_set o t p : tail (set_edge_property_h einv h o t p) (set_edge_property einv o t p).
Proof.
  apply tail_bind; [apply quiet_read|]. intros vo.
  apply tail_bind; [apply quiet_read|]. intros vt. apply tail_set_v.
Qed.

Lemma tail_remove_frame f : tail (remove_frame_h h f) (remove_frame f).
Proof.
  apply tail_bind; [apply quiet_read|]. intros v.
  apply tail_bind; [apply quiet_read|]. intros _.
  apply tail_bind; [apply quiet_modify|]. intros _. apply tail_notify.
Qed.

Lemma add_edge_h_known o t p s : contains_frame s o = true -> contains_frame s t = true ->
  add_edge_h d0 einv h o t p s = handled_after h (add_edge d0 einv o t p s).
Proof.
  unfold contains_frame. intros Ho%negb_true_iff Ht%negb_true_iff.
  unfold add_edge_h, add_edge. rewrite Ho, Ht.
  unfold cbind at 1 2, cret. cbn [app]. unfold cbind. rewrite (tail_add_edge_v _ _ _ s).
  destruct (add_edge_v _ _ _ _ s) as [[??]?]. by destruct (handled_after _ _) as [[??]?].
Qed.

End tail.

Section gstep.
Context {D E : Type} (d0 : D) (einv : E -> E).
Local Notation gst := (gst D E).
Implicit Types s : gst.

Theorem one_event_after (h : event -> call gst unit) fuel ord op s : one_event s op ->
  gstep_h d0 einv h fuel ord op s = handled_after h (gstep d0 einv ord op s).
Proof.
  intros Hop. destruct op; cbn [one_event] in Hop; try done;
    try (cbn [gstep_h]; destruct (gstep d0 einv ord _ s) as [[s1 ev] r] eqn:Hs;
         apply (view_op_frame d0 einv) in Hs as (_ & ->); [|done]; done).
  - apply (tail_void h), tail_emplace.
  - apply (tail_void h), tail_emplace.
  - destruct Hop. by apply add_edge_h_known.
  - apply tail_add_edge_v.
  - apply tail_set.
  - apply tail_set_v.
  - apply tail_remove_frame.
  - cbn [gstep_h gstep]. unfold set_frame_data. by destruct (bg_alive _ _).
Qed.

End gstep.

Section good.
Context {D E : Type} (d0 : D) (einv : E -> E).
Local Notation gst := (gst D E).
Local Notation dg_wf := (dg_wf einv).
Local Notation reachable := (reachable d0 einv).
Implicit Types s : gst.
Implicit Types g : digraph D E.

(** Vertices are not reused for other labels. *)
Definition follows g g' : Prop :=
  dg_nextv g <= dg_nextv g' /\
  forall f v, dg_map g' !! f = Some v -> v < dg_nextv g -> dg_map g !! f = Some v.

Lemma follows_refl g : follows g g.
Proof. done. Qed.

Lemma follows_trans g1 g2 g3 : follows g1 g2 -> follows g2 g3 -> follows g1 g3.
Proof.
  intros [H1 H2] [H3 H4]. split; [lia|]. intros f v Hv Hlt. apply H2; [|done]. apply H4; [done|]. lia.
Qed.

Lemma lstep_follows g ev g' : lstep einv g ev g' -> follows g g'.
Proof.
  destruct 1 as [g f d Hm|g o t p fo ft|g o t e1 e2 fo ft|g o t p e1 e2 fo ft|g v f Hm Hd|g v d]; try done.
  - unfold bg_add_vertex. rewrite Hm. split; cbn; [lia|].
    intros f' v [[<- <-]|[_ ?]]%lookup_insert_Some Hlt; [|done]. unfold vid in *. lia.
  - split; cbn; [done|]. by intros f' v' [_ ?]%lookup_delete_Some.
Qed.

Lemma lsteps_follows g ev g' : lsteps einv g ev g' -> follows g g'.
Proof.
  induction 1; [apply follows_refl|]. eapply follows_trans; [by eapply lstep_follows|done].
Qed.

Definition sound_from s s' : Prop := reachable s' /\ follows (gs_dg s) (gs_dg s').

Lemma sound_refl s : reachable s -> sound_from s s.
Proof. by split; [|apply follows_refl]. Qed.

Lemma sound_trans s1 s2 s3 : sound_from s1 s2 -> sound_from s2 s3 -> sound_from s1 s3.
Proof. intros [_ H1] [H2 H3]. split; [done|]. by eapply follows_trans. Qed.

Lemma sound_step ord op s s' ev r : reachable s -> op_noself op -> gstep d0 einv ord op s = (s', ev, r) ->
  ok r -> sound_from s s'.
Proof.
  intros Hr Hns Hs Hok. split; [by eapply reachable_step|].
  eapply lsteps_follows, gstep_lsteps; [|done..]. by eapply reachable_wf.
Qed.

Record hgood (h : event -> call gst unit) : Prop := {
  hg_removed : forall a b s, h (EvEdgeRemoved a b) s = (s, [], Ret tt) \/ h (EvEdgeRemoved a b) s = (s, [], Fuel);
  hg_sound : forall e s s' ev r, reachable s -> h e s = (s', ev, r) -> ok r -> sound_from s s' }.

Context (h : event -> call gst unit) (fuel : nat) (Hh : hgood h).

Lemma handled_sound {A} s s1 ev1 (r1 : outcome A) s' ev r : reachable s ->
  (ok r1 -> sound_from s s1) -> handled_after h (s1, ev1, r1) = (s', ev, r) -> ok r -> sound_from s s'.
Proof.
  intros Hr H1 Heq Hok. destruct ev1 as [|e [|? ?]].
  1,3: cbn in Heq; injection Heq as <- _ <-; auto.
  destruct r1 as [a|x| |]; cbn in Heq; try (injection Heq as <- _ <-; by auto).
  destruct (h e s1) as [[s2 ev2] r2] eqn:Hs2. injection Heq as <- _ <-.
  destruct (H1 I) as [Hr1 Hf1]. eapply sound_trans; [by split|].
  eapply (hg_sound h Hh); [done|done|]. by destruct r2.
Qed.

Lemma one_event_sound ord op s s' ev r : reachable s -> op_noself op -> one_event s op ->
  gstep_h d0 einv h fuel ord op s = (s', ev, r) -> ok r -> sound_from s s'.
Proof.
  intros Hr Hns H1. rewrite one_event_after by done.
  destruct (gstep d0 einv ord op s) as [[s1 ev1] r1] eqn:Hs. intros Heq Hok.
  eapply handled_sound; [done| |done|done]. intros. by eapply sound_step.
Qed.

Lemma add_vertex_h_sound f d s s' ev r : reachable s -> add_vertex_h h f d s = (s', ev, r) -> ok r ->
  sound_from s s' /\ (forall v, r = Ret v -> dg_map (gs_dg s) !! f = Some v \/
     (v = dg_nextv (gs_dg s) /\ v < dg_nextv (gs_dg s'))).
Proof.
  intros Hr. rewrite (tail_add_vertex h f d s). unfold add_vertex.
  destruct (dg_map (gs_dg s) !! f) as [v0|] eqn:Hm.
  - assert (bg_add_vertex f d (gs_dg s) = (gs_dg s, v0)) as -> by (unfold bg_add_vertex; by rewrite Hm).
    assert (gs_set_dg (gs_dg s) s = s) as -> by by destruct s. intros Heq Hok. split.
    + eapply handled_sound; [done| |done|done]. intros _. by apply sound_refl.
    + intros v ->. cbn in Heq. destruct (h _ s) as [[s2 ev2] r2]. left. by destruct r2; simplify_eq.
  - destruct (bg_add_vertex f d (gs_dg s)) as [g v0] eqn:Ha.
    assert (Hst : sound_from s (gs_set_dg g s)).
    { eapply (sound_step (fun _ _ _ l => l) (OEmplaceFrame f d) s _ [EvFrameAdded f] (Ret tt)); [done|done| |done].
      cbn [gstep]. rewrite void_eq. unfold emplace_frame, add_vertex, bg_vertex. rewrite Hm, Ha. done. }
    intros Heq Hok. split.
    + eapply handled_sound; [done| |done|done]. done.
    + intros v ->. cbn in Heq. destruct (h _ _) as [[s2 ev2] r2] eqn:Hs2.
      destruct r2; simplify_eq. right.
      destruct (hg_sound h Hh _ _ _ _ _ (proj1 Hst) Hs2 I) as [_ [Hle _]].
      unfold bg_add_vertex in Ha. rewrite Hm in Ha. injection Ha as <- <-. cbn in Hle. unfold vid in *. split; [done|lia].
Qed.

Lemma sound_add_edge_v vo vt p s s' ev r : reachable s -> vo <> vt ->
  add_edge_v_h einv h vo vt p s = (s', ev, r) -> ok r -> sound_from s s'.
Proof. intros Hr Hne. by apply (one_event_sound (fun _ _ _ l => l) (OAddEdgeV vo vt p)). Qed.

Lemma map_bound s f v : reachable s -> dg_map (gs_dg s) !! f = Some v -> v < dg_nextv (gs_dg s).
Proof.
  intros Hr%reachable_wf (r & Hin & <- & _)%(wf_map einv); [|done]. by destruct (wf_vbound einv _ Hr r Hin).
Qed.

Lemma add_edge_h_sound o t p s s' ev r : reachable s -> o <> t ->
  add_edge_h d0 einv h o t p s = (s', ev, r) -> ok r -> sound_from s s'.
Proof.
  intros Hr Hne Heq Hok. pose proof (reachable_wf d0 einv s Hr) as Hwf. unfold add_edge_h in Heq.
  assert (Hcase : forall f, Nat.eqb (bg_vertex (gs_dg s) f) null_vertex = true /\ dg_map (gs_dg s) !! f = None \/
            Nat.eqb (bg_vertex (gs_dg s) f) null_vertex = false /\ dg_map (gs_dg s) !! f = Some (bg_vertex (gs_dg s) f)).
  { intros f. destruct (dg_map (gs_dg s) !! f) as [v|] eqn:Hm.
    - right. rewrite (bg_vertex_some _ _ _ Hm). split; [|done]. apply Nat.eqb_neq. intros ->.
      apply bg_vertex_some in Hm as Hm2. apply (bg_vertex_null einv) in Hm2; congruence.
    - left. unfold bg_vertex. by rewrite Hm. }
  destruct (Hcase o) as [[Ho Hmo]|[Ho Hmo]]; rewrite Ho in Heq;
  destruct (Hcase t) as [[Ht Hmt]|[Ht Hmt]]; rewrite Ht in Heq.
  - apply cbind_inv in Heq as [(s1 & ev1 & vo & ev2 & H1 & H2 & ->)|[(x & H1 & ->)|[[H1 ->]|[H1 ->]]]];
      [|by eapply add_vertex_h_sound|done|done].
    destruct (add_vertex_h_sound _ _ _ _ _ _ Hr H1 I) as [Hs1 Hv1].
    destruct (Hv1 vo eq_refl) as [?|[-> Hlt1]]; [congruence|].
    apply cbind_inv in H2 as [(s2 & ev3 & vt & ev4 & H2 & H3 & ->)|[(x & H2 & ->)|[[H2 ->]|[H2 ->]]]];
      [| |done|done].
    + destruct (add_vertex_h_sound _ _ _ _ _ _ (proj1 Hs1) H2 I) as [Hs2 Hv2].
      eapply sound_trans; [exact Hs1|]. eapply sound_trans; [exact Hs2|].
      eapply sound_add_edge_v; [by apply Hs2| |done|done].
      destruct (Hv2 vt eq_refl) as [Hm2|[-> _]]; [|unfold vid in *; lia].
      intros <-.
      (* the handler cannot have given the new vertex of o the label t *)
      assert (Hfo : forall g v, bg_add_vertex o d0 (gs_dg s) = (g, v) -> follows g (gs_dg s1)).
      { intros g v Ha. rewrite (tail_add_vertex h o d0 s) in H1. unfold add_vertex in H1. rewrite Ha in H1.
        cbn in H1. destruct (h _ _) as [[s3 ev5] r3] eqn:H4. destruct r3; simplify_eq.
        eapply (hg_sound h Hh _ _ _ _ _ _ H4). done. Unshelve.
        eapply (sound_step (fun _ _ _ l => l) (OEmplaceFrame o d0) s _ [EvFrameAdded o] (Ret tt)); [done|done| |done].
        cbn [gstep]. rewrite void_eq. unfold emplace_frame, add_vertex, bg_vertex. rewrite Hmo, Ha. done. }
      destruct (Hfo _ _ (surjective_pairing _)) as [_ Hf].
      unfold bg_add_vertex in Hf. rewrite Hmo in Hf. cbn [fst dg_map dg_nextv] in Hf.
      specialize (Hf t _ Hm2 (Nat.lt_succ_diag_r _)). apply lookup_insert_Some in Hf as [[? _]|[_ Hx]].
      * by apply Hne.
      * pose proof (eq_trans (eq_sym Hmt) Hx). done.
    + eapply sound_trans; [exact Hs1|]. eapply add_vertex_h_sound; [by apply Hs1|done|done].
  - apply cbind_inv in Heq as [(s1 & ev1 & vo & ev2 & H1 & H2 & ->)|[(x & H1 & ->)|[[H1 ->]|[H1 ->]]]];
      [|by eapply add_vertex_h_sound|done|done].
    destruct (add_vertex_h_sound _ _ _ _ _ _ Hr H1 I) as [Hs1 Hv1].
    destruct (Hv1 vo eq_refl) as [?|[-> Hlt1]]; [congruence|].
    unfold cbind, cret in H2. destruct (add_edge_v_h einv h _ _ p s1) as [[s2 ev3] r2] eqn:H3.
    injection H2 as <- _ <-. eapply sound_trans; [exact Hs1|].
    eapply sound_add_edge_v; [by apply Hs1| |done|done].
    apply map_bound in Hmt; [|done]. unfold vid in *. lia.
  - unfold cbind at 1, cret in Heq.
    destruct ((vt <-- _ ;; _) s) as [[s2 ev2] r2] eqn:H1. injection Heq as <- _ <-.
    apply cbind_inv in H1 as [(s1 & ev1 & vt & ev3 & H1 & H2 & ->)|[(x & H1 & ->)|[[H1 ->]|[H1 ->]]]];
      [|by eapply add_vertex_h_sound|done|done].
    destruct (add_vertex_h_sound _ _ _ _ _ _ Hr H1 I) as [Hs1 Hv1].
    destruct (Hv1 vt eq_refl) as [?|[-> Hlt1]]; [congruence|].
    eapply sound_trans; [exact Hs1|]. eapply sound_add_edge_v; [by apply Hs1| |done|done].
    apply map_bound in Hmo; [|done]. unfold vid in *. lia.
  - unfold cbind, cret in Heq.
    destruct (add_edge_v_h einv h _ _ p s) as [[s2 ev2] r2] eqn:H1. injection Heq as <- _ <-.
    eapply sound_add_edge_v; [done| |done|done].
    intros Hv. rewrite Hv in Hmo. by apply Hne, (wf_map_inj einv (gs_dg s) o t (bg_vertex (gs_dg s) t)).
Qed.

Lemma remove_impl_h ord o t vo vt s s' ev r : remove_edge_impl_h h ord o t vo vt s = (s', ev, r) -> ok r ->
  remove_edge_impl ord o t vo vt s = (s', ev, r).
Proof.
  intros Heq Hok. unfold remove_edge_impl_h in Heq. unfold remove_edge_impl.
  unfold cbind at 1, cread in Heq. unfold cbind at 1, cread.
  destruct (find_edge s vo vt) as [e1|x| |]; try done.
  unfold cbind at 1 in Heq. unfold cbind at 1.
  destruct (find_edge s vt vo) as [e2|x| |]; try done.
  destruct e1 as [e1|]; [|done]. destruct e2 as [e2|]; [|done].
  revert Heq. unfold cbind at 1, boost_remove_edge at 1. unfold cbind at 3, boost_remove_edge at 2.
  destruct (bg_remove_edge (e_id e1) (gs_dg s)) as [g|]; [|done].
  unfold cbind at 1, hnotify, cnotify at 1. unfold cbind at 3, cnotify at 1. unfold cbind at 1. cbn [app].
  destruct (hg_removed h Hh o t (gs_set_dg g s)) as [-> | ->]; [done|].
  intros [= <- <- <-]. done.
Qed.

Lemma remove_edge_v_h_eq ord vo vt s s' ev r : remove_edge_v_h h ord vo vt s = (s', ev, r) -> ok r ->
  remove_edge_v ord vo vt s = (s', ev, r).
Proof.
  intros Heq Hok. revert Heq. unfold remove_edge_v_h, remove_edge_v, cbind, cread.
  destruct (get_frame_id s vo) as [o|x| |]; try done.
  destruct (get_frame_id s vt) as [t|x| |]; try done.
  destruct (remove_edge_impl_h h ord o t vo vt s) as [[s1 ev1] r1] eqn:H1.
  intros [= <- <- <-]. by rewrite (remove_impl_h _ _ _ _ _ _ _ _ _ H1 Hok).
Qed.

Lemma remove_edge_h_eq ord o t s s' ev r : remove_edge_h h ord o t s = (s', ev, r) -> ok r ->
  remove_edge ord o t s = (s', ev, r).
Proof.
  intros Heq Hok. revert Heq. unfold remove_edge_h, remove_edge, cbind, cread.
  destruct (get_vertex s o) as [vo|x| |]; try done.
  destruct (get_vertex s t) as [vt|x| |]; try done.
  destruct (remove_edge_impl_h h ord o t vo vt s) as [[s1 ev1] r1] eqn:H1.
  intros [= <- <- <-]. by rewrite (remove_impl_h _ _ _ _ _ _ _ _ _ H1 Hok).
Qed.

Lemma disconnect_loop_sound n ord v s s' ev r : reachable s -> disconnect_loop_h h n ord v s = (s', ev, r) ->
  ok r -> sound_from s s'.
Proof.
  revert s s' ev r. induction n as [|n IH]; intros s s' ev r Hr; cbn;
    (destruct (bg_alive (gs_dg s) v); [|by intros [= <- <- <-]]);
    (destruct (bg_out (gs_dg s) v) as [|e l]; [intros [= <- <- <-] _; by apply sound_refl|]);
    [by intros [= <- <- <-]|].
  intros [(s1 & ev1 & [] & ev2 & H1 & H2 & ->)|[(x & H1 & ->)|[[H1 ->]|[H1 ->]]]]%cbind_inv Hok; try done.
  - apply remove_edge_v_h_eq in H1; [|done].
    assert (Hs : sound_from s s1) by by eapply (sound_step ord (ORemoveEdgeV v (e_tgt e))).
    eapply sound_trans; [exact Hs|]. eapply IH; [by apply Hs|done..].
  - apply remove_edge_v_h_eq in H1; [|done]. by eapply (sound_step ord (ORemoveEdgeV v (e_tgt e))).
Qed.

Theorem gstep_h_sound ord op s s' ev r : reachable s -> op_noself op ->
  gstep_h d0 einv h fuel ord op s = (s', ev, r) -> ok r -> sound_from s s'.
Proof.
  intros Hr Hns Heq Hok. destruct op;
    try (match goal with H : gstep_h _ _ _ _ _ ?op _ = _ |- _ => by eapply (one_event_sound ord op) end); cbn [gstep_h] in Heq.
  - by eapply add_edge_h_sound.
  - apply remove_edge_h_eq in Heq; [|done]. by eapply (sound_step ord (ORemoveEdge o t)).
  - apply remove_edge_v_h_eq in Heq; [|done]. by eapply (sound_step ord (ORemoveEdgeV o t)).
  - revert Heq. unfold disconnect_frame_h, cbind, cread.
    destruct (get_vertex s f) as [v|x| |]; try (intros [= <- <- <-]; by apply sound_refl).
    destruct (disconnect_loop_h h fuel ord v s) as [[s1 ev1] r1] eqn:H1. intros [= <- <- <-].
    by eapply disconnect_loop_sound.
Qed.

Theorem exec_sound sc s s' ev r : script_noself sc -> reachable s -> exec d0 einv h fuel sc s = (s', ev, r) ->
  ok r -> sound_from s s'.
Proof.
  intros Hsc. revert s s' ev r. induction Hsc as [|x|ord op k Hop Hk IH]; intros s s' ev r Hr; cbn.
  - intros [= <- <- <-] _. by apply sound_refl.
  - intros [= <- <- <-] _. by apply sound_refl.
  - destruct (gstep_h d0 einv h fuel ord op s) as [[s1 ev1] r1] eqn:H1. intros Heq Hok.
    destruct r1 as [a|x| |].
    3,4: injection Heq as <- _ <-; done.
    all: destruct (exec d0 einv h fuel _ s1) as [[s2 ev2] r2] eqn:H2; injection Heq as <- _ <-;
      assert (Hs : sound_from s s1) by (by eapply gstep_h_sound);
      (eapply sound_trans; [exact Hs|]); eapply IH; [by apply Hs|done..].
Qed.

End good.

Section reactors.
Context {D E : Type} (d0 : D) (einv : E -> E).
Local Notation gst := (gst D E).
Implicit Types s : gst.

Lemma reactor_good react fuel depth : tame react -> hgood d0 einv (reactor d0 einv react fuel depth).
Proof.
  intros [Hrem Hns]. induction depth as [|n IH].
  - split; [intros; by right|]. intros e s s' ev r _. cbn. by intros [= <- <- <-].
  - split.
    + intros a b s. left. cbn. by rewrite Hrem.
    + intros e s s' ev r Hr Heq Hok. cbn in Heq. eapply (exec_sound d0 einv _ fuel IH); [apply Hns|done..].
Qed.

Lemma ended_ok {A} (r : outcome A) : ended r -> ok r.
Proof. by intros [[a ->]|[x ->]]. Qed.

Theorem tame_reachable react fuel depth ord op s s' ev r :
  tame react -> reachable d0 einv s -> op_noself op ->
  gstep_h d0 einv (reactor d0 einv react fuel depth) fuel ord op s = (s', ev, r) -> ended r -> reachable d0 einv s'.
Proof.
  intros Ht Hr Hns Heq Hok%ended_ok.
  by apply (gstep_h_sound d0 einv _ fuel (reactor_good react fuel depth Ht) _ _ _ _ _ _ Hr Hns Heq).
Qed.

Theorem reachable_paired s : reachable d0 einv s -> paired s.
Proof.
  intros Hwf%reachable_wf e He. destruct (wf_inv einv _ Hwf e He) as (e' & ? & ? & ? & _). eauto.
Qed.

Theorem tame_paired react fuel depth ord op s s' ev x :
  tame react -> reachable d0 einv s -> op_noself op ->
  gstep_h d0 einv (reactor d0 einv react fuel depth) fuel ord op s = (s', ev, Throw x) -> paired s'.
Proof.
  intros Ht Hr Hns Heq. eapply reachable_paired, tame_reachable; [done|done|done|done|]. right. eauto.
Qed.

Theorem tame_program react fuel depth (prog : script D E) s' ev r :
  tame react -> script_noself prog ->
  exec d0 einv (reactor d0 einv react fuel depth) fuel prog gst0 = (s', ev, r) -> ended r -> reachable d0 einv s'.
Proof.
  intros Ht Hns Heq Hok%ended_ok.
  eapply (exec_sound d0 einv _ fuel (reactor_good react fuel depth Ht)); [done| |done|done].
  exists [], [], (Ret tt). split; [constructor|]. split; [done|]. by left.
Qed.

End reactors.

Section silent.
Context {D E : Type} (d0 : D) (einv : E -> E).
Local Notation gst := (gst D E).
Context (h : event -> call gst unit) (Hh : forall e s, h e s = (s, [], Ret tt)).
Implicit Types s : gst.

Lemma handled_silent {A} (x : gst * list event * outcome A) : handled_after h x = x.
Proof.
  destruct x as [[s ev] r]. destruct ev as [|e [|? ?]]; [by destruct r| |by destruct r].
  destruct r; cbn; try done. by rewrite Hh.
Qed.

Lemma remove_impl_silent ord o t vo vt s : remove_edge_impl_h h ord o t vo vt s = remove_edge_impl ord o t vo vt s.
Proof.
  unfold remove_edge_impl_h, remove_edge_impl, cbind, cread.
  destruct (find_edge s vo vt) as [e1|x| |]; try done.
  destruct (find_edge s vt vo) as [e2|x| |]; try done.
  destruct e1 as [e1|], e2 as [e2|]; try done.
  destruct (boost_remove_edge (e_id e1) s) as [[s1 ev1] r1]. destruct r1; try done.
  unfold hnotify, cnotify, cbind. by rewrite Hh.
Qed.

Lemma remove_v_silent ord vo vt s : remove_edge_v_h h ord vo vt s = remove_edge_v ord vo vt s.
Proof.
  unfold remove_edge_v_h, remove_edge_v, cbind, cread.
  destruct (get_frame_id s vo), (get_frame_id s vt); try done. by rewrite remove_impl_silent.
Qed.

Lemma remove_silent ord o t s : remove_edge_h h ord o t s = remove_edge ord o t s.
Proof.
  unfold remove_edge_h, remove_edge, cbind, cread.
  destruct (get_vertex s o), (get_vertex s t); try done. by rewrite remove_impl_silent.
Qed.

Lemma boost_remove_verts i s : dg_verts (gs_dg (fst (fst (boost_remove_edge i s)))) = dg_verts (gs_dg s).
Proof.
  unfold boost_remove_edge. destruct (bg_remove_edge i (gs_dg s)) as [g|] eqn:Hg; [|done]. cbn.
  unfold bg_remove_edge in Hg. destruct (bg_erec _ _); [|done]. by injection Hg as <-.
Qed.

Lemma remove_v_verts ord vo vt s : dg_verts (gs_dg (fst (fst (remove_edge_v ord vo vt s)))) = dg_verts (gs_dg s).
Proof.
  unfold remove_edge_v, remove_edge_impl, cbind, cread, cnotify.
  destruct (get_frame_id s vo), (get_frame_id s vt); try done.
  destruct (find_edge s vo vt) as [e1|x| |]; try done.
  destruct (find_edge s vt vo) as [e2|x| |]; try done.
  destruct e1 as [e1|], e2 as [e2|]; try done.
  pose proof (boost_remove_verts (e_id e1) s) as H1.
  destruct (boost_remove_edge (e_id e1) s) as [[s1 ev1] r1]. destruct r1; try done.
  pose proof (boost_remove_verts (e_id e2) s1) as H2.
  destruct (boost_remove_edge (e_id e2) s1) as [[s2 ev2] r2]. destruct r2; cbn in *; try congruence.
  destruct (remove_edge_from_tree_views ord vo vt s2) as [[s3 ev3] r3] eqn:H3.
  unfold remove_edge_from_tree_views in H3. apply for_views_frame in H3 as (H3 & _). cbn. congruence.
Qed.

Lemma loop_silent n ord v s : bg_alive (gs_dg s) v = true ->
  disconnect_loop_h h n ord v s = disconnect_loop n ord v s.
Proof.
  revert s. induction n as [|n IH]; intros s Ha; cbn; rewrite Ha; [done|].
  destruct (bg_out (gs_dg s) v) as [|e l]; [done|]. unfold cbind. rewrite remove_v_silent.
  pose proof (remove_v_verts ord v (e_tgt e) s) as Hv.
  destruct (remove_edge_v ord v (e_tgt e) s) as [[s1 ev1] r1]. destruct r1; try done.
  rewrite IH; [done|]. unfold bg_alive in *. cbn in Hv. by rewrite Hv.
Qed.

Lemma add_edge_silent o t p s : add_edge_h d0 einv h o t p s = add_edge d0 einv o t p s.
Proof.
  unfold add_edge_h, add_edge, cbind.
  assert (Hv : forall (b : bool) f v s, (if b then add_vertex_h h f d0 else cret v) s = (if b : bool then add_vertex f d0 else cret v) s).
  { intros [] f v s1; [|done]. by rewrite (tail_add_vertex h), handled_silent. }
  rewrite Hv. destruct (_ s) as [[s1 ev1] r1]. destruct r1; try done.
  rewrite Hv. destruct (_ s1) as [[s2 ev2] r2]. destruct r2; try done.
  by rewrite (tail_add_edge_v einv h), handled_silent.
Qed.

Theorem gstep_silent ord op s : reachable d0 einv s ->
  gstep_h d0 einv h (length (dg_edges (gs_dg s))) ord op s = gstep d0 einv ord op s.
Proof.
  intros Hr. destruct op;
    try (rewrite one_event_after by done; by rewrite handled_silent); cbn [gstep_h gstep].
  - apply add_edge_silent.
  - apply remove_silent.
  - apply remove_v_silent.
  - unfold disconnect_frame_h, disconnect_frame, cbind, cread.
    destruct (get_vertex s f) as [v|x| |] eqn:Hg; try done. rewrite loop_silent; [done|].
    apply get_vertex_inv in Hg. eapply (wf_map_alive einv); [by eapply reachable_wf|done].
Qed.

End silent.

Section half.
Context {D E : Type} (d0 : D) (einv : E -> E).
Local Notation gst := (gst D E).
Local Notation reachable := (reachable d0 einv).
Implicit Types s : gst.

Lemma contains_edge_eq s a b o t : dg_wf einv (gs_dg s) ->
  dg_map (gs_dg s) !! a = Some o -> dg_map (gs_dg s) !! b = Some t ->
  contains_edge s a b = Ret (bool_decide (is_Some (bg_edge (gs_dg s) o t))).
Proof.
  intros Hwf Ha Hb. unfold contains_edge, contains_edge_v.
  rewrite (get_vertex_some einv s a o Hwf Ha), (get_vertex_some einv s b t Hwf Hb). cbn.
  rewrite find_edge_alive by by eapply (wf_map_alive einv). done.
Qed.

Lemma contains_edge_inv s a b : dg_wf einv (gs_dg s) -> contains_edge s a b = Ret true ->
  exists o t e1, dg_map (gs_dg s) !! a = Some o /\ dg_map (gs_dg s) !! b = Some t /\ bg_edge (gs_dg s) o t = Some e1.
Proof.
  intros Hwf Hc. unfold contains_edge in Hc.
  destruct (get_vertex s a) as [o|x| |] eqn:Ho; try done. cbn in Hc.
  destruct (get_vertex s b) as [t|x| |] eqn:Ht; try done. cbn in Hc.
  apply get_vertex_inv in Ho, Ht. unfold contains_edge_v in Hc.
  rewrite find_edge_alive in Hc by by eapply (wf_map_alive einv). cbn in Hc. injection Hc as Hc%bool_decide_eq_true.
  destruct Hc as [e1 He1]. eauto 10.
Qed.

Lemma find_filter_none {A} (P : A -> Prop) `{!forall x, Decision (P x)} (f : A -> bool) l :
  (forall x, x ∈ l -> P x -> f x = false) -> List.find f (filter P l) = None.
Proof.
  intros HP0. destruct (List.find f (filter P l)) as [x|] eqn:Hf; [|done].
  apply find_some in Hf as [Hx%elem_of_list_In Hf]. apply elem_of_list_filter in Hx as [HP Hx].
  rewrite (HP0 x) in Hf; done.
Qed.

Theorem removal_split ord a b s : reachable s -> contains_edge s a b = Ret true ->
  exists s1 rest, half_removed einv s s1 a b /\
    forall h : event -> call gst unit, remove_edge_h h ord a b s = (hnotify h (EvEdgeRemoved a b) ;;; rest) s1.
Proof.
  intros Hr Hc. pose proof (reachable_wf d0 einv s Hr) as Hwf.
  destruct (contains_edge_inv s a b Hwf Hc) as (o & t & e1 & Ho & Ht & He1).
  destruct (edge_rev einv _ _ _ _ Hwf He1) as [e2 He2].
  pose proof He1 as (Hin1 & Hs1 & Ht1)%(bg_edge_iff einv); [|done].
  pose proof He2 as (Hin2 & Hs2 & Ht2)%(bg_edge_iff einv); [|done].
  assert (Hot : o <> t). { intros Heq. apply (wf_noself einv _ Hwf e1 Hin1). congruence. }
  destruct (remove_two einv _ o t e1 e2 Hwf He1 He2) as (g1 & Hr1 & Hr2).
  assert (Hg1 : dg_verts g1 = dg_verts (gs_dg s) /\ dg_map g1 = dg_map (gs_dg s) /\
                dg_edges g1 = filter (fun e => e_id e <> e_id e1) (dg_edges (gs_dg s))).
  { unfold bg_remove_edge in Hr1. destruct (bg_erec _ _); [|done]. by injection Hr1 as <-. }
  destruct Hg1 as (Hverts & Hmap & Hedges).
  set (s1 := gs_set_dg g1 s).
  assert (Hao : bg_alive (gs_dg s) o = true) by by eapply (wf_map_alive einv).
  assert (Hat : bg_alive (gs_dg s) t = true) by by eapply (wf_map_alive einv).
  assert (Hal : forall v, bg_alive (gs_dg s1) v = bg_alive (gs_dg s) v) by (intros v; unfold bg_alive; cbn; by rewrite Hverts).
  assert (Hgv : forall f, get_vertex s1 f = get_vertex s f).
  { intros f. unfold get_vertex, bg_vertex. cbn. by rewrite Hmap. }
  assert (Hgo : get_vertex s1 a = Ret o) by (rewrite Hgv; by apply (get_vertex_some einv)).
  assert (Hgt : get_vertex s1 b = Ret t) by (rewrite Hgv; by apply (get_vertex_some einv)).
  assert (Hne : e_id e1 <> e_id e2).
  { intros Heq. apply Hot. assert (e1 = e2) as Hee by (eapply (NoDup_fmap_inj e_id); eauto using (wf_eid einv)). congruence. }
  assert (Hfo : bg_edge (gs_dg s1) o t = None).
  { unfold bg_edge. cbn. rewrite Hedges. apply find_filter_none. intros e He Hnid.
    apply andb_false_iff. destruct (Nat.eqb_spec (e_src e) o) as [Hso|]; [|by left].
    destruct (Nat.eqb_spec (e_tgt e) t) as [Hto|]; [|by right]. exfalso. apply Hnid. f_equal.
    eapply (NoDup_fmap_inj (fun e => (e_src e, e_tgt e))); [exact (wf_pair einv _ Hwf)|done|done|]. cbn. congruence. }
  assert (Hin2' : e2 ∈ dg_edges g1) by (rewrite Hedges; apply elem_of_list_filter; by split).
  assert (Hft : exists e, bg_edge (gs_dg s1) t o = Some e).
  { destruct (bg_edge (gs_dg s1) t o) as [e|] eqn:He; [by eauto|]. exfalso.
    apply (proj1 (bg_edge_none _ _ _) He e2); done. }
  destruct Hft as [e3 Hft].
  assert (Hdeg : forall v, (v = o \/ v = t) -> 0 < bg_degree (gs_dg s1) v).
  { intros v Hv. destruct (bg_degree (gs_dg s1) v) eqn:Hd; [|lia]. exfalso.
    destruct (wf_degree0 _ _ Hd e2 Hin2') as [? ?]. destruct Hv as [-> | ->]; congruence. }
  assert (Hfr : forall f v, get_vertex s1 f = Ret v -> (v = o \/ v = t) -> remove_frame f s1 = (s1, [], Throw (XFrameStillConnected f))).
  { intros f v Hf Hv. unfold remove_frame. erewrite cbind_read_ret by exact Hf.
    erewrite cbind_read_throw; [done|]. cbn beta. rewrite Hal.
    replace (bg_alive (gs_dg s) v) with true by (by destruct Hv as [-> | ->]).
    rewrite bool_decide_eq_true_2 by by apply Hdeg. done. }
  exists s1, (boost_remove_edge (e_id e2) ;;; remove_edge_from_tree_views ord o t). split; [split|].
  - unfold contains_edge, contains_edge_v. rewrite Hgo, Hgt. cbn [obind].
    rewrite find_edge_alive by by rewrite Hal. by rewrite Hfo.
  - unfold contains_edge, contains_edge_v. rewrite Hgo, Hgt. cbn [obind].
    rewrite find_edge_alive by by rewrite Hal. by rewrite Hft.
  - intros ord'. unfold remove_edge. erewrite cbind_read_ret by exact Hgo. erewrite cbind_read_ret by exact Hgt.
    unfold remove_edge_impl. erewrite cbind_read_ret by (apply find_edge_alive; by rewrite Hal).
    erewrite cbind_read_ret by (apply find_edge_alive; by rewrite Hal). by rewrite Hfo.
  - intros ord'. unfold remove_edge. erewrite cbind_read_ret by exact Hgt. erewrite cbind_read_ret by exact Hgo.
    unfold remove_edge_impl. erewrite cbind_read_ret by (apply find_edge_alive; by rewrite Hal).
    erewrite cbind_read_ret by (apply find_edge_alive; by rewrite Hal). by rewrite Hfo, Hft.
  - intros p. unfold set_edge_property. erewrite cbind_read_ret by exact Hgt. erewrite cbind_read_ret by exact Hgo.
    unfold set_edge_property_v. erewrite cbind_read_ret by (apply find_edge_alive; by rewrite Hal).
    rewrite Hft, cbind_modify. erewrite cbind_read_ret.
    2:{ apply find_edge_alive. exact (eq_trans (Hal o) Hao). }
    cbn [gs_set_dg gs_dg]. rewrite set_prop_edge. by rewrite Hfo.
  - apply (Hfr _ _ Hgo). by left.
  - apply (Hfr _ _ Hgt). by right.
  - done.
  - intros h. unfold remove_edge_h.
    erewrite cbind_read_ret by by apply (get_vertex_some einv).
    erewrite cbind_read_ret by by apply (get_vertex_some einv).
    unfold remove_edge_impl_h.
    erewrite cbind_read_ret by by apply find_edge_alive.
    erewrite cbind_read_ret by by apply find_edge_alive.
    rewrite He1, He2. erewrite cbind_ret; [|unfold boost_remove_edge; by rewrite Hr1].
    cbn [app]. fold s1.
    by destruct ((hnotify h (EvEdgeRemoved a b) ;;; boost_remove_edge (e_id e2) ;;; remove_edge_from_tree_views ord o t) s1)
      as [[??]?].
Qed.

Theorem one_way_not_paired s a b : contains_edge s b a = Ret true -> contains_edge s a b = Ret false -> ~ paired s.
Proof.
  unfold contains_edge, contains_edge_v, find_edge. intros Hba Hab Hp.
  destruct (get_vertex s a) as [o|?| |] eqn:Ho, (get_vertex s b) as [t|?| |] eqn:Ht; cbn in *; try done.
  destruct (bg_alive (gs_dg s) o); cbn in *; [|done]. destruct (bg_alive (gs_dg s) t); cbn in *; [|done].
  injection Hba as [e He]%bool_decide_eq_true. injection Hab as Hn%bool_decide_eq_false.
  unfold bg_edge in He. apply find_some in He as [He%elem_of_list_In [H1%Nat.eqb_eq H2%Nat.eqb_eq]%andb_true_iff].
  destruct (Hp e He) as (e' & He' & H3 & H4). apply Hn. apply not_eq_None_Some. intros Hnone.
  apply (proj1 (bg_edge_none _ _ _) Hnone e' He'). split; congruence.
Qed.

Theorem throwing_removed (h : event -> call gst unit) ord a b x s :
  reachable s -> contains_edge s a b = Ret true -> (forall s1, h (EvEdgeRemoved a b) s1 = (s1, [], Throw x)) ->
  exists s1, remove_edge_h h ord a b s = (s1, [EvEdgeRemoved a b], Throw x) /\ half_removed einv s s1 a b /\ ~ paired s1.
Proof.
  intros Hr Hc Hh. destruct (removal_split ord a b s Hr Hc) as (s1 & rest & Hhalf & Heq).
  exists s1. split; [|split; [done|]].
  - rewrite Heq. unfold hnotify, cbind, cnotify. by rewrite Hh.
  - eapply one_way_not_paired; [apply Hhalf|apply Hhalf].
Qed.

End half.
