(** Slots of tree views that act: whatever they do, the graph stays a graph that calls without slots could have made. *)
From stdpp Require Import prelude strings gmap.
From Verif Require Import ListLib Outcome Digraph Bfs TreeView GraphModel GraphOps GraphWf GraphStep SpecStore SpecObs GraphThms
  HandlerModel SpecHandler ActModel.

Section sound.
Context {D E : Type} (d0 : D) (einv : E -> E).
Local Notation gst := (gst D E).
Local Notation ast := (ast D E).
Local Notation dg_wf := (dg_wf einv).
Local Notation lstep := (lstep einv).
Local Notation lsteps := (lsteps einv).
Local Notation dg s := (gs_dg (fst s)).
Implicit Types s : ast.
Implicit Types g : digraph D E.

(** The graph after the call was made by whole steps. *)
Definition sound {A} (m : call ast A) : Prop := forall s s' ev r,
  dg_wf (dg s) -> m s = (s', ev, r) -> ok r -> exists l, lsteps (dg s) l (dg s').

Lemma sound_bind {A B} (m : call ast A) (k : A -> call ast B) : sound m -> (forall a, sound (k a)) -> sound (cbind m k).
Proof.
  intros Hm Hk s s' ev r Hwf H Hok.
  apply cbind_inv in H as [(s1 & ev1 & a & ev2 & H1 & H2 & ->)|[(x & H1 & ->)|[[_ ->]|[_ ->]]]]; [| |done|done].
  - destruct (Hm _ _ _ _ Hwf H1 I) as [l1 Hl1].
    assert (Hwf1 : dg_wf (dg s1)) by by eapply lsteps_wf.
    destruct (Hk a _ _ _ _ Hwf1 H2 Hok) as [l2 Hl2]. exists (l1 ++ l2). by eapply lsteps_app.
  - by eapply Hm.
Qed.

Lemma sound_same {A} (m : call ast A) : (forall s, dg (fst (fst (m s))) = dg s) -> sound m.
Proof. intros Hm s s' ev r _ H _. specialize (Hm s). rewrite H in Hm. cbn in Hm. exists []. rewrite Hm. constructor. Qed.

Lemma sound_read {A} (f : gst -> outcome A) : sound (aread f).
Proof. by apply sound_same. Qed.
Lemma sound_ret {A} (a : A) : sound (cret a).
Proof. by apply sound_same. Qed.
Lemma sound_notify e : sound (cnotify e).
Proof. by apply sound_same. Qed.
Lemma sound_aset i w : sound (aset i w).
Proof. by apply sound_same. Qed.

Lemma sound_step ord op : op_noself op -> sound (alift (gstep d0 einv ord op)).
Proof.
  intros Hns s s' ev r Hwf H Hok. unfold alift in H.
  destruct (gstep d0 einv ord op (fst s)) as [[s1 ev1] r1] eqn:Hs. injection H as <- <- <-. cbn.
  exists ev1. by eapply gstep_lsteps.
Qed.

Section hooked.
Context (h : viewid -> vsig -> call ast unit) (fuel : nat) (Hh : forall i x, sound (h i x)).

Lemma sound_aemit i x w : sound (aemit h i x w).
Proof. apply sound_bind; [apply sound_aset|done]. Qed.

Lemma sound_cross i o t e : sound (act_add_cross h i o t e).
Proof. apply sound_bind; [apply sound_read|]. intros w. apply sound_aemit. Qed.

Lemma sound_edge i o t : sound (act_add_edge h i o t).
Proof. apply sound_bind; [apply sound_read|]. intros w. apply sound_aemit. Qed.

Lemma sound_vertices i vs : sound (act_remove_vertices h i vs).
Proof.
  induction vs as [|v vs IH]; [apply sound_ret|]. cbn [act_remove_vertices].
  apply sound_bind; [apply sound_read|]. intros w. cbv zeta.
  case_bool_decide; [|apply sound_read]. apply sound_bind; [apply sound_aemit|done].
Qed.

Lemma sound_tv_remove ord i o t : sound (act_tv_remove_edge h ord i o t).
Proof.
  apply sound_bind; [apply sound_read|]. intros w. cbv zeta.
  destruct (if Nat.eqb (vr_parent (tv_rel (tv_tree w) t)) o then Some t
    else if Nat.eqb (vr_parent (tv_rel (tv_tree w) o)) t then Some o else None) as [rt|]; [|apply sound_read].
  destruct (tv_visit_bfs _ _ _ _) as [vis r]. destruct (xs_steps _ _) as [xs|]; [|apply sound_read].
  apply sound_bind; [apply sound_aset|]. intros _. apply sound_bind; [apply sound_read|]. intros _.
  apply sound_bind; [apply sound_vertices|]. intros _. apply sound_read.
Qed.

Lemma sound_scan n i flt u prev col q : sound (act_scan h n i flt u prev col q).
Proof.
  revert prev col q. induction n as [|n IH]; intros prev col q s s' ev r Hwf H Hok; cbn [act_scan] in H.
  - destruct (bg_alive _ u); [|by injection H as <- <- <-].
    destruct (match prev with None => _ | _ => _ end); [|by injection H as <- <- <-].
    destruct (filter _ _); injection H as <- <- <-; [exists []; constructor|done].
  - destruct (bg_alive _ u); [|by injection H as <- <- <-].
    destruct (match prev with None => _ | _ => _ end); [|by injection H as <- <- <-].
    destruct (filter _ _) as [|e es]; [injection H as <- <- <-; exists []; constructor|].
    destruct (col !! e_tgt e) as [[]|].
    + apply (fun a b => sound_bind _ _ a b s s' ev r Hwf H Hok); [apply sound_cross|intros _; apply IH].
    + by eapply IH.
    + apply (fun a b => sound_bind _ _ a b s s' ev r Hwf H Hok); [apply sound_edge|intros _; apply IH].
Qed.

Lemma sound_loop n i flt col q : sound (act_loop h fuel n i flt col q).
Proof.
  revert col q. induction n as [|n IH]; intros col [|u q]; cbn [act_loop]; try apply sound_ret; [apply sound_read|].
  apply sound_bind; [apply sound_scan|]. intros cq. apply IH.
Qed.

Lemma sound_bfs i flt root : sound (act_bfs h fuel i flt root).
Proof. apply sound_bind; [apply sound_read|]. intros _. apply sound_loop. Qed.

Lemma sound_grow i a b : sound (act_grow h fuel i a b).
Proof.
  apply sound_bind; [apply sound_edge|]. intros _. apply sound_bind; [apply sound_read|]. intros n.
  case_bool_decide; [|apply sound_ret].
  do 4 (apply sound_bind; [apply sound_read|intros ?]). apply sound_bfs.
Qed.

Lemma sound_to_view ne i : sound (act_add_to_view h fuel ne i).
Proof.
  apply sound_bind; [apply sound_read|]. intros w. cbv zeta.
  destruct (tv_vertex_exists w _), (tv_vertex_exists w _); try apply sound_grow; [|apply sound_ret].
  apply sound_bind; [apply sound_read|]. intros []; [apply sound_ret|apply sound_cross].
Qed.

Lemma sound_from_view ord o t i : sound (act_remove_from_view h ord o t i).
Proof.
  apply sound_bind; [apply sound_read|]. intros w. apply sound_bind; [apply sound_read|].
  intros []; [apply sound_tv_remove|apply sound_ret].
Qed.

Lemma sound_views f n l : (forall i, sound (f i)) -> sound (act_views f n l).
Proof.
  intros Hf. induction l as [|i l IH]; [apply sound_ret|]. cbn [act_views].
  apply sound_bind; [apply Hf|]. intros _ s s' ev r Hwf H Hok.
  destruct (_ =? n)%nat; [|by injection H as <- <- <-]. by eapply IH.
Qed.

Lemma sound_add_edge_v o t p : o <> t -> sound (act_add_edge_v einv h fuel o t p).
Proof.
  intros Hot s s' ev r Hwf H Hok. unfold act_add_edge_v, aread at 1 in H.
  destruct (bg_alive (dg s) o) eqn:Ho; cycle 1.
  { rewrite cbind_read_ub in H; [|by unfold find_edge; rewrite Ho]. by injection H as <- <- <-. }
  erewrite cbind_read_ret in H; [|by apply find_edge_alive].
  destruct (wf_alive_map einv _ o Hwf Ho) as (fo & Hfo & _).
  destruct (bg_edge (dg s) o t) as [e|] eqn:He.
  { apply (fun a b => sound_bind _ _ a b s s' ev r Hwf H Hok); [apply sound_read|]. intros ?.
    apply sound_bind; [apply sound_read|]. intros ?. apply sound_read. }
  destruct (bg_alive (dg s) t) eqn:Ht; cycle 1.
  { unfold aread at 1 in H. rewrite cbind_read_ub in H by by rewrite Ht. by injection H as <- <- <-. }
  unfold aread at 1 in H. erewrite cbind_read_ret in H by by rewrite Ht.
  destruct (wf_alive_map einv _ t Hwf Ht) as (ft & Hft & _).
  erewrite cbind_ret in H by by cbn. cbn [app fst] in H.
  destruct ((_ ;;; _) _) as [[s2 ev2] r2] eqn:Hb in H. injection H as <- <- <-.
  erewrite cbind_ret in Hb by by cbn. cbn [app fst snd] in Hb.
  destruct ((_ ;;; _) _) as [[s3 ev3] r3] eqn:Hc in Hb. injection Hb as <- <- <-.
  assert (Hl : lstep (dg s) [EvEdgeAdded fo ft (dg_nexte (dg s))] (dg_add2 einv o t p (dg s))) by by constructor.
  assert (Hwf1 : dg_wf (dg_add2 einv o t p (dg s))) by by eapply lstep_wf.
  match type of Hc with cbind ?m ?k ?x = _ => assert (Hs : sound (cbind m k)); [|destruct (Hs x s3 ev3 r3 Hwf1 Hc Hok) as [l Hl2]] end.
  { apply sound_bind; [intros s4 s5 ev5 r5; apply sound_views; intros; apply sound_to_view|]. intros _.
    apply sound_bind; [apply sound_read|]. intros ?. apply sound_bind; [apply sound_read|]. intros ?. apply sound_notify. }
  exists ([EvEdgeAdded fo ft (dg_nexte (dg s))] ++ l). eapply lsteps_app; [by apply lsteps_one|done].
Qed.

Lemma alift_add_vertex f d s s' ev r : alift (add_vertex f d) s = (s', ev, r) ->
  add_vertex f d (fst s) = (fst s', ev, r).
Proof. unfold alift. destruct (add_vertex f d (fst s)) as [[s1 ev1] r1]. by intros [= <- <- <-]. Qed.

Lemma sound_add_edge_n o t p : o <> t -> sound (act_add_edge_n d0 einv h fuel o t p).
Proof.
  intros Hot s s' ev r Hwf H Hok. unfold act_add_edge_n in H.
  assert (Hmk : forall f s1, dg_wf (dg s1) ->
    forall s2 ev2 r2, (if bg_vertex (dg s1) f =? null_vertex then alift (add_vertex f d0)
                else cret (bg_vertex (dg s1) f)) s1 = (s2, ev2, r2) ->
    exists v, r2 = Ret v /\ dg_map (dg s2) !! f = Some v /\ lsteps (dg s1) ev2 (dg s2) /\
      forall f', f' <> f -> dg_map (dg s2) !! f' = dg_map (dg s1) !! f').
  { intros f s1 Hwf1 s2 ev2 r2.
    destruct (Nat.eqb_spec (bg_vertex (dg s1) f) null_vertex) as [Hn|Hn].
    - rewrite (bg_vertex_null einv) in Hn by done. intros Ha%alift_add_vertex.
      apply (add_vertex_lsteps einv) in Ha as (Hl & -> & Hm & _); [|done]. eexists. split; [done|].
      rewrite Hm. rewrite lookup_insert. split; [done|]. split; [done|].
      intros f' Hf'. by rewrite lookup_insert_ne.
    - intros [= <- <- <-]. eexists. split; [done|]. split; [|split; [constructor|done]].
      unfold bg_vertex in *. by destruct (dg_map (dg s1) !! f). }
  apply cbind_inv in H as [(s1 & ev1 & vo & ev2 & H1 & H2 & ->)|[(x & Hx & ->)|[[H ->]|[H ->]]]];
    [| |by destruct Hok..].
  2:{ apply Hmk in Hx as (? & ? & _); done. }
  apply Hmk in H1 as (v & [= ->] & Hmo & Hl1 & Hfr); [|done].
  assert (Hwf1 : dg_wf (dg s1)) by by eapply lsteps_wf.
  assert (Hvt : bg_vertex (dg s) t = bg_vertex (dg s1) t).
  { unfold bg_vertex. by rewrite Hfr by done. }
  rewrite Hvt in H2.
  apply cbind_inv in H2 as [(s2 & ev3 & vt & ev4 & H3 & H4 & ->)|[(x & Hx & ->)|[[H ->]|[H ->]]]];
    [| |by destruct Hok..].
  2:{ apply Hmk in Hx as (? & ? & _); done. }
  apply Hmk in H3 as (u & [= ->] & Hmt & Hl2 & Hfr2); [|done].
  assert (Hwf2 : dg_wf (dg s2)) by by eapply lsteps_wf.
  assert (Hne : v <> u).
  { intros ->. apply Hot. eapply (wf_map_inj einv (dg s2)); [done| |done]. rewrite Hfr2; done. }
  destruct (sound_add_edge_v v u p Hne _ _ _ _ Hwf2 H4 Hok) as [l Hl].
  eexists. eapply lsteps_app; [exact Hl1|]. eapply lsteps_app; [exact Hl2|exact Hl].
Qed.

Lemma sound_remove_impl ord fo ft o t s s' ev r : dg_wf (dg s) ->
  dg_map (dg s) !! fo = Some o -> dg_map (dg s) !! ft = Some t ->
  act_remove_impl h ord fo ft o t s = (s', ev, r) -> ok r -> exists l, lsteps (dg s) l (dg s').
Proof.
  intros Hwf Hfo Hft H Hok. unfold act_remove_impl, aread at 1 2 in H.
  erewrite cbind_read_ret in H by by eapply find_edge_alive, wf_map_alive.
  erewrite cbind_read_ret in H by by eapply find_edge_alive, wf_map_alive.
  destruct (bg_edge (dg s) o t) as [e1|] eqn:He1; [|injection H as <- <- <-; exists []; constructor].
  destruct (edge_rev einv _ _ _ _ Hwf He1) as [e2 He2]. rewrite He2 in H.
  destruct (remove_two einv _ o t e1 e2 Hwf He1 He2) as (g1 & Hr1 & Hr2).
  erewrite cbind_ret in H; [|unfold alift, boost_remove_edge; by rewrite Hr1].
  cbn [app fst snd] in H. destruct ((_ ;;; _) _) as [[s2 ev2] r2] eqn:Hb in H. injection H as <- <- <-.
  erewrite cbind_ret in Hb; [|by cbn].
  cbn [app fst snd] in Hb. destruct ((_ ;;; _) _) as [[s3 ev3] r3] eqn:Hc in Hb. injection Hb as <- <- <-.
  erewrite cbind_ret in Hc; [|unfold alift, boost_remove_edge; cbn; by rewrite Hr2].
  cbn [app fst snd] in Hc. destruct (act_views _ _ _ _) as [[s4 ev4] r4] eqn:Hd in Hc. injection Hc as <- <- <-.
  assert (Hl : lstep (dg s) [EvEdgeRemoved fo ft] (dg_rem2 (e_id e1) (e_id e2) (dg s))) by by eapply LRemPair.
  assert (Hwf1 : dg_wf (dg_rem2 (e_id e1) (e_id e2) (dg s))) by by eapply lstep_wf.
  match type of Hd with act_views ?f ?n ?l ?x = _ =>
    destruct (sound_views f n l (sound_from_view ord o t) x s4 ev4 r4 Hwf1 Hd Hok) as [l2 Hl2] end.
  eexists. eapply lsteps_app; [by apply lsteps_one|exact Hl2].
Qed.

Lemma sound_remove_v ord o t : sound (act_remove_v h ord o t).
Proof.
  intros s s' ev r Hwf H Hok. unfold act_remove_v, aread in H.
  destruct (get_frame_id_cases einv (fst s) o Hwf) as [(fo & Hfo & Ho)|[(_ & _ & Ho)|(_ & _ & Ho)]].
  2:{ erewrite cbind_read_throw in H by exact Ho. injection H as <- <- _. exists []. constructor. }
  2:{ erewrite cbind_read_ub in H by exact Ho. injection H as <- <- _. exists []. constructor. }
  erewrite cbind_read_ret in H by exact Ho.
  destruct (get_frame_id_cases einv (fst s) t Hwf) as [(ft & Hft & Ht)|[(_ & _ & Ht)|(_ & _ & Ht)]].
  2:{ erewrite cbind_read_throw in H by exact Ht. injection H as <- <- _. exists []. constructor. }
  2:{ erewrite cbind_read_ub in H by exact Ht. injection H as <- <- _. exists []. constructor. }
  erewrite cbind_read_ret in H by exact Ht. exact (sound_remove_impl ord fo ft o t s s' ev r Hwf Hfo Hft H Hok).
Qed.

Lemma sound_remove_n ord o t : sound (act_remove_n h ord o t).
Proof.
  intros s s' ev r Hwf H Hok. unfold act_remove_n, aread in H.
  destruct (get_vertex_cases einv (fst s) o Hwf) as [(vo & Hvo & Ho)|[_ Ho]].
  2:{ erewrite cbind_read_throw in H by exact Ho. injection H as <- <- _. exists []. constructor. }
  erewrite cbind_read_ret in H by exact Ho.
  destruct (get_vertex_cases einv (fst s) t Hwf) as [(vt & Hvt & Ht)|[_ Ht]].
  2:{ erewrite cbind_read_throw in H by exact Ht. injection H as <- <- _. exists []. constructor. }
  erewrite cbind_read_ret in H by exact Ht. exact (sound_remove_impl ord o t vo vt s s' ev r Hwf Hvo Hvt H Hok).
Qed.

Lemma sound_disconnect_loop n ord v : sound (act_disconnect_loop h n ord v).
Proof.
  induction n as [|n IH]; intros s s' ev r Hwf H Hok; cbn [act_disconnect_loop] in H.
  - destruct (bg_alive _ v); [|by injection H as <- <- <-].
    destruct (bg_out _ v); injection H as <- <- <-; [exists []; constructor|done].
  - destruct (bg_alive _ v); [|by injection H as <- <- <-].
    destruct (bg_out _ v) as [|e ?]; [injection H as <- <- <-; exists []; constructor|].
    apply (fun a b => sound_bind _ _ a b s s' ev r Hwf H Hok); [apply sound_remove_v|done].
Qed.

Lemma sound_get_tree_v root keep i : sound (act_get_tree_v h fuel root keep i).
Proof.
  apply sound_bind; [apply sound_read|]. intros w. apply sound_bind; [apply sound_aset|]. intros _.
  apply sound_bind; [apply sound_bfs|]. intros _. destruct keep; [|apply sound_ret].
  apply sound_same. intros s. unfold alift, subscribe_tree_view. destruct (gs_views (fst s) !! i) as [w'|]; [|done].
  by destruct (tv_pub w').
Qed.

Lemma sound_gact ord op : op_noself op -> sound (gact d0 einv h fuel ord op).
Proof.
  intros Hns. destruct op; try by apply sound_step.
  - by apply sound_add_edge_n.
  - by apply sound_add_edge_v.
  - apply sound_remove_n.
  - apply sound_remove_v.
  - apply sound_bind; [apply sound_read|]. intros v. apply sound_disconnect_loop.
  - apply sound_bind; [apply sound_read|]. intros v. apply sound_get_tree_v.
  - apply sound_get_tree_v.
Qed.

Lemma sound_exec sc : script_noself sc -> sound (act_exec d0 einv h fuel sc).
Proof.
  induction 1 as [|x|ord op k Hop _ IH]; intros s s' ev r Hwf H Hok; cbn [act_exec] in H.
  1, 2: injection H as <- <- <-; exists []; constructor.
  destruct (gact d0 einv h fuel ord op s) as [[s1 ev1] r1] eqn:Hs.
  destruct r1 as [a|x| |]; [| |by injection H as <- <- <-..].
  - destruct (sound_gact ord op Hop _ _ _ _ Hwf Hs I) as [l1 Hl1].
    destruct (act_exec d0 einv h fuel _ s1) as [[s2 ev2] r2] eqn:H2. injection H as <- <- <-.
    assert (Hwf1 : dg_wf (dg s1)) by by eapply lsteps_wf.
    destruct (IH _ _ _ _ _ _ Hwf1 H2 Hok) as [l2 Hl2]. eexists. by eapply lsteps_app.
  - destruct (sound_gact ord op Hop _ _ _ _ Hwf Hs I) as [l1 Hl1].
    destruct (act_exec d0 einv h fuel _ s1) as [[s2 ev2] r2] eqn:H2. injection H as <- <- <-.
    assert (Hwf1 : dg_wf (dg s1)) by by eapply lsteps_wf.
    destruct (IH _ _ _ _ _ _ Hwf1 H2 Hok) as [l2 Hl2]. eexists. by eapply lsteps_app.
Qed.

End hooked.

Lemma sound_slots react fuel depth i x : (forall i x (s0 : gst), script_noself (react i x s0)) ->
  sound (act_slots d0 einv react fuel depth i x).
Proof.
  intros Hr. revert i x. induction depth as [|n IH]; intros i x s s' ev r Hwf H Hok; cbn [act_slots] in H.
  - by injection H as <- <- <-.
  - exact (sound_exec _ fuel IH _ (Hr i x (fst s)) s s' ev r Hwf H Hok).
Qed.

(** Steps of the graph can be made by calls on a graph without views. *)
Lemma bg_set_data_dead g v d : bg_alive g v = false -> bg_set_data v d g = g.
Proof.
  intros Ha. unfold bg_set_data. destruct g as [vs es m a b c n k]. cbn in *. f_equal.
  induction vs as [|r vs IH]; [done|]. cbn in Ha. apply orb_false_iff in Ha as [Hr Ha].
  cbn [fmap list_fmap]. rewrite Hr. by f_equal; apply IH.
Qed.

Lemma lsteps_reached g ev g' : lsteps g ev g' -> dg_wf g ->
  reachable d0 einv (GSt g [] ∅) -> reachable d0 einv (GSt g' [] ∅).
Proof.
  induction 1 as [|g1 ev1 g2 ev2 g3 Hl _ IH]; [done|]. intros Hwf Hr. apply IH; [by eapply lstep_wf|]. clear IH.
  assert (Hgo : forall op ev, op_noself op -> gstep d0 einv (fun _ _ _ l => l) op (GSt g1 [] ∅) = (GSt g2 [] ∅, ev, Ret tt) ->
            reachable d0 einv (GSt g2 [] ∅)) by (intros; by eapply reachable_step).
  destruct Hl as [g f d Hm|g o t p fo ft Ho Ht Hot He|g o t e1 e2 fo ft Ho Ht He1 He2|g o t p e1 e2 fo ft Ho Ht He1 He2|g v f Hm Hd|g v d].
  - eapply (Hgo (OEmplaceFrame f d)); [done|]. cbn [gstep]. unfold emplace_frame, add_vertex, cbind, bg_vertex.
    cbn [gs_dg]. rewrite Hm. cbn. unfold bg_add_vertex. rewrite Hm. cbn. done.
  - eapply (Hgo (OAddEdgeV o t p)); [done|cbn [gstep]]. unfold add_edge_v.
    erewrite cbind_read_ret by by eapply find_edge_alive, wf_map_alive. cbn [gs_dg]. rewrite He.
    erewrite cbind_read_ret by (cbn [gs_dg]; by erewrite wf_map_alive).
    erewrite cbind_ret by by cbn. rewrite cbind_modify.
    unfold add_edge_to_tree_views. cbn [gs_subs for_views gs_set_dg].
    erewrite cbind_ret by by cbn.
    assert (Hwf2 : dg_wf (dg_add2 einv o t p g)) by (eapply lstep_wf; [done|by constructor]).
    erewrite cbind_read_ret; [|apply (get_frame_id_some einv); [exact Hwf2|exact Ho]].
    erewrite cbind_read_ret; [|apply (get_frame_id_some einv); [exact Hwf2|exact Ht]].
    cbn. done.
  - eapply (Hgo (ORemoveEdge fo ft)); [done|cbn [gstep]]. unfold remove_edge.
    erewrite cbind_read_ret by by apply (get_vertex_some einv).
    erewrite cbind_read_ret by by apply (get_vertex_some einv).
    erewrite (remove_edge_impl_eq einv) by done. cbn. done.
  - eapply (Hgo (OSetPropV o t p)); [done|cbn [gstep]].
    erewrite (set_edge_property_v_eq einv) by done. cbn. done.
  - eapply (Hgo (ORemoveFrame f)); [done|cbn [gstep]]. unfold remove_frame.
    erewrite cbind_read_ret by by apply (get_vertex_some einv).
    erewrite cbind_read_ret; [|cbn [gs_dg]; erewrite wf_map_alive by done; by rewrite Hd].
    rewrite cbind_modify. cbn. done.
  - destruct (bg_alive g v) eqn:Ha; [|by rewrite bg_set_data_dead].
    eapply (Hgo (OSetFrameData v d)); [done|cbn [gstep]]. unfold set_frame_data. cbn [gs_dg]. by rewrite Ha.
Qed.

Lemma reachable_bare (s : gst) : reachable d0 einv s -> reachable d0 einv (GSt (gs_dg s) [] ∅).
Proof.
  intros (hi & ev & r & Hns & Hr & Hok).
  assert (Hl : lsteps (gs_dg gst0) ev (gs_dg s)).
  { eapply run_lsteps; [apply dg_wf_empty|done|done|]. by destruct Hok as [->|[x ->]]. }
  eapply lsteps_reached; [exact Hl|apply dg_wf_empty|].
  by exists [], [], (Ret tt); split_and!; [constructor|done|left].
Qed.

(** The graph of the state is one that calls on a graph without views can make. *)
Theorem act_program react fuel depth prog (s : gst) n s' ev r :
  (forall i x (s0 : gst), script_noself (react i x s0)) -> script_noself prog -> reachable d0 einv s ->
  act_run d0 einv react fuel depth prog (s, n) = (s', ev, r) -> ended r ->
  reachable d0 einv (GSt (gs_dg (fst s')) [] ∅).
Proof.
  intros Hr Hp Hs H Hend. assert (Hok : ok r) by by destruct Hend as [[? ->]|[? ->]].
  destruct (sound_exec (act_slots d0 einv react fuel depth) fuel (fun i x => sound_slots react fuel depth i x Hr) prog Hp
              (s, n) s' ev r (reachable_wf d0 einv s Hs) H Hok) as [l Hl].
  eapply lsteps_reached; [exact Hl|by apply (reachable_wf d0 einv)|]. by apply reachable_bare.
Qed.

End sound.
