(** What one call does to one subscribed view, as a sequence of small steps on (graph, view). *)
From stdpp Require Import prelude strings gmap.
From Verif Require Import ListLib Outcome Digraph Bfs TreeView GraphModel GraphOps GraphWf GraphStep GraphRefine SpecView.

Section vstep.
Context {D E : Type} (d0 : D) (einv : E -> E).
Local Notation dg_wf := (dg_wf einv).
Local Notation lstep := (lstep einv).
Implicit Types (s : gst D E) (g : digraph D E) (w : tview).

(** The loop body of removeEdgeFromTreeViews. *)
Definition view_remove (ord : order) (o t : vid) w : tview * outcome unit :=
  match tv_edge_exists w o t with
  | Ret true => tv_remove_edge ord o t w
  | Ret false => (w, Ret tt)
  | Throw x => (w, Throw x)
  | UB => (w, UB)
  | Fuel => (w, Fuel)
  end.

Definition keep_ev (ev : list event) : Prop :=
  match ev with
  | [] | [EvFrameAdded _] | [EvFrameRemoved _] | [EvEdgeModified _ _ _ _] => True
  | _ => False
  end.

(** One small step; the last two describe a removal that reached the view or was cut short by an
    exception of an earlier view. *)
Inductive vstep : digraph D E * tview -> list event -> digraph D E * tview -> Prop :=
| VKeep g ev g' w : lstep g ev g' -> keep_ev ev -> vstep (g, w) ev (g', w)
| VAdd g fo ft o t p s1 w w' :
    dg_map g !! fo = Some o -> dg_map g !! ft = Some t -> o <> t -> bg_edge g o t = None ->
    gs_dg s1 = dg_add2 einv o t p g ->
    add_edge_to_tree_view s1 (ERec (dg_nexte g) o t p) w = (w', Ret tt) ->
    vstep (g, w) [EvEdgeAdded fo ft (dg_nexte g)] (dg_add2 einv o t p g, w')
| VRem g fo ft o t e1 e2 ord w w' r :
    dg_map g !! fo = Some o -> dg_map g !! ft = Some t ->
    bg_edge g o t = Some e1 -> bg_edge g t o = Some e2 ->
    view_remove ord o t w = (w', r) -> ok r ->
    vstep (g, w) [EvEdgeRemoved fo ft] (dg_rem2 (e_id e1) (e_id e2) g, w')
| VSkip g fo ft o t e1 e2 w :
    dg_map g !! fo = Some o -> dg_map g !! ft = Some t ->
    bg_edge g o t = Some e1 -> bg_edge g t o = Some e2 ->
    vstep (g, w) [EvEdgeRemoved fo ft] (dg_rem2 (e_id e1) (e_id e2) g, w).

Inductive vsteps : digraph D E * tview -> list event -> digraph D E * tview -> Prop :=
| vsteps_nil x : vsteps x [] x
| vsteps_cons x ev1 y ev2 z : vstep x ev1 y -> vsteps y ev2 z -> vsteps x (ev1 ++ ev2) z
| vsteps_slot g w k on c ev z : vsteps (g, tv_slot k on c w) ev z -> vsteps (g, w) ev z.

Lemma vsteps_one x ev y : vstep x ev y -> vsteps x ev y.
Proof. intros. rewrite <- (app_nil_r ev). econstructor; [done|constructor]. Qed.
Lemma vsteps_app x ev1 y ev2 z : vsteps x ev1 y -> vsteps y ev2 z -> vsteps x (ev1 ++ ev2) z.
Proof. induction 1; [done| |]; intros; [rewrite <- app_assoc; econstructor; eauto|eapply vsteps_slot; eauto]. Qed.

Lemma vstep_lstep x ev y : vstep x ev y -> lstep (fst x) ev (fst y).
Proof. destruct 1; cbn; [done|by eapply LAddPair|by eapply LRemPair|by eapply LRemPair]. Qed.

Lemma vsteps_wf x ev y : vsteps x ev y -> dg_wf (fst x) -> dg_wf (fst y).
Proof. induction 1; [done| |done]. intros. apply IHvsteps. eapply lstep_wf; [done|by eapply vstep_lstep]. Qed.

(** *** Iterating over the views *)

Lemma for_views_other f l s s' ev r i : for_views f l s = (s', ev, r) -> i ∉ l ->
  gs_views s' !! i = gs_views s !! i.
Proof.
  revert s. induction l as [|j l IH]; intros s; cbn.
  - by intros [= <- _ _].
  - destruct (gs_views s !! j) as [w|]; [|by intros [= <- _ _]].
    destruct (f j w) as [w' r']. intros H [Hij Hn]%not_elem_of_cons.
    assert (Hx : gs_views (gs_set_view j w' s) !! i = gs_views s !! i) by (cbn; by rewrite lookup_insert_ne).
    destruct r'; [rewrite <- Hx; by eapply IH|by injection H as <- _ _..].
Qed.

Lemma for_views_one f l s s' ev r i w : for_views f l s = (s', ev, r) -> NoDup l -> i ∈ l -> ok r ->
  gs_views s !! i = Some w ->
  (exists w' ri, f i w = (w', ri) /\ gs_views s' !! i = Some w' /\
     (r = Ret tt -> ri = Ret tt) /\ ok ri /\ (forall x, ri = Throw x -> r = Throw x)) \/
  (gs_views s' !! i = Some w /\ exists x, r = Throw x).
Proof.
  revert s. induction l as [|j l IH]; intros s; [by intros _ _ ?%elem_of_nil|].
  cbn. intros H [Hj Hnd]%NoDup_cons Hi Hok Hw.
  destruct (decide (i = j)) as [->|Hij].
  - rewrite Hw in H. destruct (f j w) as [w' ri] eqn:Hf. left. exists w', ri. split; [done|].
    destruct ri as [[]|x| |].
    + apply for_views_other with (i := j) in H; [|done]. rewrite H. cbn. rewrite lookup_insert.
      repeat split; done.
    + injection H as <- _ <-. cbn. rewrite lookup_insert. repeat split; done.
    + injection H as <- _ <-. done.
    + injection H as <- _ <-. done.
  - apply elem_of_cons in Hi as [?|Hi]; [done|].
    destruct (gs_views s !! j) as [wj|]; [|injection H as _ _ <-; done].
    destruct (f j wj) as [wj' rj] eqn:Hf.
    assert (Hw' : gs_views (gs_set_view j wj' s) !! i = Some w) by (cbn; by rewrite lookup_insert_ne).
    destruct rj as [[]|x| |]; [by eapply IH| |injection H as _ _ <-; done..].
    injection H as <- _ <-. right. eauto.
Qed.

(** *** Single calls *)

Lemma add_edge_v_inv o t p s s' ev r :
  dg_wf (gs_dg s) -> o <> t -> add_edge_v einv o t p s = (s', ev, r) -> ok r ->
  (s' = s /\ ev = [] /\ exists x, r = Throw x) \/
  exists fo ft, dg_map (gs_dg s) !! fo = Some o /\ dg_map (gs_dg s) !! ft = Some t /\
    bg_edge (gs_dg s) o t = None /\
    add_edge_to_tree_views (ERec (dg_nexte (gs_dg s)) o t p)
      (gs_set_dg (dg_add2 einv o t p (gs_dg s)) s) = (s', [], Ret tt) /\
    ev = [EvEdgeAdded fo ft (dg_nexte (gs_dg s))] /\ r = Ret tt.
Proof.
  intros Hwf Hot. unfold add_edge_v.
  destruct (bg_alive (gs_dg s) o) eqn:Ho; cycle 1.
  { rewrite cbind_read_ub; [|by unfold find_edge; rewrite Ho]. by intros [= <- <- <-]. }
  erewrite cbind_read_ret; [|by apply find_edge_alive].
  destruct (wf_alive_map einv _ o Hwf Ho) as (fo & Hfo & _).
  destruct (bg_edge (gs_dg s) o t) as [e|] eqn:He.
  { assert (Ht : bg_alive (gs_dg s) t = true).
    { apply (bg_edge_iff einv) in He as (? & _ & <-); [|done]. by eapply wf_tgt_alive. }
    destruct (wf_alive_map einv _ t Hwf Ht) as (ft & Hft & _).
    erewrite cbind_read_ret by by apply (get_frame_id_some einv).
    erewrite cbind_read_ret by by apply (get_frame_id_some einv).
    intros [= <- <- <-] _. left. eauto. }
  destruct (bg_alive (gs_dg s) t) eqn:Ht; cycle 1.
  { rewrite cbind_read_ub by by rewrite Ht. by intros [= <- <- <-]. }
  erewrite cbind_read_ret by by rewrite Ht.
  destruct (wf_alive_map einv _ t Hwf Ht) as (ft & Hft & _).
  erewrite cbind_ret by by cbn. rewrite cbind_modify.
  change (gs_set_dg (fst (bg_add_edge t o (einv p) _)) _) with
    (gs_set_dg (dg_add2 einv o t p (gs_dg s)) s).
  set (s1 := gs_set_dg (dg_add2 einv o t p (gs_dg s)) s).
  assert (Hl : lstep (gs_dg s) [EvEdgeAdded fo ft (dg_nexte (gs_dg s))] (gs_dg s1))
    by by constructor.
  assert (Hwf1 : dg_wf (gs_dg s1)) by by eapply lstep_wf.
  destruct ((_ ;;; _) s1) as [[s2 ev2] r2] eqn:Hb. cbn. intros [= -> -> ->] Hok.
  apply cbind_inv in Hb as [(s3 & ev3 & [] & ev4 & H3 & H4 & ->)|[(x & Hx & ->)|[[_ ->]|[_ ->]]]];
    [| | by destruct Hok..].
  - right. exists fo, ft. pose proof H3 as H3'. unfold add_edge_to_tree_views in H3'.
    apply for_views_frame in H3' as (Hdg & _ & ->).
    erewrite cbind_read_ret in H4.
    2:{ apply (get_frame_id_some einv); rewrite Hdg; [done|]. exact Hfo. }
    erewrite cbind_read_ret in H4.
    2:{ apply (get_frame_id_some einv); rewrite Hdg; [done|]. exact Hft. }
    cbn in H4. injection H4 as <- <- <-. repeat (split; [done|]). done.
  - exfalso. unfold add_edge_to_tree_views in Hx.
    eapply for_views_nothrow, Hx. intros i w w'. apply (add_edge_to_tree_view_nothrow einv); [done|].
    cbn. apply elem_of_app. left. apply elem_of_app. right. by apply elem_of_list_singleton.
Qed.

Lemma add_edge_inv o t p s s' ev r :
  dg_wf (gs_dg s) -> o <> t -> add_edge d0 einv o t p s = (s', ev, r) -> ok r ->
  exists s2 ev1 ev2 vo vt, add_edge_v einv vo vt p s2 = (s', ev2, r) /\ vo <> vt /\ ev = ev1 ++ ev2 /\
    gs_subs s2 = gs_subs s /\ gs_views s2 = gs_views s /\ dg_wf (gs_dg s2) /\
    (forall w, vsteps (gs_dg s, w) ev1 (gs_dg s2, w)).
Proof.
  intros Hwf Hot. unfold add_edge.
  assert (Hmk : forall f s1, dg_wf (gs_dg s1) ->
    forall s2 ev2 r2, (if bg_vertex (gs_dg s1) f =? null_vertex then add_vertex f d0
                else cret (bg_vertex (gs_dg s1) f)) s1 = (s2, ev2, r2) ->
    exists v, r2 = Ret v /\ dg_map (gs_dg s2) !! f = Some v /\
      (forall w, vsteps (gs_dg s1, w) ev2 (gs_dg s2, w)) /\
      gs_subs s2 = gs_subs s1 /\ gs_views s2 = gs_views s1 /\
      forall f', f' <> f -> dg_map (gs_dg s2) !! f' = dg_map (gs_dg s1) !! f').
  { intros f s1 Hwf1 s2 ev2 r2.
    destruct (Nat.eqb_spec (bg_vertex (gs_dg s1) f) null_vertex) as [Hn|Hn].
    - rewrite (bg_vertex_null einv) in Hn by done. unfold add_vertex.
      assert (Hl : lstep (gs_dg s1) [EvFrameAdded f] (fst (bg_add_vertex f d0 (gs_dg s1)))) by by constructor.
      unfold bg_add_vertex in *. rewrite Hn in *. cbn in *. intros [= <- <- <-].
      eexists. split; [done|]. cbn. rewrite lookup_insert. split; [done|].
      split; [intros w; apply vsteps_one; by constructor|]. split; [done|]. split; [done|].
      intros f' Hf'. by rewrite lookup_insert_ne.
    - intros [= <- <- <-]. eexists. split; [done|]. split; [|split; [constructor|done]].
      unfold bg_vertex in *. by destruct (dg_map (gs_dg s1) !! f). }
  intros H Hok.
  apply cbind_inv in H as [(s1 & ev1 & vo & ev2 & H1 & H2 & ->)|[(x & Hx & ->)|[[H ->]|[H ->]]]];
    [| |by destruct Hok..].
  2:{ apply Hmk in Hx as (? & ? & _); done. }
  apply Hmk in H1 as (v & [= ->] & Hmo & Hl1 & Hs1 & Hv1 & Hfr); [|done].
  assert (Hwf1 : dg_wf (gs_dg s1)) by exact (vsteps_wf _ _ _ (Hl1 tv_new) Hwf).
  assert (Hvt : bg_vertex (gs_dg s) t = bg_vertex (gs_dg s1) t).
  { unfold bg_vertex. by rewrite Hfr by done. }
  rewrite Hvt in H2.
  apply cbind_inv in H2 as [(s2 & ev3 & vt & ev4 & H3 & H4 & ->)|[(x & Hx & ->)|[[H ->]|[H ->]]]];
    [| |by destruct Hok..].
  2:{ apply Hmk in Hx as (? & ? & _); done. }
  apply Hmk in H3 as (u & [= ->] & Hmt & Hl2 & Hs2 & Hv2 & Hfr2); [|done].
  assert (Hwf2 : dg_wf (gs_dg s2)) by exact (vsteps_wf _ _ _ (Hl2 tv_new) Hwf1).
  assert (v <> u).
  { intros ->. apply Hot. eapply (wf_map_inj einv (gs_dg s2)); [done| |done].
    rewrite Hfr2; done. }
  exists s2, (ev1 ++ ev3), ev4, v, u. split; [done|]. split; [done|]. rewrite <- app_assoc.
  split; [done|]. split; [congruence|]. split; [congruence|]. split; [done|].
  intros w. by eapply vsteps_app.
Qed.

Section one.
Variable i : viewid.

(** The state has the view, subscribed once. *)
Definition hasview s w : Prop := NoDup (gs_subs s) /\ i ∈ gs_subs s /\ gs_views s !! i = Some w.

Lemma add_edge_v_vsteps o t p s s' ev r w :
  dg_wf (gs_dg s) -> o <> t -> hasview s w -> add_edge_v einv o t p s = (s', ev, r) -> ok r ->
  exists w', hasview s' w' /\ vsteps (gs_dg s, w) ev (gs_dg s', w').
Proof.
  intros Hwf Hot (Hnd & Hi & Hw) H Hok.
  destruct (add_edge_v_inv o t p s s' ev r Hwf Hot H Hok) as
    [(-> & -> & _)|(fo & ft & Hfo & Hft & He & Hv & -> & ->)].
  { exists w. split; [done|constructor]. }
  pose proof Hv as Hv'. unfold add_edge_to_tree_views in Hv'.
  pose proof Hv' as Hfr. apply for_views_frame in Hfr as (Hdg & Hsub & _).
  apply for_views_one with (i := i) (w := w) in Hv' as [(w' & ri & Hf & Hw' & Hri & _)|(_ & x & ?)]; try done.
  specialize (Hri eq_refl). subst ri. exists w'. split.
  - split; [by rewrite Hsub|]. split; [by rewrite Hsub|done].
  - rewrite Hdg. apply vsteps_one. cbn [gs_dg gs_set_dg]. eapply (VAdd _ fo ft o t p (gs_set_dg (dg_add2 einv o t p (gs_dg s)) s)); done.
Qed.

Lemma add_edge_vsteps o t p s s' ev r w :
  dg_wf (gs_dg s) -> o <> t -> hasview s w -> add_edge d0 einv o t p s = (s', ev, r) -> ok r ->
  exists w', hasview s' w' /\ vsteps (gs_dg s, w) ev (gs_dg s', w').
Proof.
  intros Hwf Hot (Hnd & Hi & Hw) H Hok.
  apply add_edge_inv in H as (s2 & ev1 & ev2 & vo & vt & H & Hne & -> & Hs & Hv & Hwf2 & Hst); [|done..].
  eapply add_edge_v_vsteps in H as (w' & Hh & Hvs); [|done..| |done].
  - exists w'. split; [done|]. by eapply vsteps_app.
  - split; [by rewrite Hs|]. split; [by rewrite Hs|by rewrite Hv].
Qed.

Lemma remove_edge_impl_vsteps ord fo ft o t s s' ev r w :
  dg_wf (gs_dg s) -> dg_map (gs_dg s) !! fo = Some o -> dg_map (gs_dg s) !! ft = Some t ->
  hasview s w -> remove_edge_impl ord fo ft o t s = (s', ev, r) -> ok r ->
  exists w', hasview s' w' /\ vsteps (gs_dg s, w) ev (gs_dg s', w').
Proof.
  intros Hwf Hfo Hft (Hnd & Hi & Hw).
  destruct (bg_edge (gs_dg s) o t) as [e1|] eqn:He1.
  - destruct (edge_rev einv _ _ _ _ Hwf He1) as [e2 He2].
    rewrite (remove_edge_impl_eq einv ord fo ft o t e1 e2) by done.
    destruct (remove_edge_from_tree_views _ _ _ _) as [[s2 ev2] r2] eqn:Hv.
    intros [= <- <- <-] Hok. unfold remove_edge_from_tree_views in Hv.
    pose proof Hv as Hfr. apply for_views_frame in Hfr as (Hdg & Hsub & _).
    apply for_views_one with (i := i) (w := w) in Hv as [(w' & ri & Hf & Hw' & Hri & Hok' & _)|(Hw' & x & ?)]; try done.
    + exists w'. split; [split; [by rewrite Hsub|]; split; [by rewrite Hsub|done]|].
      rewrite Hdg. apply vsteps_one. cbn [gs_dg gs_set_dg].
      change (view_remove (ord i) o t w = (w', ri)) in Hf. by eapply VRem.
    + exists w. split; [split; [by rewrite Hsub|]; split; [by rewrite Hsub|done]|].
      rewrite Hdg. apply vsteps_one. cbn [gs_dg gs_set_dg]. by eapply VSkip.
  - rewrite (remove_edge_impl_none einv) by eauto using wf_map_alive.
    intros [= <- <- _] _. exists w. split; [done|constructor].
Qed.

Lemma remove_edge_v_vsteps ord o t s s' ev r w :
  dg_wf (gs_dg s) -> hasview s w -> remove_edge_v ord o t s = (s', ev, r) -> ok r ->
  exists w', hasview s' w' /\ vsteps (gs_dg s, w) ev (gs_dg s', w').
Proof.
  intros Hwf Hh. unfold remove_edge_v.
  destruct (get_frame_id_cases einv s o Hwf) as [(fo & Hfo & Ho)|[(_ & _ & Ho)|(_ & _ & Ho)]].
  2:{ erewrite cbind_read_throw by exact Ho. intros [= <- <- _]. exists w. split; [done|constructor]. }
  2:{ erewrite cbind_read_ub by exact Ho. by intros [= <- <- <-]. }
  erewrite cbind_read_ret by exact Ho.
  destruct (get_frame_id_cases einv s t Hwf) as [(ft & Hft & Ht)|[(_ & _ & Ht)|(_ & _ & Ht)]].
  2:{ erewrite cbind_read_throw by exact Ht. intros [= <- <- _]. exists w. split; [done|constructor]. }
  2:{ erewrite cbind_read_ub by exact Ht. by intros [= <- <- <-]. }
  erewrite cbind_read_ret by exact Ht. by apply remove_edge_impl_vsteps.
Qed.

Lemma remove_edge_vsteps ord o t s s' ev r w :
  dg_wf (gs_dg s) -> hasview s w -> remove_edge ord o t s = (s', ev, r) -> ok r ->
  exists w', hasview s' w' /\ vsteps (gs_dg s, w) ev (gs_dg s', w').
Proof.
  intros Hwf Hh. unfold remove_edge.
  destruct (get_vertex_cases einv s o Hwf) as [(vo & Hvo & Ho)|[_ Ho]].
  2:{ erewrite cbind_read_throw by exact Ho. intros [= <- <- _]. exists w. split; [done|constructor]. }
  erewrite cbind_read_ret by exact Ho.
  destruct (get_vertex_cases einv s t Hwf) as [(vt & Hvt & Ht)|[_ Ht]].
  2:{ erewrite cbind_read_throw by exact Ht. intros [= <- <- _]. exists w. split; [done|constructor]. }
  erewrite cbind_read_ret by exact Ht. by apply remove_edge_impl_vsteps.
Qed.

Lemma disconnect_loop_vsteps n ord v s s' ev r w :
  dg_wf (gs_dg s) -> hasview s w -> disconnect_loop n ord v s = (s', ev, r) -> ok r ->
  exists w', hasview s' w' /\ vsteps (gs_dg s, w) ev (gs_dg s', w').
Proof.
  revert s s' ev r w. induction n as [|n IH]; intros s s' ev r w Hwf Hh; cbn [disconnect_loop].
  - destruct (bg_out (gs_dg s) v); intros [= <- <- <-]; [|done]. exists w. split; [done|constructor].
  - destruct (bg_out (gs_dg s) v) as [|e l]; [intros [= <- <- _]; exists w; split; [done|constructor]|].
    intros [(s1 & ev1 & a & ev2 & H1 & H2 & ->)|[(x & Hx & ->)|[[H ->]|[H ->]]]]%cbind_inv; [| |done..].
    + intros Hok. eapply remove_edge_v_vsteps in H1 as (w1 & Hh1 & Hv1); [|done..].
      edestruct (IH s1) as (w2 & Hh2 & Hv2); [exact (vsteps_wf _ _ _ Hv1 Hwf)|done|done|done|].
      exists w2. split; [done|]. by eapply vsteps_app.
    + intros _. by eapply remove_edge_v_vsteps.
Qed.

Lemma set_edge_property_v_vsteps o t p s s' ev r w :
  dg_wf (gs_dg s) -> hasview s w -> set_edge_property_v einv o t p s = (s', ev, r) -> ok r ->
  exists w', hasview s' w' /\ vsteps (gs_dg s, w) ev (gs_dg s', w').
Proof.
  intros Hwf Hh. destruct (bg_alive (gs_dg s) o) eqn:Ho; cycle 1.
  { unfold set_edge_property_v. rewrite cbind_read_ub; [|by unfold find_edge; rewrite Ho].
    by intros [= <- <- <-]. }
  destruct (wf_alive_map einv _ o Hwf Ho) as (fo & Hfo & _).
  destruct (bg_edge (gs_dg s) o t) as [e1|] eqn:He1.
  - destruct (edge_rev einv _ _ _ _ Hwf He1) as [e2 He2].
    assert (Ht : bg_alive (gs_dg s) t = true).
    { apply (bg_edge_iff einv) in He1 as (? & _ & <-); [|done]. by eapply wf_tgt_alive. }
    destruct (wf_alive_map einv _ t Hwf Ht) as (ft & Hft & _).
    erewrite set_edge_property_v_eq by done. intros [= <- <- _] _. exists w. split; [done|].
    apply vsteps_one. cbn. apply VKeep; [by eapply LSetPair|done].
  - unfold set_edge_property_v. erewrite cbind_read_ret by by apply find_edge_alive. rewrite He1.
    erewrite cbind_read_ret by by apply (get_frame_id_some einv).
    destruct (get_frame_id_cases einv s t Hwf) as [(ft & Hft & Ht)|[(_ & _ & Ht)|(_ & _ & Ht)]].
    + erewrite cbind_read_ret by exact Ht. intros [= <- <- _]. exists w. split; [done|constructor].
    + erewrite cbind_read_throw by exact Ht. intros [= <- <- _]. exists w. split; [done|constructor].
    + erewrite cbind_read_ub by exact Ht. by intros [= <- <- <-].
Qed.

(** Subscribed views are alive and know their publisher. *)
Definition subs_ok s : Prop :=
  NoDup (gs_subs s) /\ forall j, j ∈ gs_subs s -> exists w, gs_views s !! j = Some w /\ tv_pub w = true.

End one.

End vstep.
