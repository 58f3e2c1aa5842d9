(** Every call on the graph simulates the abstract store. *)
From stdpp Require Import prelude strings gmap.
From Verif Require Import ListLib Outcome Digraph Bfs TreeView GraphModel GraphOps GraphWf GraphStep
  SpecStore SpecObs GraphStore.

(** Tree views: the only exception is std::runtime_error *)
Lemma tv_get_parent_throw w v x : tv_get_parent w v = Throw x -> x = XRuntime.
Proof.
  unfold tv_get_parent. destruct (v =? null_vertex); [congruence|].
  destruct (tv_tree w !! v); congruence.
Qed.

Lemma tv_visit_bfs_throw n ord w q l x : tv_visit_bfs n ord w q = (l, Throw x) -> x = XRuntime.
Proof.
  revert q l. induction n as [|n IH]; intros q l; destruct q as [|c q]; cbn; try congruence.
  destruct (tv_get_parent w c) as [p|y| |] eqn:Hp; try congruence.
  - destruct (tv_visit_bfs n ord w _) as [l' r'] eqn:Hv. intros [= <- ->]. by eapply IH.
  - intros [= <- ->]. by apply tv_get_parent_throw in Hp.
Qed.

Lemma tv_remove_vertices_throw vs w w' x : tv_remove_vertices vs w <> (w', Throw x).
Proof.
  revert w. induction vs as [|v vs IH]; intros w; cbn; [congruence|].
  case_bool_decide; [apply IH|congruence].
Qed.

Lemma tv_remove_edge_throw ord o t w w' x :
  tv_remove_edge ord o t w = (w', Throw x) -> x = XRuntime.
Proof.
  unfold tv_remove_edge.
  destruct (if _ =? _ then _ else _) as [rt|]; [|congruence].
  destruct (tv_visit_bfs _ ord w [rt]) as [vis r] eqn:Hv.
  destruct (xs_steps _ _) as [xs|]; [|congruence].
  destruct r as [a|y| |]; try congruence.
  - destruct (tv_remove_vertices _ _) as [w2 r2] eqn:Hr. destruct r2 as [b|y| |]; try congruence.
    + destruct (xs_leaving xs); congruence.
    + by apply tv_remove_vertices_throw in Hr.
  - intros [= <- ->]. by eapply tv_visit_bfs_throw.
Qed.

Lemma for_views_throw {D E} (f : viewid -> tview -> tview * outcome unit) l (s s' : gst D E) ev x :
  (forall i w w', f i w = (w', Throw x) -> x = XRuntime) ->
  for_views f l s = (s', ev, Throw x) -> x = XRuntime.
Proof.
  intros Hf. revert s. induction l as [|i l IH]; intros s; cbn; [by intros [=]|].
  destruct (gs_views s !! i) as [w|]; [|congruence].
  pose proof (Hf i w) as Hfi. destruct (f i w) as [w' r'].
  destruct r' as [a|y| |]; try congruence.
  - apply IH.
  - intros [= <- <- ->]. by eapply Hfi.
Qed.

Lemma remove_from_views_throw {D E} ord o t (s s' : gst D E) ev x :
  remove_edge_from_tree_views ord o t s = (s', ev, Throw x) -> x = XRuntime.
Proof.
  unfold remove_edge_from_tree_views. apply for_views_throw. intros i w w'.
  unfold tv_edge_exists.
  destruct (tv_tree w !! o) as [ra|], (tv_tree w !! t) as [rb|]; try congruence.
  destruct (vr_parent ra =? t), (vr_parent rb =? o); repeat case_bool_decide; try congruence;
    apply tv_remove_edge_throw.
Qed.

Section refine.
Context {D E : Type} (d0 : D) (einv : E -> E).
Local Notation gst := (gst D E).
Local Notation dg_wf := (dg_wf einv).
Implicit Types s : gst.
Implicit Types g : digraph D E.

Lemma remove_edge_v_run ord fo ft o t e1 e2 s :
  dg_wf (gs_dg s) -> dg_map (gs_dg s) !! fo = Some o -> dg_map (gs_dg s) !! ft = Some t ->
  bg_edge (gs_dg s) o t = Some e1 -> bg_edge (gs_dg s) t o = Some e2 ->
  exists s' r, remove_edge_v ord o t s = (s', [EvEdgeRemoved fo ft], r) /\
    remove_edge ord fo ft s = (s', [EvEdgeRemoved fo ft], r) /\
    remove_edge_from_tree_views ord o t
      (gs_set_dg (dg_rem2 (e_id e1) (e_id e2) (gs_dg s)) s) = (s', [], r) /\
    gs_dg s' = dg_rem2 (e_id e1) (e_id e2) (gs_dg s) /\ gs_subs s' = gs_subs s /\
    (forall x, r = Throw x -> x = XRuntime) /\
    (gs_subs s = [] -> r = Ret tt /\ gs_views s' = gs_views s).
Proof.
  intros Hwf Ho Ht H1 H2.
  destruct (remove_edge_from_tree_views ord o t
      (gs_set_dg (dg_rem2 (e_id e1) (e_id e2) (gs_dg s)) s)) as [[s' ev] r] eqn:Hv.
  pose proof Hv as Hfr. unfold remove_edge_from_tree_views in Hfr.
  apply for_views_frame in Hfr as (Hdg & Hsub & ->). cbn in Hsub, Hdg.
  assert (Himpl : remove_edge_impl ord fo ft o t s = (s', [EvEdgeRemoved fo ft], r)).
  { rewrite (remove_edge_impl_eq einv ord fo ft o t e1 e2) by done. by rewrite Hv. }
  exists s', r. split; [|split; [|split; [done|split; [done|split; [done|split]]]]].
  - unfold remove_edge_v. erewrite cbind_read_ret by by apply (get_frame_id_some einv).
    by erewrite cbind_read_ret by by apply (get_frame_id_some einv).
  - unfold remove_edge. erewrite cbind_read_ret by by apply (get_vertex_some einv).
    by erewrite cbind_read_ret by by apply (get_vertex_some einv).
  - intros x ->. by apply remove_from_views_throw in Hv.
  - intros Hnil. unfold remove_edge_from_tree_views in Hv. cbn [gs_subs gs_set_dg] in Hv.
    rewrite Hnil in Hv. by injection Hv as <- <-.
Qed.

Definition dg_disconnect (v : vid) (g : digraph D E) (g' : digraph D E) : Prop :=
  dg_verts g' = dg_verts g /\ dg_map g' = dg_map g /\
  dg_nextv g' = dg_nextv g /\ dg_maxvi g' = dg_maxvi g /\ dg_nexte g' = dg_nexte g /\
  dg_edges g' = filter (fun e => e_src e <> v /\ e_tgt e <> v) (dg_edges g).

Lemma no_out_no_touch g v : dg_wf g -> bg_out g v = [] ->
  filter (fun e => e_src e <> v /\ e_tgt e <> v) (dg_edges g) = dg_edges g.
Proof.
  intros Hwf Hout. apply filter_all. intros e He. split.
  - intros Hs. assert (Hx : e ∈ bg_out g v) by by apply elem_of_list_filter.
    rewrite Hout in Hx. by apply elem_of_nil in Hx.
  - intros Ht. destruct (wf_inv einv _ Hwf e He) as (e' & He' & Hs' & _).
    assert (Hx : e' ∈ bg_out g v) by (apply elem_of_list_filter; split; congruence).
    rewrite Hout in Hx. by apply elem_of_nil in Hx.
Qed.

Lemma disconnect_loop_run n ord f v s s' ev r : dg_wf (gs_dg s) ->
  dg_map (gs_dg s) !! f = Some v -> length (bg_out (gs_dg s) v) <= n ->
  disconnect_loop n ord v s = (s', ev, r) ->
  gs_subs s' = gs_subs s /\
  (gs_subs s = [] -> r = Ret tt /\ gs_views s' = gs_views s) /\
  (forall x, r = Throw x -> x = XRuntime) /\
  (r = Ret tt -> dg_disconnect v (gs_dg s) (gs_dg s') /\
     ev = (fun e => EvEdgeRemoved f (bg_name (gs_dg s) (e_tgt e))) <$> bg_out (gs_dg s) v).
Proof.
  revert s s' ev r. induction n as [|n IH]; intros s s' ev r Hwf Hm Hlen; cbn [disconnect_loop].
  - destruct (bg_out (gs_dg s) v) as [|e l] eqn:Hout; [|cbn in Hlen; lia].
    intros [= <- <- <-]. split; [done|]. split; [done|]. split; [done|]. intros _. split; [|done].
    repeat (split; [done|]). by rewrite no_out_no_touch.
  - destruct (bg_out (gs_dg s) v) as [|e l] eqn:Hout.
    { intros [= <- <- <-]. split; [done|]. split; [done|]. split; [done|]. intros _. split; [|done].
      repeat (split; [done|]). by rewrite no_out_no_touch. }
    assert (He : e ∈ bg_out (gs_dg s) v) by (rewrite Hout; set_solver).
    apply elem_of_list_filter in He as [Hsrc He].
    assert (He1 : bg_edge (gs_dg s) v (e_tgt e) = Some e) by by apply (bg_edge_iff einv).
    destruct (edge_rev einv _ _ _ _ Hwf He1) as [e2 He2].
    assert (Hta : bg_alive (gs_dg s) (e_tgt e) = true) by by eapply wf_tgt_alive.
    destruct (wf_alive_map einv _ _ Hwf Hta) as (ft & Hft & Hname).
    assert (Hbn : bg_name (gs_dg s) (e_tgt e) = ft).
    { unfold bg_name. by rewrite Hname. }
    destruct (remove_edge_v_run ord f ft v (e_tgt e) e e2 s) as
      (s1 & r1 & Hrun & _ & _ & Hdg & Hsub & Hx & Hnil); try done.
    destruct r1 as [[]|x| |].
    + erewrite cbind_ret by exact Hrun.
      assert (Hwf1 : dg_wf (gs_dg s1)) by (rewrite Hdg; by eapply wf_rem2).
      assert (Hout1 : bg_out (gs_dg s1) v = l).
      { rewrite Hdg, (bg_out_rem2 einv (gs_dg s) v (e_tgt e) e e2) by done.
        rewrite Hout, filter_cons_False by naive_solver. apply filter_all.
        intros x Hxl Heq. assert (Hnd : NoDup (e_id <$> bg_out (gs_dg s) v)).
        { apply NoDup_fmap_filter, (wf_eid einv), Hwf. }
        rewrite Hout in Hnd. apply NoDup_cons in Hnd as [Hnd _]. apply Hnd.
        rewrite <- Heq. by apply elem_of_list_fmap_1. }
      destruct (disconnect_loop n ord v s1) as [[s2 ev2] r2] eqn:Hd. intros [= <- <- <-].
      assert (Hm1 : dg_map (gs_dg s1) = dg_map (gs_dg s)) by by rewrite Hdg.
      apply IH in Hd as (Hsub2 & Hnil2 & Hx2 & Hret); [|done|by rewrite Hm1|].
      2:{ rewrite Hout1. cbn in Hlen. lia. }
      split; [congruence|]. split.
      { intros Hs0. destruct (Hnil Hs0) as [_ Hv1].
        destruct Hnil2 as [? ?]; [congruence|]. split; congruence. }
      split; [done|]. intros Hr2. destruct (Hret Hr2) as [(H1 & H2 & H3 & H4 & H5 & H6) ->].
      split.
      * unfold dg_disconnect. rewrite H1, H2, H3, H4, H5, Hdg. cbn.
        repeat (split; [done|]). rewrite H6, Hdg. cbn. rewrite filter_filter.
        apply list_filter_iff'. intros x Hxe. split; [naive_solver|].
        intros [Hsx Htx]. split; [|done]. split; intros Heq.
        -- pose proof (NoDup_fmap_inj e_id _ x e (wf_eid einv _ Hwf) Hxe He Heq) as ->. done.
        -- apply (bg_edge_iff einv) in He2 as (Hin2 & Hs2 & Ht2); [|done].
           pose proof (NoDup_fmap_inj e_id _ x e2 (wf_eid einv _ Hwf) Hxe Hin2 Heq) as ->. done.
      * rewrite Hout1. cbn. rewrite Hbn. f_equal.
        apply list_fmap_ext. intros ? y _. unfold bg_name, bg_vrec. by rewrite Hdg.
    + unfold cbind. rewrite Hrun. intros [= <- <- <-]. split; [done|]. split; [|split; [|done]].
      * intros Hs0. by destruct (Hnil Hs0).
      * intros y [= <-]. by apply Hx.
    + unfold cbind. rewrite Hrun. intros [= <- <- <-]. split; [done|]. split; [|split; [|done]].
      * intros Hs0. by destruct (Hnil Hs0).
      * done.
    + unfold cbind. rewrite Hrun. intros [= <- <- <-]. split; [done|]. split; [|split; [|done]].
      * intros Hs0. by destruct (Hnil Hs0).
      * done.
Qed.

Lemma dgrepr_disconnect g g' st f v : dg_wf g -> dgrepr g st ->
  dg_map g !! f = Some v -> dg_disconnect v g g' ->
  dgrepr g' (Store (st_frames st)
    (filter (fun kv => fst (fst kv) <> f /\ snd (fst kv) <> f) (st_edges st))).
Proof.
  intros Hwf Hr Hm (H1 & H2 & _ & _ & _ & H6). split; cbn.
  - rewrite H1. apply (dr_frames _ _ Hr).
  - intros a b p. rewrite H6, H2, map_filter_lookup_Some, (dr_edges _ _ Hr). cbn.
    setoid_rewrite elem_of_list_filter. split.
    + intros [(e & He & Ha & Hb & Hp) [Hna Hnb]]. exists e. split; [|done]. split; [|done].
      split; intros Heq; [apply Hna|apply Hnb]; eapply (wf_map_inj einv g); eauto; congruence.
    + intros (e & [[Hs Ht] He] & Ha & Hb & Hp). split; [by eauto|]. split; congruence.
Qed.

(** one call *)
Lemma sop_sim ord op s st s' ev r :
  dg_wf (gs_dg s) -> dgrepr (gs_dg s) st -> sop_noself op ->
  gstep d0 einv ord (call_of op) s = (s', ev, r) ->
  match r with
  | Ret _ => snd (spec_step d0 einv op st) = Ret tt /\
             dgrepr (gs_dg s') (fst (spec_step d0 einv op st))
  | Throw x => (snd (spec_step d0 einv op st) = Throw x /\
                fst (spec_step d0 einv op st) = st /\ s' = s /\ ev = []) \/
               (x = XRuntime /\ gs_subs s <> [])
  | UB | Fuel => gs_subs s <> []
  end /\ gs_subs s' = gs_subs s /\ (gs_subs s = [] -> gs_views s' = gs_views s).
Proof.
  intros Hwf Hr Hns Hs. destruct op as [f d|o t p|o t|o t p|f|f]; cbn [call_of gstep sop_noself] in *.
  - apply cbind_ret_void_inv in Hs as (r' & Hs & ->). unfold emplace_frame in Hs.
    destruct (Nat.eqb_spec (bg_vertex (gs_dg s) f) null_vertex) as [Hn|Hn].
    + rewrite (bg_vertex_null einv) in Hn by done. cbn [spec_step].
      rewrite decide_False.
      2:{ rewrite (dgrepr_known einv) by done. rewrite Hn. by intros [? ?]. }
      unfold add_vertex in Hs. destruct (bg_add_vertex f d (gs_dg s)) as [g' v] eqn:Hadd.
      injection Hs as <- <- <-. cbn. split; [|done]. split; [done|].
      pose proof (dgrepr_add_vertex einv (gs_dg s) st f d Hwf Hr Hn) as H. by rewrite Hadd in H.
    + injection Hs as <- <- <-. cbn. split; [|done]. left.
      rewrite decide_True.
      2:{ apply (dgrepr_known einv (gs_dg s)); [done..|]. unfold bg_vertex in Hn.
          destruct (dg_map (gs_dg s) !! f); [eauto|done]. }
      done.
  - unfold add_edge in Hs.
    assert (Hmk : forall f s1 st1, dg_wf (gs_dg s1) -> dgrepr (gs_dg s1) st1 ->
      exists s2 ev2 v, (if bg_vertex (gs_dg s1) f =? null_vertex then add_vertex f d0
                else cret (bg_vertex (gs_dg s1) f)) s1 = (s2, ev2, Ret v) /\
        dg_map (gs_dg s2) !! f = Some v /\ dg_wf (gs_dg s2) /\
        dgrepr (gs_dg s2) (Store (ensure d0 f (st_frames st1)) (st_edges st1)) /\
        gs_subs s2 = gs_subs s1 /\ gs_views s2 = gs_views s1 /\
        (forall f', f' <> f -> dg_map (gs_dg s2) !! f' = dg_map (gs_dg s1) !! f') /\
        dg_edges (gs_dg s2) = dg_edges (gs_dg s1) /\
        (is_Some (dg_map (gs_dg s1) !! f) -> s2 = s1 /\ ev2 = [])).
    { intros f s1 st1 Hwf1 Hr1.
      destruct (Nat.eqb_spec (bg_vertex (gs_dg s1) f) null_vertex) as [Hn|Hn].
      - rewrite (bg_vertex_null einv) in Hn by done.
        destruct (add_vertex f d0 s1) as [[s2 ev2] r2] eqn:Hav.
        pose proof Hav as Hav2.
        apply (add_vertex_lsteps einv) in Hav as (Hl & -> & Hm & Hsb & Hvw); [|done].
        exists s2, ev2, (dg_nextv (gs_dg s1)). split; [done|]. rewrite Hm, lookup_insert.
        split; [done|]. split; [by eapply lsteps_wf|]. split.
        { unfold ensure. destruct (st_frames st1 !! f) eqn:Hf.
          - exfalso. assert (Hk : known st1 f) by by eexists.
            apply (dgrepr_known einv (gs_dg s1)) in Hk; [|done..]. rewrite Hn in Hk. by destruct Hk.
          - pose proof (dgrepr_add_vertex einv (gs_dg s1) st1 f d0 Hwf1 Hr1 Hn) as H.
            unfold add_vertex in Hav2. destruct (bg_add_vertex f d0 (gs_dg s1)) as [g' v].
            injection Hav2 as <- <- _. done. }
        split; [done|]. split; [done|]. split; [intros f' Hf'; by rewrite lookup_insert_ne|].
        split; [|rewrite Hn; by intros [? ?]].
        unfold add_vertex, bg_add_vertex in Hav2. rewrite Hn in Hav2. by injection Hav2 as <- _.
      - exists s1, [], (bg_vertex (gs_dg s1) f). split; [done|].
        unfold bg_vertex in *. destruct (dg_map (gs_dg s1) !! f) as [v|] eqn:Hv; [|done].
        split; [done|]. split; [done|]. split; [|done].
        unfold ensure. assert (Hk : known st1 f) by (apply (dgrepr_known einv (gs_dg s1)); eauto).
        destruct Hk as [d ->]. by destruct st1. }
    destruct (Hmk o s st Hwf Hr) as (s1 & ev1 & vo & H1 & Hmo & Hwf1 & Hr1 & Hsb1 & Hvw1 & Hfr1 & Hed1 & Hex1).
    destruct (Hmk t s1 _ Hwf1 Hr1) as (s2 & ev2 & vt & H2 & Hmt & Hwf2 & Hr2 & Hsb2 & Hvw2 & Hfr2 & Hed2 & Hex2).
    assert (Hvt : bg_vertex (gs_dg s) t = bg_vertex (gs_dg s1) t).
    { unfold bg_vertex. by rewrite Hfr1 by done. }
    erewrite cbind_ret in Hs by exact H1. rewrite Hvt in Hs. erewrite cbind_ret in Hs by exact H2.
    cbn [st_edges st_frames] in Hr2.
    assert (Hmo2 : dg_map (gs_dg s2) !! o = Some vo) by by rewrite Hfr2.
    assert (Hvv : vo <> vt).
    { intros ->. apply Hns. by eapply (wf_map_inj einv (gs_dg s2)). }
    cbn [spec_step]. pose proof (dgrepr_edge einv _ _ o t vo vt Hwf2 Hr2 Hmo2 Hmt) as Hed.
    cbn in Hed. rewrite Hed.
    destruct (bg_edge (gs_dg s2) vo vt) as [e|] eqn:He; cbn.
    + rewrite (add_edge_v_throw einv vo vt p s2 o t e) in Hs by done. injection Hs as <- <- <-.
      assert (Hkn : is_Some (dg_map (gs_dg s) !! o) /\ is_Some (dg_map (gs_dg s) !! t)).
      { eapply (dgrepr_edge_known einv); [done|done|]. rewrite Hed. done. }
      destruct Hkn as [Hko Hkt]. destruct (Hex1 Hko) as [-> ->].
      destruct (Hex2 Hkt) as [-> ->]. split; [|done]. by left.
    + destruct (add_edge_v_gen einv vo vt p s2 o t) as (s3 & r3 & Hv3 & Hdg3 & Hsb3 & Hnt & Hadd); try done.
      rewrite Hadd in Hs. injection Hs as <- <- <-.
      split; [|split; [congruence|]].
      * destruct r3 as [[]|x| |].
        -- split; [done|]. rewrite Hdg3.
           apply (dgrepr_add2 einv _ _ vo vt p o t Hwf2 Hr2 Hmo2 Hmt Hvv He).
        -- by destruct (Hnt x).
        -- intros Hnil. unfold add_edge_to_tree_views in Hv3. cbn [gs_subs gs_set_dg] in Hv3.
           rewrite Hsb2, Hsb1, Hnil in Hv3. by injection Hv3.
        -- intros Hnil. unfold add_edge_to_tree_views in Hv3. cbn [gs_subs gs_set_dg] in Hv3.
           rewrite Hsb2, Hsb1, Hnil in Hv3. by injection Hv3.
      * intros Hnil. unfold add_edge_to_tree_views in Hv3. cbn [gs_subs gs_set_dg] in Hv3.
        rewrite Hsb2, Hsb1, Hnil in Hv3. injection Hv3 as <- _. cbn. congruence.
  - unfold remove_edge in Hs. cbn [spec_step].
    destruct (get_vertex_cases einv s o Hwf) as [(vo & Hvo & Ho)|[Hno Ho]].
    2:{ erewrite cbind_read_throw in Hs by exact Ho. injection Hs as <- <- <-. split; [|done]. left.
        rewrite decide_False; [done|]. rewrite (dgrepr_known einv) by done. rewrite Hno. by intros [? ?]. }
    destruct (get_vertex_cases einv s t Hwf) as [(vt & Hvt & Ht)|[Hnt Ht]].
    2:{ erewrite cbind_read_ret in Hs by exact Ho. erewrite cbind_read_throw in Hs by exact Ht.
        injection Hs as <- <- <-. split; [|done]. left.
        rewrite decide_True by (apply (dgrepr_known einv (gs_dg s)); eauto).
        rewrite decide_False; [done|]. rewrite (dgrepr_known einv) by done. rewrite Hnt. by intros [? ?]. }
    rewrite decide_True by (apply (dgrepr_known einv (gs_dg s)); eauto).
    rewrite decide_True by (apply (dgrepr_known einv (gs_dg s)); eauto).
    rewrite (dgrepr_edge einv (gs_dg s) st o t vo vt) by done.
    destruct (bg_edge (gs_dg s) vo vt) as [e1|] eqn:He1; cbn.
    + destruct (edge_rev einv _ _ _ _ Hwf He1) as [e2 He2].
      destruct (remove_edge_v_run ord o t vo vt e1 e2 s) as
        (s1 & r1 & _ & Hrun & _ & Hdg & Hsub & Hx & Hnil); try done.
      unfold remove_edge in Hrun. rewrite Hrun in Hs. injection Hs as <- <- <-.
      split; [|split; [done|intros Hs0; by apply Hnil]].
      destruct r1 as [[]|x| |].
      * split; [done|]. rewrite Hdg. by eapply dgrepr_rem2.
      * right. split; [by apply Hx|]. intros Hs0. by destruct (Hnil Hs0).
      * intros Hs0. by destruct (Hnil Hs0).
      * intros Hs0. by destruct (Hnil Hs0).
    + erewrite cbind_read_ret in Hs by exact Ho. erewrite cbind_read_ret in Hs by exact Ht.
      rewrite (remove_edge_impl_none einv) in Hs; try done; try by eapply wf_map_alive.
      injection Hs as <- <- <-. split; [|done]. by left.
  - unfold set_edge_property in Hs. cbn [spec_step].
    destruct (get_vertex_cases einv s o Hwf) as [(vo & Hvo & Ho)|[Hno Ho]].
    2:{ erewrite cbind_read_throw in Hs by exact Ho. injection Hs as <- <- <-. split; [|done]. left.
        rewrite decide_False; [done|]. rewrite (dgrepr_known einv) by done. rewrite Hno. by intros [? ?]. }
    erewrite cbind_read_ret in Hs by exact Ho.
    rewrite decide_True by (apply (dgrepr_known einv (gs_dg s)); eauto).
    destruct (get_vertex_cases einv s t Hwf) as [(vt & Hvt & Ht)|[Hnt Ht]].
    2:{ erewrite cbind_read_throw in Hs by exact Ht. injection Hs as <- <- <-. split; [|done]. left.
        rewrite decide_False; [done|]. rewrite (dgrepr_known einv) by done. rewrite Hnt. by intros [? ?]. }
    erewrite cbind_read_ret in Hs by exact Ht.
    rewrite decide_True by (apply (dgrepr_known einv (gs_dg s)); eauto).
    rewrite (dgrepr_edge einv (gs_dg s) st o t vo vt) by done.
    destruct (bg_edge (gs_dg s) vo vt) as [e1|] eqn:He1; cbn.
    + destruct (edge_rev einv _ _ _ _ Hwf He1) as [e2 He2].
      rewrite (set_edge_property_v_eq einv vo vt p s e1 e2 o t) in Hs by done.
      injection Hs as <- <- <-. split; [|done]. split; [done|]. by eapply (dgrepr_set2 einv).
    + unfold set_edge_property_v in Hs.
      erewrite cbind_read_ret in Hs by (apply find_edge_alive; by eapply wf_map_alive).
      rewrite He1 in Hs.
      erewrite cbind_read_ret in Hs by by apply (get_frame_id_some einv).
      erewrite cbind_read_ret in Hs by by apply (get_frame_id_some einv).
      injection Hs as <- <- <-. split; [|done]. by left.
  - unfold disconnect_frame in Hs. cbn [spec_step].
    destruct (get_vertex_cases einv s f Hwf) as [(v & Hv & Ho)|[Hno Ho]].
    2:{ erewrite cbind_read_throw in Hs by exact Ho. injection Hs as <- <- <-. split; [|done]. left.
        rewrite decide_False; [done|]. rewrite (dgrepr_known einv) by done. rewrite Hno. by intros [? ?]. }
    erewrite cbind_read_ret in Hs by exact Ho.
    rewrite decide_True by (apply (dgrepr_known einv (gs_dg s)); eauto).
    eapply (disconnect_loop_run _ _ f) in Hs as (Hsub & Hnil & Hx & Hret); [|done|done|apply filter_length].
    split; [|split; [done|intros Hs0; by apply Hnil]].
    destruct r as [[]|x| |].
    + destruct (Hret eq_refl) as [Hd _]. split; [done|]. by eapply dgrepr_disconnect.
    + right. split; [by apply Hx|]. intros Hs0. by destruct (Hnil Hs0).
    + intros Hs0. by destruct (Hnil Hs0).
    + intros Hs0. by destruct (Hnil Hs0).
  - cbn [spec_step].
    destruct (get_vertex_cases einv s f Hwf) as [(v & Hv & Ho)|[Hno Ho]].
    2:{ unfold remove_frame in Hs. erewrite cbind_read_throw in Hs by exact Ho.
        injection Hs as <- <- <-. split; [|done]. left.
        rewrite decide_False; [done|]. rewrite (dgrepr_known einv) by done. rewrite Hno. by intros [? ?]. }
    rewrite (remove_frame_eq einv f v) in Hs by done.
    rewrite decide_True by (apply (dgrepr_known einv (gs_dg s)); eauto).
    case_bool_decide as Hdeg.
    + injection Hs as <- <- <-. split; [|done]. left. rewrite decide_True; [done|].
      assert (He : exists e, e ∈ dg_edges (gs_dg s) /\ (e_src e = v \/ e_tgt e = v)).
      { unfold bg_degree in Hdeg. destruct (bg_in (gs_dg s) v) as [|e l] eqn:Hin.
        - destruct (bg_out (gs_dg s) v) as [|e l] eqn:Hout; [cbn in Hdeg; lia|].
          exists e. assert (Hx : e ∈ bg_out (gs_dg s) v) by (rewrite Hout; set_solver).
          apply elem_of_list_filter in Hx as [? ?]. auto.
        - exists e. assert (Hx : e ∈ bg_in (gs_dg s) v) by (rewrite Hin; set_solver).
          apply elem_of_list_filter in Hx as [? ?]. auto. }
      destruct He as (e & He & Hor).
      destruct (wf_alive_map einv _ _ Hwf (wf_src_alive einv _ _ Hwf He)) as (fs & Hfs & _).
      destruct (wf_alive_map einv _ _ Hwf (wf_tgt_alive einv _ _ Hwf He)) as (ft & Hft & _).
      exists (fs, ft), (e_prop e). split.
      { apply (dr_edges _ _ Hr). eauto. }
      cbn. destruct Hor as [Heq|Heq]; [left|right]; eapply (wf_map_inj einv (gs_dg s)); eauto; congruence.
    + injection Hs as <- <- <-. split; [|done]. rewrite decide_False.
      2:{ intros ([a b] & p & Hp & Hab). apply (dr_edges _ _ Hr) in Hp as (e & He & Ha & Hb & _).
          cbn in Hab. destruct (wf_degree0 (gs_dg s) v ltac:(lia) e He) as [Hn1 Hn2].
          destruct Hab as [-> | ->]; congruence. }
      cbn. split; [done|]. apply (dgrepr_remove_vertex einv); try done. lia.
Qed.

(** Observations *)
Lemma size_of_list {K A B} `{Countable K} (m : gmap K B) (l : list A) (k : A -> K) (f : A -> B) :
  NoDup (k <$> l) -> (forall i x, m !! i = Some x <-> exists a, a ∈ l /\ k a = i /\ f a = x) ->
  size m = length l.
Proof.
  intros Hnd Hm.
  assert (Hnd2 : NoDup (((fun a => (k a, f a)) <$> l).*1)).
  { rewrite <- list_fmap_compose. exact Hnd. }
  assert (m = list_to_map ((fun a => (k a, f a)) <$> l)) as ->.
  { apply map_eq. intros i. apply option_eq. intros x. rewrite Hm.
    rewrite <- elem_of_list_to_map by done. rewrite elem_of_list_fmap. split.
    - intros (a & Ha & <- & <-). eauto.
    - intros (a & [= -> ->] & Ha). eauto. }
  unfold size, map_size. rewrite map_to_list_to_map by done. by rewrite fmap_length.
Qed.

Lemma bg_name_map g f v : dg_wf g -> dg_map g !! f = Some v -> bg_name g v = f.
Proof.
  intros Hwf Hm. destruct (map_vrec einv g f v Hwf Hm) as (r & Hr & Hn).
  unfold bg_name. by rewrite Hr, <- Hn.
Qed.

Lemma contains_frame_map s f : dg_wf (gs_dg s) ->
  contains_frame s f = bool_decide (is_Some (dg_map (gs_dg s) !! f)).
Proof.
  intros Hwf. unfold contains_frame.
  destruct (Nat.eqb_spec (bg_vertex (gs_dg s) f) null_vertex) as [Hn|Hn].
  - rewrite (bg_vertex_null einv) in Hn by done. rewrite Hn.
    symmetry. apply bool_decide_eq_false. by intros [? ?].
  - symmetry. apply bool_decide_eq_true. unfold bg_vertex in Hn.
    destruct (dg_map (gs_dg s) !! f); [eauto|done].
Qed.

Lemma get_edge_property_eq s a b : dg_wf (gs_dg s) ->
  get_edge_property s a b =
  match dg_map (gs_dg s) !! a, dg_map (gs_dg s) !! b with
  | Some va, Some vb => match bg_edge (gs_dg s) va vb with
                        | Some e => Ret (e_prop e) | None => Throw (XUnknownEdge a b) end
  | Some _, None => Throw (XUnknownFrame b)
  | None, _ => Throw (XUnknownFrame a)
  end.
Proof.
  intros Hwf. unfold get_edge_property, get_edge.
  destruct (dg_map (gs_dg s) !! a) as [va|] eqn:Ha.
  2:{ by rewrite get_vertex_none. }
  rewrite (get_vertex_some einv s a va) by done. cbn.
  destruct (dg_map (gs_dg s) !! b) as [vb|] eqn:Hb.
  2:{ by rewrite get_vertex_none. }
  rewrite (get_vertex_some einv s b vb) by done. cbn.
  destruct (bg_edge (gs_dg s) va vb) as [e|] eqn:He.
  - rewrite (get_edge_v_some einv s va vb e) by done. cbn. unfold get_edge_property_e.
    apply (bg_edge_iff einv) in He as (He & _ & _); [|done].
    by rewrite (proj2 (bg_erec_iff einv (gs_dg s) (e_id e) e Hwf)).
  - unfold get_edge_v. rewrite find_edge_alive by by eapply wf_map_alive. rewrite He. cbn.
    rewrite (get_frame_id_some einv s a va) by done. cbn.
    by rewrite (get_frame_id_some einv s b vb).
Qed.

Lemma contains_edge_eq s a b : dg_wf (gs_dg s) ->
  contains_edge s a b =
  match dg_map (gs_dg s) !! a, dg_map (gs_dg s) !! b with
  | Some va, Some vb => Ret (bool_decide (is_Some (bg_edge (gs_dg s) va vb)))
  | Some _, None => Throw (XUnknownFrame b)
  | None, _ => Throw (XUnknownFrame a)
  end.
Proof.
  intros Hwf. unfold contains_edge.
  destruct (dg_map (gs_dg s) !! a) as [va|] eqn:Ha.
  2:{ by rewrite get_vertex_none. }
  rewrite (get_vertex_some einv s a va) by done. cbn.
  destruct (dg_map (gs_dg s) !! b) as [vb|] eqn:Hb.
  2:{ by rewrite get_vertex_none. }
  rewrite (get_vertex_some einv s b vb) by done. cbn.
  unfold contains_edge_v. by rewrite find_edge_alive by by eapply wf_map_alive.
Qed.

Lemma dgrepr_observes s st : dg_wf (gs_dg s) -> dgrepr (gs_dg s) st -> observes s st.
Proof.
  intros Hwf Hr. split.
  - intros f. rewrite contains_frame_map by done. apply bool_decide_ext.
    symmetry. by apply (dgrepr_known einv).
  - intros f. unfold get_frame_property.
    destruct (dg_map (gs_dg s) !! f) as [v|] eqn:Hm.
    + rewrite (get_vertex_some einv s f v) by done. cbn.
      destruct (map_vrec einv _ f v Hwf Hm) as (r & Hv & Hn). rewrite Hv.
      apply (bg_vrec_iff einv) in Hv as [Hin _]; [|done].
      rewrite (proj2 (dr_frames _ _ Hr f (v_data r))); [done|]. eauto.
    + rewrite get_vertex_none by done. cbn.
      destruct (st_frames st !! f) as [d|] eqn:Hf; [|done]. exfalso.
      assert (Hk : known st f) by by eexists.
      apply (dgrepr_known einv (gs_dg s)) in Hk; [|done..]. rewrite Hm in Hk. by destruct Hk.
  - intros a b. rewrite get_edge_property_eq by done.
    pose proof (dgrepr_known einv (gs_dg s) st a Hwf Hr) as Ha.
    pose proof (dgrepr_known einv (gs_dg s) st b Hwf Hr) as Hb.
    destruct (dg_map (gs_dg s) !! a) as [va|] eqn:Hma.
    2:{ rewrite decide_False; [done|]. rewrite Ha. by intros [? ?]. }
    rewrite decide_True by (apply Ha; eauto).
    destruct (dg_map (gs_dg s) !! b) as [vb|] eqn:Hmb.
    2:{ rewrite decide_False; [done|]. rewrite Hb. by intros [? ?]. }
    rewrite decide_True by (apply Hb; eauto).
    rewrite (dgrepr_edge einv (gs_dg s) st a b va vb) by done. by destruct (bg_edge _ va vb).
  - intros a b. rewrite contains_edge_eq by done.
    pose proof (dgrepr_known einv (gs_dg s) st a Hwf Hr) as Ha.
    pose proof (dgrepr_known einv (gs_dg s) st b Hwf Hr) as Hb.
    destruct (dg_map (gs_dg s) !! a) as [va|] eqn:Hma.
    2:{ rewrite decide_False; [done|]. rewrite Ha. by intros [? ?]. }
    rewrite decide_True by (apply Ha; eauto).
    destruct (dg_map (gs_dg s) !! b) as [vb|] eqn:Hmb.
    2:{ rewrite decide_False; [done|]. rewrite Hb. by intros [? ?]. }
    rewrite decide_True by (apply Hb; eauto).
    rewrite (dgrepr_edge einv (gs_dg s) st a b va vb) by done. f_equal. apply bool_decide_ext.
    by rewrite fmap_is_Some.
  - intros a b [p Hp]. apply (dgrepr_edge_known einv _ _ _ _ _ Hwf Hr) in Hp as [Ha Hb].
    split; by apply (dgrepr_known einv (gs_dg s)).
  - unfold num_vertices. rewrite (wf_nv einv _ Hwf). symmetry.
    eapply (size_of_list _ _ v_name v_data); [apply (wf_vname einv _ Hwf)|apply (dr_frames _ _ Hr)].
  - unfold num_edges. rewrite (wf_ne einv _ Hwf). symmetry.
    eapply (size_of_list _ _ (fun e => (bg_name (gs_dg s) (e_src e), bg_name (gs_dg s) (e_tgt e))) e_prop).
    + apply (NoDup_fmap_finer (fun e => (e_src e, e_tgt e))); [apply (wf_pair einv _ Hwf)|].
      intros e1 e2 H1 H2 [= Hs Ht].
      destruct (wf_alive_map einv _ _ Hwf (wf_src_alive einv _ _ Hwf H1)) as (f1 & Hf1 & _).
      destruct (wf_alive_map einv _ _ Hwf (wf_src_alive einv _ _ Hwf H2)) as (f2 & Hf2 & _).
      destruct (wf_alive_map einv _ _ Hwf (wf_tgt_alive einv _ _ Hwf H1)) as (f3 & Hf3 & _).
      destruct (wf_alive_map einv _ _ Hwf (wf_tgt_alive einv _ _ Hwf H2)) as (f4 & Hf4 & _).
      rewrite (bg_name_map _ f1), (bg_name_map _ f2) in Hs by done.
      rewrite (bg_name_map _ f3), (bg_name_map _ f4) in Ht by done. subst. f_equal; congruence.
    + intros [a b] p. rewrite (dr_edges _ _ Hr). split.
      * intros (e & He & Ha & Hb & Hp). exists e. split; [done|].
        by rewrite (bg_name_map _ a), (bg_name_map _ b) by done.
      * intros (e & He & [= Ha Hb] & Hp). exists e. split; [done|].
        destruct (wf_alive_map einv _ _ Hwf (wf_src_alive einv _ _ Hwf He)) as (f1 & Hf1 & _).
        destruct (wf_alive_map einv _ _ Hwf (wf_tgt_alive einv _ _ Hwf He)) as (f3 & Hf3 & _).
        rewrite (bg_name_map _ f1) in Ha by done. rewrite (bg_name_map _ f3) in Hb by done.
        by subst.
Qed.

Lemma observes_dgrepr s st : dg_wf (gs_dg s) -> observes s st -> dgrepr (gs_dg s) st.
Proof.
  intros Hwf Ho. split.
  - intros f d. pose proof (ob_frame _ _ Ho f) as Hf. unfold get_frame_property in Hf.
    destruct (dg_map (gs_dg s) !! f) as [v|] eqn:Hm.
    + rewrite (get_vertex_some einv s f v) in Hf by done. cbn in Hf.
      destruct (map_vrec einv _ f v Hwf Hm) as (r & Hv & Hn). rewrite Hv in Hf.
      apply (bg_vrec_iff einv) in Hv as [Hin Hid]; [|done].
      destruct (st_frames st !! f) as [d'|]; [|done]. injection Hf as Hd. split.
      * intros [= <-]. eauto.
      * intros (r' & Hin' & Hn' & Hd'). f_equal.
        assert (r' = r) as ->; [|congruence].
        eapply (NoDup_fmap_inj v_name); eauto using (wf_vname einv). congruence.
    + rewrite get_vertex_none in Hf by done. cbn in Hf. destruct (st_frames st !! f); [done|].
      split; [done|]. intros (r & Hin & Hn & _).
      assert (Hx : dg_map (gs_dg s) !! v_name r = Some (v_id r)) by (apply (wf_map einv); eauto).
      congruence.
  - intros a b p. pose proof (ob_edge _ _ Ho a b) as He. rewrite get_edge_property_eq in He by done.
    split.
    + intros Hp. rewrite Hp in He.
      assert (Hk : known st a /\ known st b).
      { apply (ob_closed _ _ Ho). by eexists. }
      destruct Hk as [Hka Hkb]. rewrite !decide_True in He by done.
      destruct (dg_map (gs_dg s) !! a) as [va|] eqn:Hma; [|done].
      destruct (dg_map (gs_dg s) !! b) as [vb|] eqn:Hmb; [|done].
      destruct (bg_edge (gs_dg s) va vb) as [e|] eqn:Hed; [|done]. injection He as <-.
      apply (bg_edge_iff einv) in Hed as (Hin & <- & <-); [|done]. eauto.
    + intros (e & Hin & Ha & Hb & Hp). rewrite Ha, Hb in He.
      rewrite (proj2 (bg_edge_iff einv (gs_dg s) _ _ e Hwf)) in He by done.
      repeat case_decide; try done. destruct (st_edges st !! (a, b)); [|done]. congruence.
Qed.

End refine.
