(** Lemmas behind the properties of the plain graph. *)
From stdpp Require Import prelude strings gmap.
From Verif Require Import ListLib Outcome Digraph Bfs TreeView GraphModel GraphOps GraphWf GraphStep
  SpecStore SpecObs GraphStore GraphRefine.

Section thms.
Context {D E : Type} (d0 : D) (einv : E -> E).
Local Notation gst := (gst D E).
Local Notation dg_wf := (dg_wf einv).
Implicit Types s : gst.
Implicit Types g : digraph D E.

Lemma reachable_wf s : reachable d0 einv s -> dg_wf (gs_dg s).
Proof.
  intros (h & ev & r & Hns & Hr & Hok). eapply run_wf; [done|done|].
  destruct Hok as [-> | [x ->]]; done.
Qed.

Lemma reachable_step s ord op s' ev r :
  reachable d0 einv s -> op_noself op -> gstep d0 einv ord op s = (s', ev, r) ->
  ok r -> reachable d0 einv s'.
Proof.
  intros (h & ev0 & r0 & Hns & Hr & Hok) Hop Hs Hokr.
  assert (Happ : forall h1 h2 t, run d0 einv (h1 ++ h2) t =
    let '(t1, e1, r1) := run d0 einv h1 t in
    match r1 with
    | Ret _ | Throw _ => let '(t2, e2, r2) := run d0 einv h2 t1 in (t2, e1 ++ e2, r2)
    | UB => (t1, e1, UB) | Fuel => (t1, e1, Fuel) end).
  { induction h1 as [|[o1 p1] h1 IH]; intros h2 t; cbn [run app].
    - by destruct (run d0 einv h2 t) as [[??]?].
    - destruct (gstep d0 einv o1 p1 t) as [[t1 e1] r1]. destruct r1 as [a|x| |]; try done.
      + rewrite IH. destruct (run d0 einv h1 t1) as [[t2 e2] r2].
        destruct r2; try done; destruct (run d0 einv h2 t2) as [[??]?]; by rewrite <- app_assoc.
      + rewrite IH. destruct (run d0 einv h1 t1) as [[t2 e2] r2].
        destruct r2; try done; destruct (run d0 einv h2 t2) as [[??]?]; by rewrite <- app_assoc. }
  exists (h ++ [(ord, op)]), (ev0 ++ ev), (Ret tt). split.
  { apply Forall_app. split; [done|]. by apply Forall_singleton. }
  split; [|by left]. rewrite Happ, Hr. cbn [run].
  destruct Hok as [-> | [x ->]]; rewrite Hs; destruct r; cbn in *; try done; by rewrite app_nil_r.
Qed.

(** C01 *)
Lemma edges_inverse_pairs s : reachable d0 einv s ->
  (forall a b, contains_edge s a b = Ret true <-> contains_edge s b a = Ret true) /\
  NoDup ((fun e => (e_src e, e_tgt e)) <$> dg_edges (gs_dg s)) /\
  (forall a b p q, get_edge_property s a b = Ret p -> get_edge_property s b a = Ret q ->
     q = einv p \/ p = einv q) /\
  (forall a b p, get_edge_property s a b = Ret p -> exists q, get_edge_property s b a = Ret q).
Proof.
  intros Hwf%reachable_wf. 
  assert (Hsym : forall a b, contains_edge s a b = Ret true -> contains_edge s b a = Ret true).
  { intros a b. rewrite !contains_edge_eq with (einv := einv) by done.
    destruct (dg_map (gs_dg s) !! a) as [va|]; [|done].
    destruct (dg_map (gs_dg s) !! b) as [vb|]; [|done].
    intros [= [e He]%bool_decide_eq_true]. destruct (edge_rev einv _ _ _ _ Hwf He) as [e' He'].
    by rewrite He'. }
  split; [split; apply Hsym|]. split; [apply (wf_pair einv _ Hwf)|].
  assert (Hsome : forall a b p, get_edge_property s a b = Ret p ->
    exists va vb e, dg_map (gs_dg s) !! a = Some va /\ dg_map (gs_dg s) !! b = Some vb /\
      bg_edge (gs_dg s) va vb = Some e /\ e_prop e = p).
  { intros a b p. rewrite get_edge_property_eq with (einv := einv) by done.
    destruct (dg_map (gs_dg s) !! a) as [va|]; [|done].
    destruct (dg_map (gs_dg s) !! b) as [vb|]; [|done].
    destruct (bg_edge (gs_dg s) va vb) as [e|] eqn:He; [|done]. intros [= <-].
    exists va, vb, e. done. }
  split.
  - intros a b p q (va & vb & e & Ha & Hb & He & <-)%Hsome (vb' & va' & e' & Hb' & Ha' & He' & <-)%Hsome.
    assert (va' = va) as -> by congruence. assert (vb' = vb) as -> by congruence.
    apply (bg_edge_iff einv) in He as (Hin & Hs & Ht); [|done].
    apply (bg_edge_iff einv) in He' as (Hin' & Hs' & Ht'); [|done].
    destruct (wf_inv einv _ Hwf e Hin) as (e2 & Hin2 & Hs2 & Ht2 & Hp).
    assert (e2 = e') as ->; [|done].
    eapply (NoDup_fmap_inj (fun e => (e_src e, e_tgt e))); eauto using (wf_pair einv).
    cbn. f_equal; congruence.
  - intros a b p (va & vb & e & Ha & Hb & He & <-)%Hsome.
    destruct (edge_rev einv _ _ _ _ Hwf He) as [e' He'].
    exists (e_prop e'). rewrite get_edge_property_eq with (einv := einv) by done.
    by rewrite Ha, Hb, He'.
Qed.

(** C02 *)
Lemma frame_names s : reachable d0 einv s ->
  (forall f, contains_frame s f = true <->
             exists r, r ∈ dg_verts (gs_dg s) /\ get_frame_id s (v_id r) = Ret f) /\
  (forall r1 r2 f, r1 ∈ dg_verts (gs_dg s) -> r2 ∈ dg_verts (gs_dg s) ->
             get_frame_id s (v_id r1) = Ret f -> get_frame_id s (v_id r2) = Ret f -> r1 = r2) /\
  (forall r, r ∈ dg_verts (gs_dg s) ->
             exists f, get_frame_id s (v_id r) = Ret f /\ get_vertex s f = Ret (v_id r)) /\
  (forall f, contains_frame s f = true ->
             exists v, get_vertex s f = Ret v /\ get_frame_id s v = Ret f) /\
  (forall f, contains_frame s f = false -> get_vertex s f = Throw (XUnknownFrame f)) /\
  (exists names : gset frameid, num_vertices s = size names /\
             forall f, f ∈ names <-> contains_frame s f = true).
Proof.
  intros Hwf%reachable_wf.
  assert (Hid : forall r, r ∈ dg_verts (gs_dg s) -> dg_map (gs_dg s) !! v_name r = Some (v_id r)).
  { intros r Hr. apply (wf_map einv); eauto. }
  assert (Hc : forall f, contains_frame s f = true <-> is_Some (dg_map (gs_dg s) !! f)).
  { intros f. rewrite contains_frame_map with (einv := einv) by done. apply bool_decide_eq_true. }
  split_and!.
  - intros f. rewrite Hc. split.
    + intros [v Hv]. pose proof Hv as (r & Hr & <- & <-)%(wf_map einv); [|done]. exists r.
      split; [done|]. by apply (get_frame_id_some einv).
    + intros (r & Hr & Hf). apply (get_frame_id_inv einv) in Hf; [|done]. eauto.
  - intros r1 r2 f H1 H2 Hf1%(get_frame_id_inv einv) Hf2%(get_frame_id_inv einv); [|done..].
    eapply (NoDup_fmap_inj v_id); eauto using (wf_vid einv). congruence.
  - intros r Hr. exists (v_name r). split; [by apply (get_frame_id_some einv); auto|].
    apply (get_vertex_some einv); auto.
  - intros f [v Hv]%Hc. exists v. split; [by apply (get_vertex_some einv)|].
    by apply (get_frame_id_some einv).
  - intros f Hf. apply get_vertex_none. destruct (dg_map (gs_dg s) !! f) eqn:Hm; [|done].
    exfalso. rewrite (proj2 (Hc f)) in Hf; [done|]. rewrite Hm. eauto.
  - exists (list_to_set (v_name <$> dg_verts (gs_dg s))). split.
    + unfold num_vertices. rewrite (wf_nv einv _ Hwf), size_list_to_set by apply (wf_vname einv _ Hwf).
      by rewrite fmap_length.
    + intros f. rewrite elem_of_list_to_set, elem_of_list_fmap, Hc. split.
      * intros (r & -> & Hr). rewrite Hid; eauto.
      * intros [v (r & Hr & <- & <-)%(wf_map einv)]; [|done]. eauto.
Qed.

(** C04, one call *)
Lemma observes_step ord op s st s' ev r :
  reachable d0 einv s -> observes s st -> sop_noself op ->
  gstep d0 einv ord (call_of op) s = (s', ev, r) ->
  match r with
  | Ret _ => snd (spec_step d0 einv op st) = Ret tt /\ observes s' (fst (spec_step d0 einv op st))
  | Throw x => (snd (spec_step d0 einv op st) = Throw x /\ s' = s /\ ev = []) \/
               (x = XRuntime /\ gs_subs s <> [])
  | UB | Fuel => gs_subs s <> []
  end.
Proof.
  intros Hre Ho Hns Hs. pose proof (reachable_wf s Hre) as Hwf.
  pose proof (observes_dgrepr einv s st Hwf Ho) as Hrep.
  pose proof (sop_sim d0 einv ord op s st s' ev r Hwf Hrep Hns Hs) as [H _].
  destruct r as [[]|x| |]; [| |done..].
  - destruct H as [H1 H2]. split; [done|]. apply (dgrepr_observes einv); [|done].
    apply reachable_wf. eapply reachable_step; [done| |done|done].
    by destruct op.
  - destruct H as [(H1 & _ & H3 & H4)|H]; auto.
Qed.

(** C04, histories *)
Lemma run_sim s st (h : list ((viewid -> order) * sop D E)) s' ev r :
  dg_wf (gs_dg s) -> dgrepr (gs_dg s) st -> gs_subs s = [] ->
  Forall (fun p => sop_noself (snd p)) h ->
  run d0 einv (prod_map id call_of <$> h) s = (s', ev, r) ->
  r = Ret tt /\ dg_wf (gs_dg s') /\ dgrepr (gs_dg s') (spec_run d0 einv (snd <$> h) st) /\
  gs_subs s' = [].
Proof.
  revert s st s' ev r. induction h as [|[ord op] h IH]; intros s st s' ev r Hwf Hr Hsub Hns; cbn.
  - intros [= <- <- <-]. done.
  - apply Forall_cons in Hns as [Hop Hns]. cbn in Hop.
    destruct (gstep d0 einv ord (call_of op) s) as [[s1 ev1] r1] eqn:Hs.
    destruct (sop_sim d0 einv ord op s st s1 ev1 r1 Hwf Hr Hop Hs) as (H & Hsub1 & _).
    assert (Hwf1 : ok r1 -> dg_wf (gs_dg s1)).
    { intros Hok. eapply lsteps_wf; [done|]. eapply gstep_lsteps; [done| |done|done].
      by destruct op. }
    destruct r1 as [[]|x| |]; [| |done..].
    + destruct H as [_ Hr1]. destruct (run _ _ _ s1) as [[s2 ev2] r2] eqn:Hrun.
      intros [= <- <- <-].
      exact (IH s1 _ s2 ev2 r2 (Hwf1 I) Hr1 ltac:(congruence) Hns Hrun).
    + destruct H as [(_ & Heq & -> & ->)|[_ ?]]; [|done].
      destruct (run _ _ _ s) as [[s2 ev2] r2] eqn:Hrun. intros [= <- <- <-]. rewrite Heq.
      by eapply IH.
Qed.

Lemma observes_run (h : list ((viewid -> order) * sop D E)) s ev r :
  Forall (fun p => sop_noself (snd p)) h ->
  run d0 einv (prod_map id call_of <$> h) gst0 = (s, ev, r) ->
  r = Ret tt /\ observes s (spec_run d0 einv (snd <$> h) store0).
Proof.
  intros Hns Hr.
  destruct (run_sim gst0 store0 h s ev r) as (-> & Hwf & Hrep & _); try done.
  - apply dg_wf_empty.
  - apply dgrepr_empty.
  - split; [done|]. by apply (dgrepr_observes einv).
Qed.

(** C04, calls through vertex handles *)
Lemma handle_calls ord s a b va vb p : reachable d0 einv s -> 
  get_vertex s a = Ret va -> get_vertex s b = Ret vb ->
  gstep d0 einv ord (OAddEdgeV va vb p) s = gstep d0 einv ord (OAddEdge a b p) s /\
  gstep d0 einv ord (ORemoveEdgeV va vb) s = gstep d0 einv ord (ORemoveEdge a b) s /\
  gstep d0 einv ord (OSetPropV va vb p) s = gstep d0 einv ord (OSetProp a b p) s.
Proof.
  intros Hwf%reachable_wf Ha Hb.
  pose proof (get_vertex_inv _ _ _ Ha) as Hma. pose proof (get_vertex_inv _ _ _ Hb) as Hmb.
  assert (Hna : (va =? null_vertex) = false).
  { apply Nat.eqb_neq. intros ->. apply (wf_map einv) in Hma as (r & Hr & Hi & _); [|done].
    pose proof (wf_vbound einv _ Hwf r Hr). unfold null_vertex in *. lia. }
  assert (Hnb : (vb =? null_vertex) = false).
  { apply Nat.eqb_neq. intros ->. apply (wf_map einv) in Hmb as (r & Hr & Hi & _); [|done].
    pose proof (wf_vbound einv _ Hwf r Hr). unfold null_vertex in *. lia. }
  cbn [gstep]. split_and!.
  - unfold add_edge. rewrite (bg_vertex_some _ _ _ Hma), (bg_vertex_some _ _ _ Hmb), Hna, Hnb.
    rewrite (cbind_ret (cret va) _ s s [] va eq_refl), (cbind_ret (cret vb) _ s s [] vb eq_refl).
    by destruct (add_edge_v einv va vb p s) as [[??]?].
  - unfold remove_edge_v, remove_edge.
    erewrite cbind_read_ret by by apply (get_frame_id_some einv).
    erewrite cbind_read_ret by by apply (get_frame_id_some einv).
    erewrite cbind_read_ret by done. by erewrite cbind_read_ret.
  - unfold set_edge_property. erewrite cbind_read_ret by done. by erewrite cbind_read_ret.
Qed.

(** C03 *)
Lemma run_noself_end s : reachable d0 einv s -> forall f, contains_edge s f f <> Ret true.
Proof.
  intros Hwf%reachable_wf f. rewrite contains_edge_eq with (einv := einv) by done.
  destruct (dg_map (gs_dg s) !! f) as [v|]; [|done]. intros [= [e He]%bool_decide_eq_true].
  apply (bg_edge_iff einv) in He as (He & Hs & Ht); [|done].
  apply (wf_noself einv _ Hwf e He). congruence.
Qed.

(** Every reachable graph is described by some store *)
Lemma store_exists s : dg_wf (gs_dg s) -> exists st, observes s st.
Proof.
  intros Hwf.
  exists (Store (list_to_map ((fun r => (v_name r, v_data r)) <$> dg_verts (gs_dg s)))
    (list_to_map ((fun e => ((bg_name (gs_dg s) (e_src e), bg_name (gs_dg s) (e_tgt e)), e_prop e))
       <$> dg_edges (gs_dg s)))).
  apply (dgrepr_observes einv); [done|]. split; cbn.
  - intros f d. rewrite <- elem_of_list_to_map.
    2:{ rewrite <- list_fmap_compose. apply (wf_vname einv _ Hwf). }
    rewrite elem_of_list_fmap. split.
    + intros (r & [= -> ->] & Hr). eauto.
    + intros (r & Hr & <- & <-). eauto.
  - assert (Hn : forall e, e ∈ dg_edges (gs_dg s) ->
      dg_map (gs_dg s) !! bg_name (gs_dg s) (e_src e) = Some (e_src e) /\
      dg_map (gs_dg s) !! bg_name (gs_dg s) (e_tgt e) = Some (e_tgt e)).
    { intros e He.
      destruct (wf_alive_map einv _ _ Hwf (wf_src_alive einv _ _ Hwf He)) as (f1 & Hf1 & _).
      destruct (wf_alive_map einv _ _ Hwf (wf_tgt_alive einv _ _ Hwf He)) as (f2 & Hf2 & _).
      by rewrite (bg_name_map einv _ f1), (bg_name_map einv _ f2) by done. }
    intros a b p. rewrite <- elem_of_list_to_map.
    2:{ rewrite <- list_fmap_compose.
        apply (NoDup_fmap_finer (fun e => (e_src e, e_tgt e))); [apply (wf_pair einv _ Hwf)|].
        intros x y Hx Hy [= H1 H2]. destruct (Hn x Hx), (Hn y Hy). f_equal; congruence. }
    rewrite elem_of_list_fmap. split.
    + intros (e & [= -> -> ->] & He). destruct (Hn e He). eauto.
    + intros (e & He & Ha & Hb & <-). exists e. split; [|done]. 
      by rewrite (bg_name_map einv _ a), (bg_name_map einv _ b).
Qed.

End thms.
