(** The graph refines the abstract store. *)
From stdpp Require Import prelude strings gmap.
From Verif Require Import ListLib Outcome Digraph Bfs TreeView GraphModel GraphOps GraphWf GraphStep
  SpecStore.

Section refine.
Context {D E : Type} (d0 : D) (einv : E -> E).
Local Notation gst := (gst D E).
Local Notation dg_wf := (dg_wf einv).
Implicit Types s : gst.
Implicit Types g : digraph D E.

(** Representation on the level of the boost graph *)
Record dgrepr (g : digraph D E) (st : store D E) : Prop := DgRepr {
  dr_frames : forall f d, st_frames st !! f = Some d <->
                exists r, r ∈ dg_verts g /\ v_name r = f /\ v_data r = d;
  dr_edges : forall a b p, st_edges st !! (a, b) = Some p <->
                exists e, e ∈ dg_edges g /\ dg_map g !! a = Some (e_src e) /\
                          dg_map g !! b = Some (e_tgt e) /\ e_prop e = p }.

Lemma dgrepr_known g st f : dg_wf g -> dgrepr g st ->
  known st f <-> is_Some (dg_map g !! f).
Proof.
  intros Hwf Hr. unfold known. split.
  - intros (d & (r & Hin & <- & _)%(dr_frames _ _ Hr)).
    exists (v_id r). apply (wf_map einv); eauto.
  - intros (v & (r & Hin & _ & <-)%(wf_map einv)); [|done].
    exists (v_data r). apply (dr_frames _ _ Hr). eauto.
Qed.

Lemma dgrepr_edge g st a b va vb : dg_wf g -> dgrepr g st ->
  dg_map g !! a = Some va -> dg_map g !! b = Some vb ->
  st_edges st !! (a, b) = e_prop <$> bg_edge g va vb.
Proof.
  intros Hwf Hr Ha Hb. destruct (bg_edge g va vb) as [e|] eqn:He; cbn.
  - apply (bg_edge_iff einv) in He as (He & <- & <-); [|done].
    apply (dr_edges _ _ Hr). eauto.
  - destruct (st_edges st !! (a, b)) as [p|] eqn:Hp; [|done].
    apply (dr_edges _ _ Hr) in Hp as (e & Hin & Ha' & Hb' & _).
    rewrite bg_edge_none in He. exfalso. apply (He e Hin). split; congruence.
Qed.

Lemma dgrepr_edge_known g st a b p : dg_wf g -> dgrepr g st ->
  st_edges st !! (a, b) = Some p -> is_Some (dg_map g !! a) /\ is_Some (dg_map g !! b).
Proof. intros Hwf Hr (e & _ & -> & -> & _)%(dr_edges _ _ Hr). eauto. Qed.

Lemma dgrepr_empty : dgrepr bg_empty store0.
Proof.
  split; cbn.
  - intros f d. rewrite lookup_empty. split; [done|]. by intros (r & ?%elem_of_nil & _).
  - intros a b p. rewrite lookup_empty. split; [done|]. by intros (r & ?%elem_of_nil & _).
Qed.

Lemma dgrepr_add_vertex g st f d : dg_wf g -> dgrepr g st -> dg_map g !! f = None ->
  dgrepr (fst (bg_add_vertex f d g)) (Store (<[f := d]> (st_frames st)) (st_edges st)).
Proof.
  intros Hwf Hr Hm. unfold bg_add_vertex. rewrite Hm. cbn.
  assert (Hfresh : forall r, r ∈ dg_verts g -> v_name r <> f).
  { intros r Hin Heq. assert (dg_map g !! v_name r = Some (v_id r)) as Hx.
    { apply (wf_map einv); eauto. } rewrite Heq in Hx. congruence. }
  split; cbn.
  - intros f' d'. rewrite lookup_insert_Some, (dr_frames _ _ Hr). split.
    + intros [[<- <-]|[Hne (r & Hin & ? & ?)]].
      * eexists. split; [apply elem_of_app; right; by apply elem_of_list_singleton|]. done.
      * exists r. split; [|done]. apply elem_of_app. by left.
    + intros (r & [Hin| ->%elem_of_list_singleton]%elem_of_app & <- & <-); [|by left].
      right. split; [|by eauto]. intros Heq. by apply (Hfresh r Hin).
  - intros a b p. rewrite (dr_edges _ _ Hr).
    assert (Hl : forall x e, e ∈ dg_edges g -> forall u, u = e_src e \/ u = e_tgt e ->
       <[f:=dg_nextv g]> (dg_map g) !! x = Some u <-> dg_map g !! x = Some u).
    { intros x e He u Hu. rewrite lookup_insert_Some. split; [|].
      - intros [[-> <-]|[_ ?]]; [|done]. exfalso.
        assert (Hin : dg_nextv g ∈ v_id <$> dg_verts g).
        { destruct Hu as [-> | ->]; [by apply (wf_src einv)|by apply (wf_tgt einv)]. }
        apply elem_of_list_fmap in Hin as (r & Heq & Hin).
        pose proof (wf_vbound einv g Hwf r Hin). lia.
      - intros Hx. right. split; [|done]. intros ->. congruence. }
    split; intros (e & He & Ha & Hb & Hp); exists e; (split; [done|]);
      (split; [|split; [|done]]); by apply (Hl _ e He); auto.
Qed.

Lemma dgrepr_add2 g st o t p fo ft : dg_wf g -> dgrepr g st ->
  dg_map g !! fo = Some o -> dg_map g !! ft = Some t -> o <> t -> bg_edge g o t = None ->
  dgrepr (dg_add2 einv o t p g)
    (Store (st_frames st) (<[(fo, ft) := p]> (<[(ft, fo) := einv p]> (st_edges st)))).
Proof.
  intros Hwf Hr Ho Ht Hot Hn.
  pose proof (wf_edge_sym einv g o t Hwf Hn) as Hn'. rewrite bg_edge_none in Hn, Hn'.
  assert (Hinj : forall x, dg_map g !! x = Some o -> x = fo) by (intros; by eapply (wf_map_inj einv)).
  assert (Hinjt : forall x, dg_map g !! x = Some t -> x = ft) by (intros; by eapply (wf_map_inj einv)).
  assert (Hff : fo <> ft) by congruence.
  split; cbn; [apply (dr_frames _ _ Hr)|].
  intros a b q. rewrite !lookup_insert_Some, (dr_edges _ _ Hr). rewrite <- app_assoc. cbn.
  split.
  - intros [[[= <- <-] <-]|[Hne [[[= <- <-] <-]|[Hne' (e & He & ? & ? & ?)]]]].
    + exists (ERec (dg_nexte g) o t p). split; [|done]. apply elem_of_app. right. set_solver.
    + exists (ERec (S (dg_nexte g)) t o (einv p)). split; [|done]. apply elem_of_app. right. set_solver.
    + exists e. split; [|done]. apply elem_of_app. by left.
  - intros (e & [He|He]%elem_of_app & Ha & Hb & <-).
    + right. split; [|right; split; [|by eauto]].
      * intros [= <- <-]. apply (Hn e He). split; congruence.
      * intros [= <- <-]. apply (Hn' e He). split; congruence.
    + apply elem_of_cons in He as [->| ->%elem_of_list_singleton]; cbn in *.
      * apply Hinj in Ha as ->. apply Hinjt in Hb as ->. by left.
      * apply Hinj in Hb as ->. apply Hinjt in Ha as ->. right. split; [congruence|]. by left.
Qed.

Lemma dgrepr_rem2 g st o t e1 e2 fo ft : dg_wf g -> dgrepr g st ->
  dg_map g !! fo = Some o -> dg_map g !! ft = Some t ->
  bg_edge g o t = Some e1 -> bg_edge g t o = Some e2 ->
  dgrepr (dg_rem2 (e_id e1) (e_id e2) g)
    (Store (st_frames st) (delete (fo, ft) (delete (ft, fo) (st_edges st)))).
Proof.
  intros Hwf Hr Ho Ht (He1 & Hs1 & Ht1)%(bg_edge_iff einv) (He2 & Hs2 & Ht2)%(bg_edge_iff einv); try done.
  split; cbn; [apply (dr_frames _ _ Hr)|].
  intros a b q. rewrite !lookup_delete_Some, (dr_edges _ _ Hr). split.
  - intros (Hn1 & Hn2 & (e & He & Ha & Hb & Hq)). exists e. split; [|done].
    apply elem_of_list_filter. split; [|done]. split; intros Heq.
    + assert (e = e1) as -> by (eapply (NoDup_fmap_inj e_id); eauto using (wf_eid einv)).
      apply Hn1. f_equal; eapply (wf_map_inj einv); try done; congruence.
    + assert (e = e2) as -> by (eapply (NoDup_fmap_inj e_id); eauto using (wf_eid einv)).
      apply Hn2. f_equal; eapply (wf_map_inj einv); try done; congruence.
  - intros (e & [[Hi1 Hi2] He]%elem_of_list_filter & Ha & Hb & Hq).
    split; [|split; [|by eauto]].
    + intros [= <- <-]. apply Hi1. f_equal.
      eapply (NoDup_fmap_inj (fun e => (e_src e, e_tgt e))); eauto using (wf_pair einv).
      cbn. f_equal; congruence.
    + intros [= <- <-]. apply Hi2. f_equal.
      eapply (NoDup_fmap_inj (fun e => (e_src e, e_tgt e))); eauto using (wf_pair einv).
      cbn. f_equal; congruence.
Qed.

Lemma elem_of_set2 g o t p e1 e2 : dg_wf g ->
  bg_edge g o t = Some e1 -> bg_edge g t o = Some e2 ->
  forall e, e ∈ dg_edges (bg_set_prop (e_id e2) (einv p) (bg_set_prop (e_id e1) p g)) <->
    e = ERec (e_id e1) o t p \/ e = ERec (e_id e2) t o (einv p) \/
    (e ∈ dg_edges g /\ e_id e <> e_id e1 /\ e_id e <> e_id e2).
Proof.
  intros Hwf (H1 & Hs1 & Ht1)%(bg_edge_iff einv) (H2 & Hs2 & Ht2)%(bg_edge_iff einv); try done.
  assert (Hne : e_id e1 <> e_id e2).
  { intros Heq. assert (e1 = e2) as -> by (eapply (NoDup_fmap_inj e_id); eauto using (wf_eid einv)).
    apply (wf_noself einv g Hwf e2 H2). congruence. }
  intros e. rewrite elem_of_set_prop. setoid_rewrite elem_of_set_prop. split.
  - intros [(e0 & [(e3 & He3 & ? & ->)|[He0 ?]] & ? & ->)|[[(e3 & He3 & Hi & ->)|[He0 ?]] ?]].
    + done.
    + right; left. assert (e0 = e2) as -> by (eapply (NoDup_fmap_inj e_id); eauto using (wf_eid einv)).
      congruence.
    + left. assert (e3 = e1) as -> by (eapply (NoDup_fmap_inj e_id); eauto using (wf_eid einv)).
      congruence.
    + auto.
  - intros [->|[->|(He & ? & ?)]].
    + right. split; [|done]. left. exists e1. subst. done.
    + left. exists e2. split; [|split; [done|congruence]]. right. split; [done|congruence].
    + right. split; [|done]. by right.
Qed.

Lemma dgrepr_set2 g st o t p e1 e2 fo ft : dg_wf g -> dgrepr g st ->
  dg_map g !! fo = Some o -> dg_map g !! ft = Some t ->
  bg_edge g o t = Some e1 -> bg_edge g t o = Some e2 ->
  dgrepr (bg_set_prop (e_id e2) (einv p) (bg_set_prop (e_id e1) p g))
    (Store (st_frames st) (<[(fo, ft) := p]> (<[(ft, fo) := einv p]> (st_edges st)))).
Proof.
  intros Hwf Hr Ho Ht H1 H2.
  pose proof (elem_of_set2 g o t p e1 e2 Hwf H1 H2) as Hin.
  apply (bg_edge_iff einv) in H1 as (He1 & Hs1 & Ht1); [|done].
  apply (bg_edge_iff einv) in H2 as (He2 & Hs2 & Ht2); [|done].
  assert (Hinj : forall x, dg_map g !! x = Some o -> x = fo) by (intros; by eapply (wf_map_inj einv)).
  assert (Hinjt : forall x, dg_map g !! x = Some t -> x = ft) by (intros; by eapply (wf_map_inj einv)).
  assert (Hff : fo <> ft).
  { intros ->. apply (wf_noself einv g Hwf e1 He1). congruence. }
  split; [apply (dr_frames _ _ Hr)|].
  intros a b q. cbn [st_edges dg_map bg_set_prop]. setoid_rewrite Hin.
  rewrite !lookup_insert_Some, (dr_edges _ _ Hr). split.
  - intros [[[= <- <-] <-]|[Hne [[[= <- <-] <-]|[Hne' (e & He & ? & ? & ?)]]]].
    + exists (ERec (e_id e1) o t p). auto.
    + exists (ERec (e_id e2) t o (einv p)). auto.
    + exists e. split; [|done]. right; right. split; [done|]. split; intros Heq.
      * assert (e = e1) as -> by (eapply (NoDup_fmap_inj e_id); eauto using (wf_eid einv)).
        apply Hne. f_equal; eapply (wf_map_inj einv); try done; congruence.
      * assert (e = e2) as -> by (eapply (NoDup_fmap_inj e_id); eauto using (wf_eid einv)).
        apply Hne'. f_equal; eapply (wf_map_inj einv); try done; congruence.
  - intros (e & [->|[->|(He & Hi1 & Hi2)]] & Ha & Hb & <-); cbn in *.
    + apply Hinj in Ha as ->. apply Hinjt in Hb as ->. by left.
    + apply Hinj in Hb as ->. apply Hinjt in Ha as ->. right. split; [congruence|]. by left.
    + right. split; [|right; split; [|by eauto]].
      * intros [= <- <-]. apply Hi1. f_equal.
        eapply (NoDup_fmap_inj (fun e => (e_src e, e_tgt e))); eauto using (wf_pair einv).
        cbn. f_equal; congruence.
      * intros [= <- <-]. apply Hi2. f_equal.
        eapply (NoDup_fmap_inj (fun e => (e_src e, e_tgt e))); eauto using (wf_pair einv).
        cbn. f_equal; congruence.
Qed.

Lemma dgrepr_remove_vertex g st v f : dg_wf g -> dgrepr g st ->
  dg_map g !! f = Some v -> bg_degree g v = 0 ->
  dgrepr (bg_remove_vertex v f g) (Store (delete f (st_frames st)) (st_edges st)).
Proof.
  intros Hwf Hr Hm Hd. pose proof (wf_degree0 g v Hd) as Hfree.
  destruct (proj1 (wf_map einv g Hwf f v) Hm) as (r & Hin & Hrv & Hrf).
  split; cbn.
  - intros f' d. rewrite lookup_delete_Some, (dr_frames _ _ Hr). split.
    + intros [Hne (r' & Hin' & <- & Hd')]. exists r'. split; [|done].
      apply elem_of_list_filter. split; [|done]. intros Heq. apply Hne.
      assert (r' = r) as ->; [|done].
      eapply (NoDup_fmap_inj v_id); eauto using (wf_vid einv). congruence.
    + intros (r' & [Hne Hin']%elem_of_list_filter & <- & <-). split; [|by eauto].
      intros Heq. apply Hne. assert (r' = r) as ->; [|done].
      eapply (NoDup_fmap_inj v_name); eauto using (wf_vname einv). congruence.
  - intros a b p. rewrite (dr_edges _ _ Hr).
    split; intros (e & He & Ha & Hb & Hp); exists e; (split; [done|]).
    + rewrite !lookup_delete_ne; [done|..].
      * intros ->. destruct (Hfree e He). congruence.
      * intros ->. destruct (Hfree e He). congruence.
    + apply lookup_delete_Some in Ha as [_ Ha]. apply lookup_delete_Some in Hb as [_ Hb]. done.
Qed.

(** Closed forms when no tree view is subscribed *)

Lemma add_edge_v_gen o t p s fo ft : dg_wf (gs_dg s) ->
  dg_map (gs_dg s) !! fo = Some o -> dg_map (gs_dg s) !! ft = Some t ->
  o <> t -> bg_edge (gs_dg s) o t = None ->
  exists s' r,
    add_edge_to_tree_views (ERec (dg_nexte (gs_dg s)) o t p)
      (gs_set_dg (dg_add2 einv o t p (gs_dg s)) s) = (s', [], r) /\
    gs_dg s' = dg_add2 einv o t p (gs_dg s) /\ gs_subs s' = gs_subs s /\
    (forall x, r <> Throw x) /\
    add_edge_v einv o t p s =
      (s', match r with Ret _ => [EvEdgeAdded fo ft (dg_nexte (gs_dg s))] | _ => [] end, r).
Proof.
  intros Hwf Hfo Hft Hot He. unfold add_edge_v.
  assert (Ho : bg_alive (gs_dg s) o = true) by by eapply wf_map_alive.
  assert (Ht : bg_alive (gs_dg s) t = true) by by eapply wf_map_alive.
  set (s1 := gs_set_dg (dg_add2 einv o t p (gs_dg s)) s).
  assert (Hwf1 : dg_wf (gs_dg s1)) by by apply wf_add2.
  destruct (add_edge_to_tree_views _ s1) as [[s2 ev2] r2] eqn:Hv.
  pose proof Hv as Hfr. unfold add_edge_to_tree_views in Hfr.
  apply for_views_frame in Hfr as (Hdg & Hsubs & ->).
  assert (Hnt : forall x, r2 <> Throw x).
  { intros x ->. unfold add_edge_to_tree_views in Hv. revert Hv.
    apply for_views_nothrow. intros i w w'. apply (add_edge_to_tree_view_nothrow einv); [done|].
    unfold s1, dg_add2; cbn. apply elem_of_app; left. apply elem_of_app; right.
    by apply elem_of_list_singleton. }
  exists s2, r2. split; [done|]. split; [by rewrite Hdg|]. split; [by rewrite Hsubs|].
  split; [done|].
  erewrite cbind_read_ret; [|by apply find_edge_alive]. rewrite He.
  erewrite cbind_read_ret by by rewrite Ht.
  erewrite cbind_ret by by cbn. rewrite cbind_modify.
  change (gs_set_dg (fst (bg_add_edge t o (einv p) _)) _) with s1.
  destruct r2 as [[]|x| |].
  - erewrite cbind_ret by exact Hv.
    assert (Hwf2 : dg_wf (gs_dg s2)) by by rewrite Hdg.
    assert (Hm2 : dg_map (gs_dg s2) = dg_map (gs_dg s)) by by rewrite Hdg.
    erewrite cbind_read_ret by (apply (get_frame_id_some einv); [done|]; rewrite Hm2; done).
    erewrite cbind_read_ret by (apply (get_frame_id_some einv); [done|]; rewrite Hm2; done).
    done.
  - by destruct (Hnt x).
  - unfold cbind at 1. change (dg_nexte (gs_dg s)) with (dg_nexte (gs_dg s)) in Hv. by rewrite Hv.
  - unfold cbind at 1. by rewrite Hv.
Qed.

Lemma add_edge_v_eq o t p s fo ft : dg_wf (gs_dg s) -> gs_subs s = [] ->
  dg_map (gs_dg s) !! fo = Some o -> dg_map (gs_dg s) !! ft = Some t ->
  o <> t -> bg_edge (gs_dg s) o t = None ->
  add_edge_v einv o t p s =
  (gs_set_dg (dg_add2 einv o t p (gs_dg s)) s, [EvEdgeAdded fo ft (dg_nexte (gs_dg s))], Ret tt).
Proof.
  intros Hwf Hsub Hfo Hft Hot He.
  destruct (add_edge_v_gen o t p s fo ft) as (s' & r & Hv & _ & _ & _ & ->); try done.
  unfold add_edge_to_tree_views in Hv. cbn [gs_subs gs_set_dg] in Hv. rewrite Hsub in Hv.
  injection Hv as <- <-. done.
Qed.

Lemma add_edge_v_throw o t p s fo ft e : dg_wf (gs_dg s) ->
  dg_map (gs_dg s) !! fo = Some o -> dg_map (gs_dg s) !! ft = Some t ->
  bg_edge (gs_dg s) o t = Some e ->
  add_edge_v einv o t p s = (s, [], Throw (XEdgeAlreadyExists fo ft)).
Proof.
  intros Hwf Hfo Hft He. unfold add_edge_v.
  erewrite cbind_read_ret; [|apply find_edge_alive; by eapply wf_map_alive]. rewrite He.
  erewrite cbind_read_ret by by apply (get_frame_id_some einv).
  erewrite cbind_read_ret by by apply (get_frame_id_some einv). done.
Qed.

Lemma remove_edge_impl_nosub ord fo ft o t e1 e2 s : dg_wf (gs_dg s) -> gs_subs s = [] ->
  bg_edge (gs_dg s) o t = Some e1 -> bg_edge (gs_dg s) t o = Some e2 ->
  remove_edge_impl ord fo ft o t s =
  (gs_set_dg (dg_rem2 (e_id e1) (e_id e2) (gs_dg s)) s, [EvEdgeRemoved fo ft], Ret tt).
Proof.
  intros Hwf Hsub H1 H2. rewrite (remove_edge_impl_eq einv ord fo ft o t e1 e2) by done.
  unfold remove_edge_from_tree_views. cbn [gs_subs gs_set_dg]. by rewrite Hsub.
Qed.

(** disconnectFrame *)

Lemma bg_out_rem2 g o t e1 e2 v : dg_wf g ->
  bg_edge g o t = Some e1 -> bg_edge g t o = Some e2 -> v = o ->
  bg_out (dg_rem2 (e_id e1) (e_id e2) g) v = filter (fun e => e_id e <> e_id e1) (bg_out g v).
Proof.
  intros Hwf (H1 & Hs1 & Ht1)%(bg_edge_iff einv) (H2 & Hs2 & Ht2)%(bg_edge_iff einv) ->; try done.
  unfold bg_out, dg_rem2; cbn. rewrite !filter_filter.
  apply list_filter_iff'. intros e He. split; [naive_solver|].
  intros [Hs Hi]. split; [|done]. split; [done|]. intros Heq.
  assert (e = e2) as -> by (eapply (NoDup_fmap_inj e_id); eauto using (wf_eid einv)).
  apply (wf_noself einv g Hwf e2 H2). congruence.
Qed.

Lemma disconnect_loop_nosub n ord f v s : dg_wf (gs_dg s) -> gs_subs s = [] ->
  dg_map (gs_dg s) !! f = Some v -> length (bg_out (gs_dg s) v) <= n ->
  exists s', disconnect_loop n ord v s =
    (s', (fun e => EvEdgeRemoved f (bg_name (gs_dg s) (e_tgt e))) <$> bg_out (gs_dg s) v, Ret tt) /\
    dg_wf (gs_dg s') /\ gs_subs s' = [] /\ gs_views s' = gs_views s /\
    dg_verts (gs_dg s') = dg_verts (gs_dg s) /\ dg_map (gs_dg s') = dg_map (gs_dg s) /\
    dg_nextv (gs_dg s') = dg_nextv (gs_dg s) /\ dg_maxvi (gs_dg s') = dg_maxvi (gs_dg s) /\
    dg_nexte (gs_dg s') = dg_nexte (gs_dg s) /\
    dg_edges (gs_dg s') = filter (fun e => e_src e <> v /\ e_tgt e <> v) (dg_edges (gs_dg s)).
Proof.
  revert s. induction n as [|n IH]; intros s Hwf Hsub Hm Hlen; cbn [disconnect_loop].
  - destruct (bg_out (gs_dg s) v) as [|e l] eqn:Hout; [|cbn in Hlen; lia].
    exists s. split; [done|]. repeat (split; [done|]). symmetry. apply filter_all.
    intros e He. split.
    + intros Hs. assert (Hx : e ∈ bg_out (gs_dg s) v) by by apply elem_of_list_filter.
      rewrite Hout in Hx. by apply elem_of_nil in Hx.
    + intros Ht. destruct (wf_inv einv _ Hwf e He) as (e' & He' & Hs' & _).
      assert (Hx : e' ∈ bg_out (gs_dg s) v) by (apply elem_of_list_filter; split; congruence).
      rewrite Hout in Hx. by apply elem_of_nil in Hx.
  - destruct (bg_out (gs_dg s) v) as [|e l] eqn:Hout.
    { exists s. split; [done|]. repeat (split; [done|]). symmetry. apply filter_all.
      intros e He. split.
      + intros Hs. assert (Hx : e ∈ bg_out (gs_dg s) v) by by apply elem_of_list_filter.
        rewrite Hout in Hx. by apply elem_of_nil in Hx.
      + intros Ht. destruct (wf_inv einv _ Hwf e He) as (e' & He' & Hs' & _).
        assert (Hx : e' ∈ bg_out (gs_dg s) v) by (apply elem_of_list_filter; split; congruence).
        rewrite Hout in Hx. by apply elem_of_nil in Hx. }
    assert (He : e ∈ bg_out (gs_dg s) v) by (rewrite Hout; set_solver).
    apply elem_of_list_filter in He as [Hsrc He].
    assert (He1 : bg_edge (gs_dg s) v (e_tgt e) = Some e) by by apply (bg_edge_iff einv).
    destruct (edge_rev einv _ _ _ _ Hwf He1) as [e2 He2].
    assert (Hta : bg_alive (gs_dg s) (e_tgt e) = true) by by eapply wf_tgt_alive.
    destruct (wf_alive_map einv _ _ Hwf Hta) as (ft & Hft & Hname).
    assert (Hbn : bg_name (gs_dg s) (e_tgt e) = ft).
    { unfold bg_name. by rewrite Hname. }
    assert (Hrem : remove_edge_v ord v (e_tgt e) s =
      (gs_set_dg (dg_rem2 (e_id e) (e_id e2) (gs_dg s)) s, [EvEdgeRemoved f ft], Ret tt)).
    { unfold remove_edge_v.
      erewrite cbind_read_ret by by apply (get_frame_id_some einv).
      erewrite cbind_read_ret by by apply (get_frame_id_some einv).
      by apply remove_edge_impl_nosub. }
    erewrite cbind_ret by exact Hrem.
    set (s1 := gs_set_dg _ s).
    assert (Hwf1 : dg_wf (gs_dg s1)) by by eapply wf_rem2.
    assert (Hout1 : bg_out (gs_dg s1) v = l).
    { unfold s1. cbn [gs_dg gs_set_dg]. rewrite (bg_out_rem2 (gs_dg s) v (e_tgt e) e e2) by done.
      rewrite Hout, filter_cons_False by naive_solver. apply filter_all.
      intros x Hx Heq. assert (Hnd : NoDup (e_id <$> bg_out (gs_dg s) v)).
      { apply NoDup_fmap_filter, (wf_eid einv), Hwf. }
      rewrite Hout in Hnd. apply NoDup_cons in Hnd as [Hnd _]. apply Hnd.
      rewrite <- Heq. by apply elem_of_list_fmap_1. }
    destruct (IH s1) as (s' & Hd & H1 & H2 & H3 & H4 & H5 & H6 & H7 & H8 & H9); try done.
    { rewrite Hout1. cbn in Hlen. lia. }
    exists s'. rewrite Hd. split.
    { rewrite Hout1. cbn. rewrite Hbn. done. }
    repeat (split; [done|]). rewrite H9. cbn. rewrite filter_filter.
    apply list_filter_iff'. intros x Hx. split; [naive_solver|].
    intros [Hsx Htx]. split; [|done]. split; intros Heq.
    + pose proof (NoDup_fmap_inj e_id _ x e (wf_eid einv _ Hwf) Hx He Heq) as ->. done.
    + apply (bg_edge_iff einv) in He2 as (Hin2 & Hs2 & Ht2); [|done].
      pose proof (NoDup_fmap_inj e_id _ x e2 (wf_eid einv _ Hwf) Hx Hin2 Heq) as ->. done.
Qed.

Lemma disconnect_frame_nosub ord f v s : dg_wf (gs_dg s) -> gs_subs s = [] ->
  dg_map (gs_dg s) !! f = Some v ->
  exists s', disconnect_frame ord f s =
    (s', (fun e => EvEdgeRemoved f (bg_name (gs_dg s) (e_tgt e))) <$> bg_out (gs_dg s) v, Ret tt) /\
    dg_wf (gs_dg s') /\ gs_subs s' = [] /\ gs_views s' = gs_views s /\
    dg_verts (gs_dg s') = dg_verts (gs_dg s) /\ dg_map (gs_dg s') = dg_map (gs_dg s) /\
    dg_nextv (gs_dg s') = dg_nextv (gs_dg s) /\ dg_maxvi (gs_dg s') = dg_maxvi (gs_dg s) /\
    dg_nexte (gs_dg s') = dg_nexte (gs_dg s) /\
    dg_edges (gs_dg s') = filter (fun e => e_src e <> v /\ e_tgt e <> v) (dg_edges (gs_dg s)).
Proof.
  intros Hwf Hsub Hm. unfold disconnect_frame.
  erewrite cbind_read_ret by by apply (get_vertex_some einv).
  apply disconnect_loop_nosub; try done. apply filter_length.
Qed.

End refine.
