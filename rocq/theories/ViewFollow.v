(** getTree establishes, and additions preserve, that a view is in step with the graph (C16-C18). *)
From stdpp Require Import prelude strings gmap.
From Verif Require Import ListLib Outcome Digraph Bfs TreeView GraphModel GraphOps GraphWf GraphStep
  SpecObs SpecView GraphStore GraphRefine GraphThms SpecWalk WalkThms BfsThms BfsFind SpecTree BuildThms SyncThms
  SpecSearch GraphSearch ViewStep ViewSync ViewRun.

Section follow.
Context {D E : Type} (d0 : D) (einv : E -> E).
Local Notation dg_wf := (dg_wf einv).
Local Notation lstep := (lstep einv).
Local Notation vstep := (vstep einv).
Local Notation vsteps := (vsteps einv).
Implicit Types (s : gst D E) (g : digraph D E) (w : tview).

Definition ends (e : erec E) := (e_id e, e_src e, e_tgt e).

Lemma in_sync_ext g g' w : (ends <$> dg_edges g') = (ends <$> dg_edges g) ->
  bg_alive g' (tv_root w) = true -> in_sync g w -> in_sync g' w.
Proof.
  intros Hends Hal Hs.
  assert (Hin : forall i u v, (exists e, e ∈ dg_edges g' /\ e_src e = u /\ e_tgt e = v /\ e_id e = i) <->
                              (exists e, e ∈ dg_edges g /\ e_src e = u /\ e_tgt e = v /\ e_id e = i)).
  { intros i u v. assert (Hx : forall h : digraph D E, (exists e, e ∈ dg_edges h /\ e_src e = u /\ e_tgt e = v /\ e_id e = i) <->
      (i, u, v) ∈ ends <$> dg_edges h).
    { intros h. rewrite elem_of_list_fmap. unfold ends. split.
      - intros (e & He & <- & <- & <-). by exists e.
      - intros (e & [= -> -> ->] & He). by exists e. }
    rewrite !Hx. by rewrite Hends. }
  assert (Hadj : forall u v, adjacent g' u v <-> adjacent g u v).
  { intros u v. unfold adjacent. split; intros (e & He & Hu & Hv).
    - destruct (proj1 (Hin (e_id e) u v)) as (e' & ? & ? & ? & _); [by exists e|by exists e'].
    - destruct (proj2 (Hin (e_id e) u v)) as (e' & ? & ? & ? & _); [by exists e|by exists e']. }
  destruct Hs as [H1 H2 H3 H4 H5 H6]. split.
  - done.
  - done.
  - intros v. rewrite H3. split; apply linked_mono; intros x y; apply Hadj.
  - intros p c Hc. by apply Hadj, H4.
  - intros c Hc. destruct (H5 c Hc) as [Ho He]. split; [done|]. by apply Hin.
  - intros u v Huv. by apply H6, Hadj.
Qed.

Lemma set_prop_ends i p g : ends <$> dg_edges (bg_set_prop i p g) = ends <$> dg_edges g.
Proof.
  unfold bg_set_prop. cbn. rewrite <- list_fmap_compose. apply list_fmap_ext. intros ? e _. cbn.
  by destruct (e_id e =? i).
Qed.

Lemma keep_sync g ev g' w : dg_wf g -> lstep g ev g' -> keep_ev ev -> in_sync g w ->
  (forall f, ev = [EvFrameRemoved f] -> dg_map g !! f <> Some (tv_root w)) ->
  in_sync g' w /\ forall f, dg_map g !! f = Some (tv_root w) -> dg_map g' !! f = Some (tv_root w).
Proof.
  intros Hwf Hl Hk Hs Hroot. pose proof (sy_alive _ _ Hs) as Hal. destruct Hl; cbn in Hk; try done.
  - unfold bg_add_vertex. rewrite H. cbn. split.
    + apply (in_sync_ext g); [done| |done]. apply bg_alive_iff. apply bg_alive_iff in Hal. cbn.
      rewrite fmap_app. apply elem_of_app. auto.
    + intros f' Hf'. rewrite lookup_insert_ne; [done|]. congruence.
  - split; [|done]. apply (in_sync_ext g); [|done|done]. by rewrite !set_prop_ends.
  - specialize (Hroot f eq_refl). split.
    + apply (in_sync_ext g); [done| |done]. apply bg_alive_iff. apply bg_alive_iff in Hal. cbn.
      apply elem_of_list_fmap in Hal as (r & Hr & Hin). apply elem_of_list_fmap. exists r. split; [done|].
      apply elem_of_list_filter. split; [|done]. intros <-. congruence.
    + intros f' Hf'. cbn. rewrite lookup_delete_ne; [done|]. congruence.
  - split; [|done]. apply (in_sync_ext g); [done| |done]. apply bg_alive_iff. apply bg_alive_iff in Hal. cbn.
    rewrite <- list_fmap_compose. apply elem_of_list_fmap in Hal as (r & Hr & Hin). apply elem_of_list_fmap.
    exists r. split; [|done]. cbn. by destruct (v_id r =? v).
Qed.

Lemma growing_app rf ev1 ev2 : growing rf (ev1 ++ ev2) -> growing rf ev1 /\ growing rf ev2.
Proof.
  intros [H1 H2]. split; (split; [intros H; apply H1, elem_of_app; auto|intros o t H; eapply (H2 o t), elem_of_app; auto]).
Qed.

Lemma vstep_sync (x y : digraph D E * tview) ev rf : vstep x ev y -> dg_wf (fst x) -> growing rf ev -> in_sync (fst x) (snd x) ->
  dg_map (fst x) !! rf = Some (tv_root (snd x)) ->
  in_sync (fst y) (snd y) /\ dg_map (fst y) !! rf = Some (tv_root (snd y)).
Proof.
  intros Hv Hwf [Hg1 Hg2] Hs Hr. destruct Hv as [g ev g' w Hl Hk|g fo ft o t p s1 w w' Hfo Hft Hot He Hs1 Hadd| |]; cbn in *.
  - destruct (keep_sync g ev g' w) as [H1 H2]; try done.
    { intros f -> Hf. assert (f = rf) as -> by by eapply (wf_map_inj einv g). apply Hg1. by left. }
    auto.
  - destruct (add_edge_sync einv s1 g o t p w) as (w1 & Hw1 & Hs2 & Hr2 & _); try done; eauto using wf_map_alive.
    rewrite Hw1 in Hadd. injection Hadd as <-. split; [done|]. by rewrite Hr2.
  - exfalso. eapply (Hg2 fo ft). by left.
  - exfalso. eapply (Hg2 fo ft). by left.
Qed.

Lemma vsteps_sync (x y : digraph D E * tview) ev rf : vsteps x ev y -> dg_wf (fst x) -> growing rf ev -> in_sync (fst x) (snd x) ->
  dg_map (fst x) !! rf = Some (tv_root (snd x)) ->
  in_sync (fst y) (snd y) /\ dg_map (fst y) !! rf = Some (tv_root (snd y)).
Proof.
  induction 1 as [|x ev1 y ev2 z H1 H2 IH|g w k on c ev z H IH]; [done| |].
  2:{ cbn in *. intros Hwf Hg Hs Hr. apply IH; [done|done| |by destruct k]. destruct k, Hs as [[] ?]; (split; [split|..]; done). }
  intros Hwf [Hg1 Hg2]%growing_app Hs Hr.
  destruct (vstep_sync x y ev1 rf) as [Hs1 Hr1]; try done.
  apply IH; try done. eapply lstep_wf; [done|]. by eapply vstep_lstep.
Qed.

(** Building the view. *)
Lemma get_tree_v_ok s root keep i w : dg_wf (gs_dg s) -> bg_alive (gs_dg s) root = true ->
  gs_views s !! i = Some w -> tv_tree w = ∅ -> tv_cross w = [] -> (keep = true -> tv_pub w = false) ->
  exists s' w', get_tree_v root keep i s = (s', [], Ret tt) /\ gs_dg s' = gs_dg s /\
    gs_subs s' = gs_subs s ++ (if keep then [i] else []) /\
    gs_views s' !! i = Some w' /\ (forall j, j <> i -> gs_views s' !! j = gs_views s !! j) /\
    in_sync (gs_dg s) w' /\ tv_root w' = root /\ tv_pub w' = keep || tv_pub w /\
    forall v, tv_vertex_exists w' v = true ->
      exists l, route (child w') root v l /\ shortest (adjacent (gs_dg s)) root v l.
Proof.
  intros Hwf Hal Hw Ht Hc Hp. unfold get_tree_v. rewrite Hw.
  destruct (get_tree_sync einv s root w Hwf Hal Ht Hc) as (w' & Hg & Hs & Hr & Hpub & Hdist). rewrite Hg.
  destruct keep.
  - unfold subscribe_tree_view. cbn. rewrite lookup_insert, Hpub, (Hp eq_refl).
    eexists _, (tv_set_pub true w'). split; [done|]. split; [done|]. split; [done|]. cbn. rewrite lookup_insert.
    split; [done|]. split.
    { intros j Hj. by rewrite !lookup_insert_ne by done. }
    split; [by destruct Hs as [[] ?]|]. done.
  - eexists _, w'. split; [done|]. split; [done|]. cbn. rewrite app_nil_r, lookup_insert. split; [done|]. split; [done|].
    split; [|done]. intros j Hj. by rewrite lookup_insert_ne.
Qed.

Lemma get_tree_ok s rf root keep i w : dg_wf (gs_dg s) -> dg_map (gs_dg s) !! rf = Some root ->
  gs_views s !! i = Some w -> tv_tree w = ∅ -> tv_cross w = [] -> (keep = true -> tv_pub w = false) ->
  exists s' w', get_tree rf keep i s = (s', [], Ret tt) /\ gs_dg s' = gs_dg s /\
    gs_subs s' = gs_subs s ++ (if keep then [i] else []) /\
    gs_views s' !! i = Some w' /\ (forall j, j <> i -> gs_views s' !! j = gs_views s !! j) /\
    in_sync (gs_dg s) w' /\ tv_root w' = root /\ tv_pub w' = keep || tv_pub w /\
    forall v, tv_vertex_exists w' v = true ->
      exists l, route (child w') root v l /\ shortest (adjacent (gs_dg s)) root v l.
Proof.
  intros Hwf Hr Hw Ht Hc Hp. unfold get_tree. erewrite cbind_read_ret by by apply (get_vertex_some einv).
  apply get_tree_v_ok; eauto using wf_map_alive.
Qed.

Lemma view_follows s rf i w h s1 s2 ev r :
  reachable d0 einv s -> contains_frame s rf = true ->
  gs_views s !! i = Some w -> tv_tree w = ∅ -> tv_cross w = [] -> tv_pub w = false ->
  get_tree rf true i s = (s1, [], Ret tt) ->
  hist_noself h -> Forall (fun x => op_not i (snd x)) h ->
  run d0 einv h s1 = (s2, ev, r) -> ok r -> growing rf ev ->
  exists w', gs_views s2 !! i = Some w' /\ in_sync (gs_dg s2) w' /\ get_vertex s2 rf = Ret (tv_root w').
Proof.
  intros Hre Hcf Hw Ht Hc Hp Hg Hns Hnot Hrun Hok Hgr.
  pose proof (reachable_wf d0 einv s Hre) as Hwf.
  assert (Hm : exists root, dg_map (gs_dg s) !! rf = Some root).
  { rewrite (contains_frame_map einv) in Hcf by done. apply bool_decide_eq_true in Hcf as [root Hroot]. eauto. }
  destruct Hm as [root Hm].
  destruct (get_tree_ok s rf root true i w) as (s1' & w1 & Hg' & Hdg & Hsubs & Hw1 & _ & Hs1 & Hr1 & _); try done.
  rewrite Hg in Hg'. injection Hg' as <-.
  assert (Hso : subs_ok s1).
  { eapply (subs_ok_gstep d0 einv (fun _ _ _ l => l) (OGetTree rf true i) s); [by eapply reachable_subs_ok|exact Hg|done]. }
  destruct (run_vsteps d0 einv i h s1 s2 ev r w1) as (w2 & (_ & _ & Hw2) & Hv); try done.
  { by rewrite Hdg. }
  { split; [apply Hso|]. split; [rewrite Hsubs; apply elem_of_app; right; by left|done]. }
  apply (vsteps_sync _ _ _ rf) in Hv as [H1 H2]; cbn in *; try done.
  - exists w2. split; [done|]. split; [done|]. apply (get_vertex_some einv); [|done].
    eapply lsteps_wf; [|eapply run_lsteps; [|done..]]; by rewrite Hdg.
  - by rewrite Hdg.
  - by rewrite Hdg.
  - rewrite Hdg. by subst root.
Qed.

(** *** The statements for P_Search.v *)

Lemma get_tree_prop s rf root keep i w :
  reachable d0 einv s -> get_vertex s rf = Ret root ->
  gs_views s !! i = Some w -> tv_tree w = ∅ -> tv_cross w = [] -> (keep = true -> tv_pub w = false) ->
  exists s' w', get_tree rf keep i s = (s', [], Ret tt) /\ gs_views s' !! i = Some w' /\ tv_root w' = root /\
    gs_dg s' = gs_dg s /\ gs_subs s' = gs_subs s ++ (if keep then [i] else []) /\
    (forall v, tv_vertex_exists w' v = true <-> linked (adjacent (gs_dg s)) root v) /\
    tv_get_parent w' root = Ret null_vertex /\
    (forall v, tv_vertex_exists w' v = true -> v <> root ->
       exists p, tv_get_parent w' v = Ret p /\ child w' p v /\ adjacent (gs_dg s) p v /\
                 forall q, child w' q v -> q = p) /\
    (forall v, tv_vertex_exists w' v = true ->
       exists l, route (child w') root v l /\ shortest (adjacent (gs_dg s)) root v l).
Proof.
  intros Hre Hv Hw Ht Hc Hp. pose proof (reachable_wf d0 einv s Hre) as Hwf.
  apply get_vertex_inv in Hv.
  destruct (get_tree_ok s rf root keep i w) as (s' & w' & H1 & H2 & H3 & H4 & _ & H5 & H6 & _ & H7); try done.
  exists s', w'. pose proof (sy_tree _ _ H5) as Hit. subst root.
  repeat (split; [done|]). split; [apply (sy_span _ _ H5)|]. split; [apply (it_root _ Hit)|]. split; [|done].
  intros v Hv' Hne. destruct (it_parent _ Hit v Hv' Hne) as (p & Hgp & Hch). exists p.
  split; [done|]. split; [done|]. split; [by apply (sy_edge _ _ H5)|].
  intros q [_ Hq]%(it_child _ Hit). congruence.
Qed.

Lemma get_tree_once s rf root keep i w :
  reachable d0 einv s -> get_vertex s rf = Ret root ->
  gs_views s !! i = Some w -> tv_tree w = ∅ -> tv_cross w = [] -> (keep = true -> tv_pub w = false) ->
  exists s' w', get_tree rf keep i s = (s', [], Ret tt) /\ gs_views s' !! i = Some w' /\
    (forall u v, adjacent (gs_dg s) u v -> linked (adjacent (gs_dg s)) root u ->
      ((child w' u v \/ child w' v u) /\ filter (between u v) (tv_cross w') = []) \/
      (~ (child w' u v \/ child w' v u) /\ length (filter (between u v) (tv_cross w')) = 1)) /\
    (forall c, c ∈ tv_cross w' -> exists e, e ∈ dg_edges (gs_dg s) /\
       e_src e = ce_origin c /\ e_tgt e = ce_target c /\ e_id e = ce_edge c).
Proof.
  intros Hre Hv Hw Ht Hc Hp. pose proof (reachable_wf d0 einv s Hre) as Hwf.
  apply get_vertex_inv in Hv.
  destruct (get_tree_ok s rf root keep i w) as (s' & w' & H1 & H2 & H3 & H4 & _ & H5 & H6 & _ & H7); try done.
  exists s', w'. subst root. split; [done|]. split; [done|]. split.
  - intros u v Huv Hu. apply (sy_once _ _ H5); [done|]. by apply (sy_span _ _ H5).
  - intros c Hcc. by destruct (sy_real _ _ H5 c Hcc).
Qed.

Lemma get_tree_unknown s rf keep i : reachable d0 einv s -> contains_frame s rf = false ->
  get_tree rf keep i s = (s, [], Throw (XUnknownFrame rf)).
Proof.
  intros Hre Hc. pose proof (reachable_wf d0 einv s Hre) as Hwf.
  rewrite (contains_frame_map einv) in Hc by done. apply bool_decide_eq_false in Hc.
  unfold get_tree. erewrite cbind_read_throw; [done|]. destruct (get_vertex_cases einv s rf Hwf) as [(v & Hv & _)|[_ H]].
  - destruct Hc. eauto.
  - done.
Qed.

Lemma getFrames_shortest s a b l :
  reachable d0 einv s -> get_frames s a b = Ret l -> l <> [] ->
  route (joined s) a b l /\ (forall l', route (joined s) a b l' -> length l <= length l') /\ NoDup l.
Proof.
  intros Hre Hg Hl. destruct (get_frames_shortest einv s a b l (reachable_wf d0 einv s Hre) Hg Hl) as [[H1 H2] H3].
  auto.
Qed.

Lemma getFrames_empty s a b : reachable d0 einv s ->
  (contains_frame s a = true -> contains_frame s b = true ->
     exists l, get_frames s a b = Ret l /\ (l = [] <-> a = b \/ ~ linked (joined s) a b)) /\
  (contains_frame s a = false -> get_frames s a b = Throw (XUnknownFrame a)) /\
  (contains_frame s a = true -> contains_frame s b = false -> get_frames s a b = Throw (XUnknownFrame b)).
Proof.
  intros Hre. pose proof (reachable_wf d0 einv s Hre) as Hwf. split; [by apply (get_frames_empty einv)|].
  by apply (get_frames_unknown einv).
Qed.

End follow.
