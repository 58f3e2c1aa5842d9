(** Proofs about renaming a frame behind the graph's back. *)
From stdpp Require Import prelude strings gmap.
From Verif Require Import ListLib Outcome Digraph Bfs TreeView GraphModel GraphOps GraphWf GraphStep SpecObs GraphThms GraphCopy RenameModel SpecRename.

Section thms.
Context {D E : Type} (d0 : D) (einv : E -> E).
Implicit Types s : gst D E.
Implicit Types g : digraph D E.
Local Notation reachable := (reachable d0 einv).
Local Notation dg_wf := (dg_wf einv).
Local Notation ren v n := (fun r : vrec D => if Nat.eqb (v_id r) v then VRec (v_id r) (v_index r) n (v_data r) else r).

Lemma ren_id v n r : v_id (ren v n r) = v_id r.
Proof. cbn. by destruct (Nat.eqb _ _). Qed.
Lemma set_name_alive v n g u : bg_alive (bg_set_name v n g) u = bg_alive g u.
Proof. unfold bg_alive, bg_set_name. cbn. induction (dg_verts g) as [|r l IH]; [done|]. cbn. rewrite IH. by destruct (Nat.eqb (v_id r) v). Qed.
Lemma set_name_vrec v n g u : bg_vrec (bg_set_name v n g) u = ren v n <$> bg_vrec g u.
Proof.
  unfold bg_vrec, bg_set_name. cbn. induction (dg_verts g) as [|r l IH]; [done|]. cbn.
  rewrite ren_id. destruct (Nat.eqb (v_id r) u); [done|exact IH].
Qed.
Lemma set_name_trace v n g flt u : bfs_trace (bg_set_name v n g) flt u = bfs_trace g flt u.
Proof. unfold bfs_trace. rewrite set_name_alive. cbn [bg_set_name dg_verts]. by rewrite fmap_length. Qed.
Lemma set_name_find v n g a b : bfs_find (bg_set_name v n g) a b = bfs_find g a b.
Proof. unfold bfs_find. by rewrite set_name_trace. Qed.

Lemma same_rec g a b : dg_wf g -> a ∈ dg_verts g -> b ∈ dg_verts g -> v_id a = v_id b -> a = b.
Proof.
  intros Hwf Ha Hb Hab. assert (H1 : bg_vrec g (v_id a) = Some a) by (by apply (bg_vrec_iff einv)).
  assert (H2 : bg_vrec g (v_id b) = Some b) by (by apply (bg_vrec_iff einv)). rewrite Hab in H1. congruence.
Qed.

(** What the renaming does: only the answer of getFrameId changes. *)
Lemma rename_run s f v n : reachable s -> get_vertex s f = Ret v -> set_frame_id v n s = (gs_set_dg (bg_set_name v n (gs_dg s)) s, [], Ret tt).
Proof.
  intros Hr Hv. pose proof (reachable_wf d0 einv s Hr) as Hwf. unfold set_frame_id.
  destruct (bg_alive _ _) eqn:Ha; [done|]. exfalso. apply get_vertex_inv, (wf_map einv _ Hwf) in Hv as (r & Hin & Hid & _).
  unfold bg_alive in Ha. assert (existsb (fun r => Nat.eqb (v_id r) v) (dg_verts (gs_dg s)) = true); [|congruence].
  apply existsb_exists. exists r. split; [by apply elem_of_list_In|by apply Nat.eqb_eq].
Qed.
Lemma vertex_rec s f v : dg_wf (gs_dg s) -> get_vertex s f = Ret v -> exists r, bg_vrec (gs_dg s) v = Some r /\ v_name r = f /\ v_id r = v /\ r ∈ dg_verts (gs_dg s).
Proof.
  intros Hwf Hv. pose proof Hv as Hm. apply get_vertex_inv, (wf_map einv _ Hwf) in Hm as (r & Hin & Hid & Hn). exists r.
  split; [|done]. by apply (bg_vrec_iff einv).
Qed.
Lemma vertex_pos s f v : get_vertex s f = Ret v -> v <> null_vertex.
Proof. unfold get_vertex. destruct (Nat.eqb_spec (bg_vertex (gs_dg s) f) null_vertex); [done|]. by intros [= <-]. Qed.

Lemma rename_names s f v n : reachable s -> get_vertex s f = Ret v -> exists s',
  set_frame_id v n s = (s', [], Ret tt) /\ get_frame_id s' v = Ret n /\ (forall u, u <> v -> get_frame_id s' u = get_frame_id s u) /\
  (forall x, get_vertex s' x = get_vertex s x) /\ (forall x, get_frame_property s' x = get_frame_property s x) /\
  dg_edges (gs_dg s') = dg_edges (gs_dg s) /\ gs_views s' = gs_views s /\ gs_subs s' = gs_subs s.
Proof.
  intros Hr Hv. pose proof (reachable_wf d0 einv s Hr) as Hwf. eexists. split; [by eapply rename_run|].
  destruct (vertex_rec s f v Hwf Hv) as (r & Hrec & Hn & Hid & _). pose proof (vertex_pos _ _ _ Hv) as Hpos. split_and!; try done.
  - unfold get_frame_id. destruct (Nat.eqb_spec v null_vertex); [done|]. cbn [gs_set_dg gs_dg]. rewrite set_name_vrec, Hrec. cbn. by rewrite Hid, Nat.eqb_refl.
  - intros u Hu. unfold get_frame_id. destruct (Nat.eqb_spec u null_vertex); [done|]. cbn [gs_set_dg gs_dg]. rewrite set_name_vrec.
    destruct (bg_vrec (gs_dg s) u) as [q|] eqn:Hq; [|done]. cbn. apply (bg_vrec_iff einv) in Hq as [_ <-]; [|done].
    by destruct (Nat.eqb_spec (v_id q) v).
  - intros x. unfold get_frame_property. change (get_vertex (gs_set_dg (bg_set_name v n (gs_dg s)) s) x) with (get_vertex s x).
    destruct (get_vertex s x) as [u| | |]; [|done..]. cbn [obind gs_set_dg gs_dg]. rewrite set_name_vrec.
    destruct (bg_vrec (gs_dg s) u) as [q|]; [|done]. cbn. by destruct (Nat.eqb _ _).
Qed.

(** The new name is unknown. *)
Lemma rename_unknown s f v n s' : reachable s -> get_vertex s f = Ret v -> contains_frame s n = false -> set_frame_id v n s = (s', [], Ret tt) ->
  get_frame_id s' v = Ret n /\ get_vertex s' n = Throw (XUnknownFrame n) /\ contains_frame s' f = true.
Proof.
  intros Hr Hv Hn Hs. destruct (rename_names s f v n Hr Hv) as (s1 & Hs1 & H1 & _ & H2 & _). rewrite Hs in Hs1. injection Hs1 as <-.
  split; [done|]. rewrite H2. split.
  - unfold contains_frame in Hn. unfold get_vertex. by destruct (Nat.eqb (bg_vertex (gs_dg s) n) null_vertex).
  - pose proof (H2 f) as Hf. rewrite Hv in Hf. unfold get_vertex in Hf. unfold contains_frame. by destruct (Nat.eqb _ null_vertex).
Qed.

(** Renaming back. *)
Lemma rename_back s f v n s' : reachable s -> get_vertex s f = Ret v -> set_frame_id v n s = (s', [], Ret tt) -> set_frame_id v f s' = (s, [], Ret tt).
Proof.
  intros Hr Hv Hs. pose proof (reachable_wf d0 einv s Hr) as Hwf. rewrite (rename_run s f v n Hr Hv) in Hs. injection Hs as <-.
  pose proof (rename_run s f v n Hr Hv) as Hrun. unfold set_frame_id in *. cbn [gs_set_dg gs_dg]. rewrite set_name_alive.
  destruct (bg_alive _ _); [|done]. do 2 f_equal. destruct (vertex_rec s f v Hwf Hv) as (r & Hrec & Hn & Hid & Hin).
  pose proof (fun q Hq => same_rec (gs_dg s) q r Hwf Hq Hin) as Hsame. clear Hwf Hr Hv Hrun Hrec Hin.
  destruct s as [[vs es m nv ne mx a b] su vw]. unfold gs_set_dg, bg_set_name. cbn. do 2 f_equal. cbn in Hsame.
  rewrite <- list_fmap_compose. rewrite <- (list_fmap_id vs) at 2. apply list_fmap_ext. intros k q Hq. cbn.
  destruct (Nat.eqb_spec (v_id q) v) as [He|He]; cbn; [|by destruct (Nat.eqb_spec (v_id q) v)].
  rewrite He, Nat.eqb_refl. assert (q = r) as ->.
  { apply Hsame; [by eapply elem_of_list_lookup_2|congruence]. }
  destruct r; cbn in *. by subst.
Qed.

(** Calls by name find the same edges. *)
Lemma rename_edges s f v n s' : reachable s -> get_vertex s f = Ret v -> set_frame_id v n s = (s', [], Ret tt) ->
  (forall a b, contains_edge s' a b = contains_edge s a b) /\ (forall a b p, get_edge_property s' a b = Ret p <-> get_edge_property s a b = Ret p).
Proof.
  intros Hr Hv Hs. rewrite (rename_run s f v n Hr Hv) in Hs. injection Hs as <-. set (s' := gs_set_dg _ s).
  assert (Hfind : forall a b, find_edge s' a b = find_edge s a b). { intros a b. unfold find_edge, s'. cbn [gs_set_dg gs_dg]. by rewrite set_name_alive. }
  split.
  - intros a b. unfold contains_edge. change (get_vertex s') with (get_vertex s). destruct (get_vertex s a); [|done..]. cbn [obind]. destruct (get_vertex s b); [|done..]. cbn [obind].
    unfold contains_edge_v. by rewrite Hfind.
  - intros a b p. unfold get_edge_property, get_edge. change (get_vertex s') with (get_vertex s). destruct (get_vertex s a) as [x| | |]; [|done..]. cbn [obind].
    destruct (get_vertex s b) as [y| | |]; [|done..]. cbn [obind].
    unfold get_edge_v. rewrite Hfind. destruct (find_edge s x y) as [[e|]| | |]; [done| |done..]. cbn.
    destruct (get_frame_id s' x), (get_frame_id s' y), (get_frame_id s x), (get_frame_id s y); done.
Qed.

(** getFrames gives the new name. *)
Lemma frame_ids_renamed s f v n l fs : dg_wf (gs_dg s) -> get_vertex s f = Ret v -> frame_ids s l = Ret fs ->
  frame_ids (gs_set_dg (bg_set_name v n (gs_dg s)) s) l = Ret (renamed f n <$> fs).
Proof.
  intros Hwf Hv. revert fs. induction l as [|u l IH]; intros fs; cbn; [by intros [= <-]|].
  unfold get_frame_id. cbn [gs_set_dg gs_dg]. rewrite set_name_vrec. destruct (Nat.eqb u null_vertex); [done|].
  destruct (bg_vrec (gs_dg s) u) as [q|] eqn:Hq; [|done]. cbn. destruct (frame_ids s l) as [fs'| | |]; [|done..]. cbn. intros [= <-].
  rewrite (IH _ eq_refl). cbn. f_equal. f_equal. apply (bg_vrec_iff einv) in Hq as [Hin Hid]; [|done].
  destruct (vertex_rec s f v Hwf Hv) as (r & Hrec & Hn & Hr & Hrin). unfold renamed. destruct (Nat.eqb_spec (v_id q) v) as [He|He]; cbn.
  - assert (q = r) as ->. { assert (bg_vrec (gs_dg s) v = Some q) by (apply (bg_vrec_iff einv); [done|by split]). congruence. } by rewrite decide_True.
  - destruct (decide (v_name q = f)) as [Hf|]; [|done]. exfalso. apply He.
    assert (Hm : dg_map (gs_dg s) !! f = Some (v_id q)) by (apply (wf_map einv _ Hwf); eauto). apply get_vertex_inv in Hv. congruence.
Qed.
Lemma rename_frames s f v n s' a b l : reachable s -> get_vertex s f = Ret v -> set_frame_id v n s = (s', [], Ret tt) ->
  get_frames s a b = Ret (l ++ [b]) -> get_frames s' a b = Ret ((renamed f n <$> l) ++ [b]).
Proof.
  intros Hr Hv Hs. pose proof (reachable_wf d0 einv s Hr) as Hwf. rewrite (rename_run s f v n Hr Hv) in Hs. injection Hs as <-.
  unfold get_frames. change (get_vertex (gs_set_dg (bg_set_name v n (gs_dg s)) s)) with (get_vertex s).
  destruct (get_vertex s a) as [va| | |]; [|done..]. cbn. destruct (get_vertex s b) as [vb| | |]; [|done..]. cbn. rewrite set_name_find.
  destruct (bfs_find (gs_dg s) va vb) as [[l0|]| | |]; cbn; try done; [|intros [= H]; by destruct l].
  destruct (frame_ids s (removelast l0)) as [fs| | |] eqn:Hfs; cbn; try done. rewrite (frame_ids_renamed s f v n _ fs Hwf Hv Hfs). cbn.
  destruct fs as [|x fs]; cbn; [intros [= H]; by destruct l|]. intros [= H]. change (x :: fs ++ [b]) with ((x :: fs) ++ [b]) in H.
  apply app_inj_tail in H as [<- _]. done.
Qed.

(** removeFrame by the old name removes the frame. *)
Lemma rename_remove s f v n s' s1 : reachable s -> get_vertex s f = Ret v -> set_frame_id v n s = (s', [], Ret tt) ->
  remove_frame f s = (s1, [EvFrameRemoved f], Ret tt) -> remove_frame f s' = (s1, [EvFrameRemoved f], Ret tt).
Proof.
  intros Hr Hv Hs. rewrite (rename_run s f v n Hr Hv) in Hs. injection Hs as <-. unfold remove_frame, cbind, cread, cmodify, cnotify.
  change (get_vertex (gs_set_dg (bg_set_name v n (gs_dg s)) s)) with (get_vertex s). rewrite Hv. cbn [gs_set_dg gs_dg]. rewrite set_name_alive.
  change (bg_degree (bg_set_name v n (gs_dg s)) v) with (bg_degree (gs_dg s) v).
  destruct (bg_alive _ _); [|done]. destruct (bool_decide _); [done|]. cbn. intros [= <-]. do 2 f_equal. unfold gs_set_dg, bg_remove_vertex. cbn. do 2 f_equal.
  clear. induction (dg_verts (gs_dg s)) as [|r l IH]; [done|]. cbn [fmap list_fmap].
  destruct (Nat.eqb_spec (v_id r) v) as [He|He].
  - rewrite !filter_cons_False by (cbn; by intros []). exact IH.
  - rewrite !filter_cons_True by done. f_equal. exact IH.
Qed.

(** The properly renamed graph, to compare copies with. *)
Definition relabel (f n : frameid) (v : vid) g : digraph D E :=
  Digraph (ren v n <$> dg_verts g) (dg_edges g) (<[n := v]> (delete f (dg_map g))) (dg_nextv g) (dg_nexte g) (dg_maxvi g) (dg_nv g) (dg_ne g).

Lemma relabel_wf g f n v : dg_wf g -> dg_map g !! f = Some v -> (n = f \/ dg_map g !! n = None) -> dg_wf (relabel f n v g).
Proof.
  intros Hwf Hf Hn. pose proof Hwf as [W1 W2 W3 W4 W5 W6 W7 W8 W9 W10 W11 W12 W13 W14 W15 W16 W17].
  assert (Hids : v_id <$> (ren v n <$> dg_verts g) = v_id <$> dg_verts g).
  { rewrite <- list_fmap_compose. apply list_fmap_ext. intros k r _. apply ren_id. }
  assert (Hin : forall r, r ∈ ren v n <$> dg_verts g <-> exists q, q ∈ dg_verts g /\ r = ren v n q).
  { intros r. rewrite elem_of_list_fmap. split; intros (q & ? & ?); exists q; done. }
  assert (Hname : forall q, q ∈ dg_verts g -> v_id q = v <-> v_name q = f).
  { intros q Hq. split.
    - intros He. apply W3 in Hf as (r & Hr & Hrv & Hrf). assert (H1 : bg_vrec g v = Some q) by (by apply (bg_vrec_iff einv)).
      assert (H2 : bg_vrec g v = Some r) by (by apply (bg_vrec_iff einv)). congruence.
    - intros He. assert (dg_map g !! f = Some (v_id q)) by (apply W3; eauto). congruence. }
  assert (Hfresh : forall q, q ∈ dg_verts g -> v_name q = n -> v_id q = v).
  { intros q Hq He. destruct Hn as [->|Hn]; [by apply Hname|]. assert (dg_map g !! n = Some (v_id q)) by (apply W3; eauto). congruence. }
  split; cbn [relabel dg_verts dg_edges dg_map dg_nextv dg_nexte dg_maxvi dg_nv dg_ne]; try done.
  - by rewrite Hids.
  - apply NoDup_fmap_2_strong; [|by eapply NoDup_fmap_1; rewrite Hids].
    intros x y (a & Ha & ->)%Hin (b & Hb & ->)%Hin Hxy. cbn in Hxy.
    assert (Hab : v_id a = v_id b).
    { destruct (Nat.eqb_spec (v_id a) v) as [Ea|Ea], (Nat.eqb_spec (v_id b) v) as [Eb|Eb]; cbn in Hxy.
      - congruence.
      - exfalso. apply Eb. by apply Hfresh.
      - exfalso. apply Ea. by apply Hfresh.
      - assert (H1 : dg_map g !! v_name a = Some (v_id a)) by (apply W3; eauto). assert (H2 : dg_map g !! v_name b = Some (v_id b)) by (apply W3; eauto). congruence. }
    by rewrite (same_rec g a b Hwf Ha Hb Hab).
  - intros x u. split.
    + intros [[<- <-]|[Hx Hu]]%lookup_insert_Some.
      * apply W3 in Hf as (r & Hr & Hrv & Hrf). exists (ren v n r). split; [apply Hin; eauto|]. cbn. by rewrite Hrv, Nat.eqb_refl.
      * apply lookup_delete_Some in Hu as [Hxf Hu]. apply W3 in Hu as (r & Hr & Hrv & Hrx). exists (ren v n r). split; [apply Hin; eauto|]. cbn.
        destruct (Nat.eqb_spec (v_id r) v) as [He|He]; [|done]. apply (Hname r Hr) in He. exfalso. congruence.
    + intros (r & (q & Hq & ->)%Hin & <- & <-). cbn. destruct (Nat.eqb_spec (v_id q) v) as [He|He]; cbn.
      * rewrite He. by rewrite lookup_insert.
      * rewrite lookup_insert_ne by (intros Heq; apply He; by apply Hfresh). rewrite lookup_delete_ne by (intros Heq; apply He; by apply Hname). apply W3. eauto.
  - intros r (q & Hq & ->)%Hin. cbn. destruct (Nat.eqb _ _); cbn; exact (W4 q Hq).
  - intros e He. rewrite Hids. by apply W9.
  - intros e He. rewrite Hids. by apply W10.
  - by rewrite fmap_length.
  - rewrite <- list_fmap_compose. erewrite list_fmap_ext; [exact W16|]. intros k r _. cbn. by destruct (Nat.eqb _ _).
  - intros r (q & Hq & ->)%Hin. cbn. destruct (Nat.eqb _ _); cbn; exact (W17 q Hq).
Qed.

Lemma position_ren u v n (vs : list (vrec D)) : position u (ren v n <$> vs) = position u vs.
Proof. induction vs as [|r vs IH]; [done|]. cbn. rewrite ren_id, IH. done. Qed.

(** A copy knows the frame by its new name. *)
Lemma rename_copy s f v n s' t t' : reachable s -> get_vertex s f = Ret v -> contains_frame s n = false -> set_frame_id v n s = (s', [], Ret tt) ->
  copy_graph s = Ret t -> copy_graph s' = Ret t' ->
  get_vertex t' n = get_vertex t f /\ get_vertex t' f = Throw (XUnknownFrame f) /\ (forall x, x <> f -> x <> n -> get_vertex t' x = get_vertex t x) /\
  (forall x u, get_vertex t' x = Ret u -> get_frame_id t' u = Ret x) /\ dg_edges (gs_dg t') = dg_edges (gs_dg t).
Proof.
  intros Hr Hv Hn Hs Ht Ht'. pose proof (reachable_wf d0 einv s Hr) as Hwf. rewrite (rename_run s f v n Hr Hv) in Hs. injection Hs as <-.
  apply copy_graph_eq in Ht as ->. apply copy_graph_eq in Ht' as ->. cbn [gs_set_dg gs_dg].
  pose proof (get_vertex_inv _ _ _ Hv) as Hf. assert (Hnone : dg_map (gs_dg s) !! n = None).
  { unfold contains_frame, bg_vertex in Hn. destruct (dg_map (gs_dg s) !! n) as [u|] eqn:Hu; [|done]. cbn in Hn. exfalso.
    apply (wf_map einv _ Hwf) in Hu as (r & Hin & <- & _). apply (wf_vbound einv _ Hwf) in Hin. destruct (Nat.eqb_spec (v_id r) null_vertex) as [He|]; [|done].
    rewrite He in Hin. unfold null_vertex in Hin. lia. }
  assert (Hfn : f <> n) by (intros ->; congruence).
  pose proof (relabel_wf (gs_dg s) f n v Hwf Hf (or_intror Hnone)) as Hwf'.
  assert (Heq : cgraph (bg_set_name v n (gs_dg s)) = cgraph (relabel f n v (gs_dg s))) by done. rewrite Heq.
  assert (Hmap : forall x, dg_map (cgraph (relabel f n v (gs_dg s))) !! x = (fun u => S (position u (dg_verts (gs_dg s)))) <$> (<[n := v]> (delete f (dg_map (gs_dg s)))) !! x).
  { intros x. rewrite (cgraph_map einv) by done. cbn [relabel dg_verts dg_map]. destruct (_ !! x); cbn; [|done]. by rewrite position_ren. }
  pose proof (fun x => cgraph_map einv (gs_dg s) x Hwf) as Hmap0.
  assert (Hget : forall x y, dg_map (cgraph (relabel f n v (gs_dg s))) !! x = dg_map (cgraph (gs_dg s)) !! y -> is_Some (dg_map (cgraph (gs_dg s)) !! y) ->
     get_vertex (GSt (cgraph (relabel f n v (gs_dg s))) [] ∅) x = get_vertex (GSt (cgraph (gs_dg s)) [] ∅ : gst D E) y).
  { intros x y Hxy [u Hu]. unfold get_vertex, bg_vertex. cbn [gs_dg]. rewrite Hxy, Hu. rewrite Hmap0 in Hu. apply fmap_Some in Hu as (k & _ & ->). done. }
  split_and!.
  - apply Hget; rewrite ?Hmap, Hmap0, Hf; [by rewrite lookup_insert|by eexists].
  - apply get_vertex_none. cbn [gs_dg]. rewrite Hmap, lookup_insert_ne by done. by rewrite lookup_delete.
  - intros x Hxf Hxn. assert (Hx : dg_map (cgraph (relabel f n v (gs_dg s))) !! x = dg_map (cgraph (gs_dg s)) !! x).
    { rewrite Hmap, Hmap0. by rewrite lookup_insert_ne, lookup_delete_ne by done. }
    unfold get_vertex, bg_vertex. cbn [gs_dg]. by rewrite Hx.
  - intros x u Hu. pose proof (cgraph_wf einv _ Hwf') as Hc. set (t := GSt _ [] ∅) in *.
    destruct (vertex_rec t x u Hc Hu) as (r & Hrec & Hx & _). unfold get_frame_id. destruct (Nat.eqb_spec u null_vertex); [by apply vertex_pos in Hu|].
    by rewrite Hrec, Hx.
  - cbn [gs_dg cgraph dg_edges]. unfold cedges. cbn [relabel dg_verts dg_edges]. apply imap_ext. intros k e _. by rewrite !position_ren.
Qed.

(** A new name that is taken: the copy has a frame that no name leads to. *)
Lemma regenerate_some m (vs : list (vrec D)) x u : regenerate_label_map m vs !! x = Some u -> (exists r, r ∈ vs /\ v_name r = x /\ v_id r = u) \/ m !! x = Some u.
Proof.
  unfold regenerate_label_map. revert m. induction vs as [|r vs IH]; intros m; cbn; [auto|]. intros [(q & Hq & ? & ?)|H]%IH.
  - left. exists q. split; [by right|done].
  - apply lookup_insert_Some in H as [[? ?]|[? ?]]; [left; exists r; split; [left|done]|auto].
Qed.
Lemma rename_clash s f v h u s' t' : reachable s -> get_vertex s f = Ret v -> get_vertex s h = Ret u -> u <> v ->
  set_frame_id v h s = (s', [], Ret tt) -> copy_graph s' = Ret t' ->
  num_vertices t' = num_vertices s /\ exists x, bg_alive (gs_dg t') x = true /\ nameless t' x.
Proof.
  intros Hr Hv Hu Huv Hs Ht'. pose proof (reachable_wf d0 einv s Hr) as Hwf. rewrite (rename_run s f v h Hr Hv) in Hs. injection Hs as <-.
  apply copy_graph_eq in Ht' as ->. cbn [gs_set_dg gs_dg]. set (g' := bg_set_name v h (gs_dg s)).
  split. { unfold num_vertices. cbn. rewrite fmap_length. by rewrite (wf_nv einv _ Hwf). }
  destruct (vertex_rec s f v Hwf Hv) as (r & _ & _ & Hrid & Hrin). destruct (vertex_rec s h u Hwf Hu) as (q & _ & Hqn & Hqid & Hqin).
  assert (Hr' : VRec (v_id r) (v_index r) h (v_data r) ∈ dg_verts g').
  { apply elem_of_list_fmap. exists r. by rewrite Hrid, Nat.eqb_refl. }
  assert (Hq' : q ∈ dg_verts g').
  { apply elem_of_list_fmap. exists q. split; [|done]. destruct (Nat.eqb_spec (v_id q) v); [congruence|done]. }
  apply elem_of_list_lookup in Hr' as [k Hk], Hq' as [j Hj]. assert (Hkj : k <> j).
  { intros ->. rewrite Hk in Hj. injection Hj as Hj. apply Huv. rewrite <- Hqid, <- Hrid, <- Hj. done. }
  assert (Hal : forall i x, dg_verts g' !! i = Some x -> bg_alive (cgraph g') (S i) = true).
  { intros i x Hi. unfold bg_alive. apply existsb_exists. exists (VRec (S i) i (v_name x) (v_data x)). split; [|by apply Nat.eqb_eq].
    apply elem_of_list_In. apply cverts_in. eauto. }
  assert (Hone : forall i x y, dg_verts g' !! i = Some x -> v_name x = h -> get_vertex (GSt (cgraph g') [] ∅ : gst D E) y = Ret (S i) -> y = h).
  { intros i x y Hi Hx Hy. apply get_vertex_inv in Hy. cbn [gs_dg cgraph dg_map] in Hy. apply regenerate_some in Hy as [(a & Ha & <- & Hid)|Hy]; [|by rewrite lookup_empty in Hy].
    apply cverts_in in Ha as (i' & b & Hb & ->). cbn in Hid |- *. injection Hid as ->. congruence. }
  destruct (decide (dg_map (cgraph g') !! h = Some (S k))) as [He|He].
  - exists (S j). split; [by eapply Hal|]. intros y Hy. assert (y = h) as -> by (by eapply (Hone j)). apply get_vertex_inv in Hy. pose proof (eq_trans (eq_sym He) Hy) as [= Hkj']. by apply Hkj.
  - exists (S k). split; [by eapply Hal|]. intros y Hy. assert (y = h) as -> by (by eapply (Hone k)). apply He. by apply get_vertex_inv in Hy.
Qed.

(** A subscribed view meets the renamed frame: the edge is added, the view and the subscribers are not told. *)
Lemma rename_grow s f v n s' o fo p i l w : reachable s -> get_vertex s f = Ret v -> get_vertex s fo = Ret o -> contains_frame s n = false ->
  set_frame_id v n s = (s', [], Ret tt) -> gs_subs s = i :: l -> gs_views s !! i = Some w -> tv_vertex_exists w o = true -> tv_vertex_exists w v = false ->
  find_edge s o v = Ret None -> 0 < bg_degree (gs_dg s) v -> o <> v ->
  exists s1, add_edge_v einv o v p s' = (s1, [], Throw (XUnknownFrame n)) /\ get_edge_property s1 fo f = Ret p /\ get_edge_property s1 f fo = Ret (einv p).
Proof.
  intros Hr Hv Ho Hn Hs Hsub Hw Hwo Hwv Hfe Hdeg Hov. pose proof (reachable_wf d0 einv s Hr) as Hwf. rewrite (rename_run s f v n Hr Hv) in Hs. injection Hs as <-.
  assert (Halive : forall x y, get_vertex s x = Ret y -> bg_alive (gs_dg s) y = true).
  { intros x y Hx. destruct (vertex_rec s x y Hwf Hx) as (r & _ & _ & <- & Hin). apply existsb_exists. exists r. split; [by apply elem_of_list_In|by apply Nat.eqb_eq]. }
  pose proof (Halive _ _ Hv) as Hav. pose proof (Halive _ _ Ho) as Hao.
  assert (Hg : forall a b, bg_edge (gs_dg s) a b = None -> forall e, e ∈ dg_edges (gs_dg s) -> ~ (e_src e = a /\ e_tgt e = b)).
  { intros a b H e He%elem_of_list_In [<- <-]. unfold bg_edge in H. eapply find_none in H; [|exact He]. cbn in H. by rewrite !Nat.eqb_refl in H. }
  assert (Hno : bg_edge (gs_dg s) o v = None). { unfold find_edge in Hfe. rewrite Hao in Hfe. by injection Hfe. }
  assert (Hno' : bg_edge (gs_dg s) v o = None).
  { destruct (bg_edge (gs_dg s) v o) as [e|] eqn:He; [|done]. exfalso. apply find_some in He as [Hin%elem_of_list_In He].
    apply andb_true_iff in He as [H1%Nat.eqb_eq H2%Nat.eqb_eq]. destruct (wf_inv einv _ Hwf e Hin) as (e' & Hin' & H3 & H4 & _). apply (Hg o v Hno e' Hin'). split; congruence. }
  set (g1 := bg_set_name v n (gs_dg s)). set (k := dg_nexte (gs_dg s)).
  set (g2 := Digraph (dg_verts g1) ((dg_edges (gs_dg s) ++ [ERec k o v p]) ++ [ERec (S k) v o (einv p)]) (dg_map (gs_dg s)) (dg_nextv (gs_dg s)) (S (S k)) (dg_maxvi (gs_dg s))
     (dg_nv (gs_dg s)) (S (S (dg_ne (gs_dg s))))).
  assert (Hal2 : forall u, bg_alive g2 u = bg_alive (gs_dg s) u) by (intros u; apply (set_name_alive v n (gs_dg s) u)).
  assert (Hrec2 : forall u, bg_vrec g2 u = ren v n <$> bg_vrec (gs_dg s) u) by (intros u; apply (set_name_vrec v n (gs_dg s) u)).
  assert (Hd2 : 2 < bg_degree g2 v).
  { unfold bg_degree, bg_in, bg_out, g2 in *. cbn [dg_edges] in *. rewrite !filter_app, !app_length. cbn [filter list_filter e_src e_tgt].
    repeat case_decide; cbn [length]; try (exfalso; congruence); lia. }
  set (s2 := GSt g2 (gs_subs s) (gs_views s)).
  assert (Hid2 : get_frame_id s2 v = Ret n).
  { unfold get_frame_id. destruct (Nat.eqb_spec v null_vertex) as [->|_]; [by apply vertex_pos in Hv|]. cbn [s2 gs_dg]. rewrite Hrec2.
    destruct (vertex_rec s f v Hwf Hv) as (r & -> & _ & Hrv & _). cbn. by rewrite Hrv, Nat.eqb_refl. }
  assert (Hido : get_frame_id s2 o = Ret fo).
  { unfold get_frame_id. destruct (Nat.eqb_spec o null_vertex) as [->|_]; [by apply vertex_pos in Ho|]. cbn [s2 gs_dg]. rewrite Hrec2.
    destruct (vertex_rec s fo o Hwf Ho) as (r & -> & <- & Hrv & _). cbn. rewrite Hrv. by destruct (Nat.eqb_spec o v). }
  assert (Hunk : get_edge s2 fo n = Throw (XUnknownFrame n)).
  { unfold get_edge. change (get_vertex s2) with (get_vertex s). rewrite Ho. cbn [obind]. unfold get_vertex. unfold contains_frame in Hn.
    by destruct (Nat.eqb (bg_vertex (gs_dg s) n) null_vertex). }
  set (w1 := tv_add_edge o v w).
  exists (gs_set_view i w1 s2). split.
  - unfold add_edge_v, cbind, cread. assert (Hfe' : find_edge (gs_set_dg g1 s) o v = Ret None).
    { unfold find_edge. cbn [gs_set_dg gs_dg]. unfold g1. rewrite set_name_alive, Hao. f_equal. exact Hno. }
    rewrite Hfe'. change (gs_dg (gs_set_dg g1 s)) with g1. unfold g1 at 1. rewrite set_name_alive, Hav.
    assert (Htv : add_edge_to_tree_views (ERec k o v p) s2 = (gs_set_view i w1 s2, [], Throw (XUnknownFrame n))).
    { unfold add_edge_to_tree_views. change (gs_subs s2) with (gs_subs s). rewrite Hsub. cbn [for_views]. change (gs_views s2) with (gs_views s). rewrite Hw.
      unfold add_edge_to_tree_view. cbn [get_source_vertex get_target_vertex e_src e_tgt]. rewrite Hwo, Hwv. change (gs_dg s2) with g2. rewrite Hal2, Hav.
      rewrite bool_decide_true by done. rewrite Hido. cbn [obind]. rewrite Hid2. cbn [obind]. rewrite Hunk. done. }
    unfold cmodify. cbn -[add_edge_to_tree_views]. match goal with |- context [add_edge_to_tree_views ?e ?st] =>
      replace (add_edge_to_tree_views e st) with (gs_set_view i w1 s2, @nil event, @Throw unit (XUnknownFrame n)) by (symmetry; exact Htv) end. done.
  - assert (Hids : forall e, e ∈ dg_edges (gs_dg s) -> e_id e < k) by (intros e He; apply (wf_ebound einv _ Hwf e He)).
    assert (Hfind : forall (P : erec E -> bool) l a r, (forall e, e ∈ l -> P e = false) -> P a = true -> find P ((l ++ [a]) ++ r) = Some a).
    { intros P l0 a r Hl Ha. induction l0 as [|e l0 IH]; cbn; [by rewrite Ha|]. rewrite Hl by by left. apply IH. intros e' He'. apply Hl. by right. }
    assert (Hfind2 : forall (P : erec E -> bool) l a r, (forall e, e ∈ l -> P e = false) -> P r = false -> P a = true -> find P ((l ++ [r]) ++ [a]) = Some a).
    { intros P l0 a r Hl Hr0 Ha. rewrite <- (app_nil_r ((l0 ++ [r]) ++ [a])). apply Hfind; [|done]. intros e [He| ->%elem_of_list_singleton]%elem_of_app; [by apply Hl|done]. }
    assert (Hgv : get_vertex (gs_set_view i w1 s2) = get_vertex s) by done.
    assert (Hq : forall a b e, bg_alive (gs_dg s) a = true -> bg_edge g2 a b = Some e -> bg_erec g2 (e_id e) = Some e -> forall x y, get_vertex s x = Ret a -> get_vertex s y = Ret b ->
       get_edge_property (gs_set_view i w1 s2) x y = Ret (e_prop e)).
    { intros a b e Ha He Hi x y Hx Hy. unfold get_edge_property, get_edge. rewrite Hgv, Hx. cbn [obind]. rewrite Hy. cbn [obind]. unfold get_edge_v, find_edge.
      change (gs_dg (gs_set_view i w1 s2)) with g2. rewrite Hal2, Ha. cbn [obind]. rewrite He. cbn [obind]. unfold get_edge_property_e.
      change (gs_dg (gs_set_view i w1 s2)) with g2. by rewrite Hi. }
    split.
    + apply (Hq o v (ERec k o v p)); try done.
      * apply Hfind; [|cbn; by rewrite !Nat.eqb_refl]. intros e He. apply not_true_iff_false. intros [H1%Nat.eqb_eq H2%Nat.eqb_eq]%andb_true_iff. by apply (Hg o v Hno e He).
      * apply Hfind; [|cbn; by rewrite Nat.eqb_refl]. intros e He. apply Nat.eqb_neq. pose proof (Hids e He). cbn. lia.
    + apply (Hq v o (ERec (S k) v o (einv p))); try done.
      * apply Hfind2; [| |cbn; by rewrite !Nat.eqb_refl].
        -- intros e He. apply not_true_iff_false. intros [H1%Nat.eqb_eq H2%Nat.eqb_eq]%andb_true_iff. by apply (Hg v o Hno' e He).
        -- cbn. by destruct (Nat.eqb_spec o v).
      * apply Hfind2; [| |cbn; by rewrite Nat.eqb_refl].
        -- intros e He. apply Nat.eqb_neq. pose proof (Hids e He). cbn. lia.
        -- apply Nat.eqb_neq. cbn. lia.
Qed.

Lemma copy_check s x u : (match copy_graph s with Ret t => get_vertex t x | _ => UB end) = Ret u -> exists t, copy_graph s = Ret t /\ get_vertex t x = Ret u.
Proof. destruct (copy_graph s) as [t| | |]; [|done..]. by exists t. Qed.
End thms.
