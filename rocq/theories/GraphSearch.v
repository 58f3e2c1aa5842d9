(** getFrames: from routes of vertices to routes of frames. *)
From stdpp Require Import prelude strings gmap.
From Verif Require Import ListLib Outcome Digraph Bfs TreeView GraphModel GraphWf GraphStep GraphRefine
  SpecWalk WalkThms BfsThms BfsFind SpecSearch.

Section search.
Context {D E : Type} (einv : E -> E).
Local Notation dg_wf := (dg_wf einv).
Implicit Types (g : digraph D E) (s : gst D E).

(** Every edge of the graph, from vertex to vertex. *)
Definition vnext g : vid -> vid -> Prop := next (fout g (fun _ => true)).

Lemma vnext_iff g u v : vnext g u v <-> exists e, e ∈ dg_edges g /\ e_src e = u /\ e_tgt e = v.
Proof.
  unfold vnext, next. split.
  - intros (e & (_ & ? & ?)%elem_fout & ?). eauto.
  - intros (e & ? & ? & ?). exists e. by rewrite elem_fout.
Qed.

Lemma vnext_edge g u v : dg_wf g -> vnext g u v <-> is_Some (bg_edge g u v).
Proof.
  intros Hwf. rewrite vnext_iff. split.
  - intros (e & ? & ? & ?). exists e. by apply (bg_edge_iff einv).
  - intros [e (?&?&?)%(bg_edge_iff einv)]; eauto.
Qed.

Lemma vnext_sym g u v : dg_wf g -> vnext g u v -> vnext g v u.
Proof.
  intros Hwf. rewrite !vnext_edge by done. intros [e He].
  destruct (edge_rev einv g u v e Hwf He). eauto.
Qed.

Lemma vnext_alive g u v : dg_wf g -> vnext g u v -> bg_alive g u = true /\ bg_alive g v = true.
Proof.
  intros Hwf (e & He & <- & <-)%vnext_iff.
  split; [by apply (wf_src_alive einv)|by apply (wf_tgt_alive einv)].
Qed.

Lemma joined_vnext s a b : dg_wf (gs_dg s) -> joined s a b <->
  exists u v, dg_map (gs_dg s) !! a = Some u /\ dg_map (gs_dg s) !! b = Some v /\ vnext (gs_dg s) u v.
Proof.
  intros Hwf. unfold joined. rewrite (contains_edge_eq einv) by done.
  destruct (dg_map (gs_dg s) !! a) as [u|] eqn:Ha.
  2:{ split; [done|]. by intros (? & ? & ? & ?). }
  destruct (dg_map (gs_dg s) !! b) as [v|] eqn:Hb.
  2:{ split; [done|]. by intros (? & ? & ? & ? & ?). }
  split.
  - intros [= Hd]. apply bool_decide_eq_true in Hd. exists u, v. by rewrite vnext_edge.
  - intros (? & ? & [= <-] & [= <-] & Hn). f_equal. apply bool_decide_eq_true. by apply vnext_edge.
Qed.

Lemma joined_sym s a b : dg_wf (gs_dg s) -> joined s a b -> joined s b a.
Proof.
  intros Hwf. rewrite !joined_vnext by done. intros (u & v & ? & ? & ?).
  exists v, u. repeat split; [done..|]. by apply vnext_sym.
Qed.

Lemma joined_known s a b : joined s a b -> contains_frame s a = true /\ contains_frame s b = true.
Proof.
  unfold joined, contains_edge, get_vertex, contains_frame.
  destruct (Nat.eqb _ _); [done|]. cbn. by destruct (Nat.eqb _ _).
Qed.

(** Vertices along a route of frames. *)
Lemma vids_of_route s a b fl u : dg_wf (gs_dg s) -> dg_map (gs_dg s) !! a = Some u ->
  route (joined s) a b fl ->
  exists v l, dg_map (gs_dg s) !! b = Some v /\ route (vnext (gs_dg s)) u v l /\ length l = length fl.
Proof.
  intros Hwf. revert a u. induction fl as [|x fl IH]; intros a u Ha Hr.
  { by apply route_nil in Hr. }
  destruct fl as [|y fl].
  - destruct Hr as ([= <-] & [= <-] & _). exists u, [u]. split; [done|]. split; [apply route_refl|done].
  - destruct Hr as ([= ->] & Hl & Hj & Hc).
    apply joined_vnext in Hj as (u' & v & Hu' & Hy & Hn); [|done]. replace u' with u in * by congruence.
    destruct (IH y v Hy) as (w & l & Hw & Hlr & Hlen); [split; [done|]; by split|].
    exists w, (u :: l). split; [done|]. split; [by eapply route_cons|]. cbn. by rewrite Hlen.
Qed.

(** Frames along a route of vertices. *)
Lemma names_of_route s u v l : dg_wf (gs_dg s) -> route (vnext (gs_dg s)) u v l ->
  route (joined s) (bg_name (gs_dg s) u) (bg_name (gs_dg s) v) (bg_name (gs_dg s) <$> l).
Proof.
  intros Hwf (Hh & Hl & Hc). split; [|split].
  - destruct l; cbn in *; congruence.
  - by rewrite fmap_last, Hl.
  - clear Hh Hl. induction l as [|x l IH]; [done|]. cbn [fmap list_fmap]. destruct Hc as [Hx Hc].
    split; [|by apply IH]. destruct l as [|y l]; [done|]. cbn [fmap list_fmap].
    apply joined_vnext; [done|].
    destruct (vnext_alive _ _ _ Hwf Hx) as [Ha1 Ha2].
    destruct (wf_alive_map einv _ _ Hwf Ha1) as (n1 & H1 & _).
    destruct (wf_alive_map einv _ _ Hwf Ha2) as (n2 & H2 & _).
    rewrite (bg_name_map einv _ _ _ Hwf H1), (bg_name_map einv _ _ _ Hwf H2). eauto.
Qed.

Lemma linked_names s a b u v : dg_wf (gs_dg s) -> dg_map (gs_dg s) !! a = Some u ->
  dg_map (gs_dg s) !! b = Some v -> linked (joined s) a b <-> linked (vnext (gs_dg s)) u v.
Proof.
  intros Hwf Ha Hb. split.
  - intros [fl Hfl]. destruct (vids_of_route s a b fl u Hwf Ha Hfl) as (v' & l & Hv' & Hl & _).
    exists l. by replace v with v' by congruence.
  - intros [l Hl%names_of_route]; [|done].
    rewrite (bg_name_map einv _ _ _ Hwf Ha), (bg_name_map einv _ _ _ Hwf Hb) in Hl. eexists; exact Hl.
Qed.

Lemma frame_ids_names s l : dg_wf (gs_dg s) -> Forall (fun v => bg_alive (gs_dg s) v = true) l ->
  frame_ids s l = Ret (bg_name (gs_dg s) <$> l).
Proof.
  intros Hwf. induction 1 as [|v l Hv Hl IH]; [done|]. cbn [frame_ids].
  destruct (wf_alive_map einv _ _ Hwf Hv) as (f & Hf & _).
  rewrite (get_frame_id_some einv s f v Hwf Hf). cbn [obind]. rewrite IH. cbn.
  by rewrite (bg_name_map einv _ _ _ Hwf Hf).
Qed.

Lemma route_alive g u v l : dg_wf g -> bg_alive g u = true -> route (vnext g) u v l ->
  Forall (fun v => bg_alive g v = true) l.
Proof.
  intros Hwf. revert u. induction l as [|x l IH]; intros u Hu Hr; [constructor|].
  destruct Hr as ([= ->] & Hl & Hx & Hc). constructor; [done|].
  destruct l as [|y l]; [constructor|]. apply (IH y).
  - by eapply vnext_alive.
  - by split.
Qed.

(** The search on known frames. *)
Lemma get_frames_known s a b u v : dg_wf (gs_dg s) -> dg_map (gs_dg s) !! a = Some u ->
  dg_map (gs_dg s) !! b = Some v ->
  (a = b -> get_frames s a b = Ret []) /\
  (a <> b -> linked (joined s) a b ->
     exists l, get_frames s a b = Ret (bg_name (gs_dg s) <$> l) /\ bfs_find (gs_dg s) u v = Ret (Some l) /\
       shortest (vnext (gs_dg s)) u v l /\ shortest (joined s) a b (bg_name (gs_dg s) <$> l)) /\
  (~ linked (joined s) a b -> get_frames s a b = Ret [] /\ bfs_find (gs_dg s) u v = Ret None).
Proof.
  intros Hwf Ha Hb.
  assert (Hu : bg_alive (gs_dg s) u = true) by by eapply wf_map_alive.
  destruct (bfs_find_spec einv (gs_dg s) u v Hwf Hu) as [Hyes Hno]. cbn zeta in *.
  fold (vnext (gs_dg s)) in *.
  unfold get_frames. rewrite (get_vertex_some einv s a u), (get_vertex_some einv s b v) by done. cbn [obind].
  split; [|split].
  - intros ->. replace v with u in * by congruence.
    destruct Hyes as (l & -> & Hr & Hs); [apply linked_refl|]. cbn [obind].
    specialize (Hs [u] (route_refl _ u)). destruct l as [|x [|y l]]; cbn in Hs; [|done|lia].
    by apply route_nil in Hr.
  - intros Hne Hlk. rewrite linked_names in Hlk by done.
    destruct (Hyes Hlk) as (l & Hf & Hsh). exists l. rewrite Hf. cbn [obind].
    destruct Hsh as [Hr Hs].
    assert (Hnames : shortest (joined s) a b (bg_name (gs_dg s) <$> l)).
    { split.
      - apply (names_of_route s) in Hr; [|done].
        by rewrite (bg_name_map einv _ _ _ Hwf Ha), (bg_name_map einv _ _ _ Hwf Hb) in Hr.
      - intros fl Hfl. destruct (vids_of_route s a b fl u Hwf Ha Hfl) as (v' & l' & Hv' & Hl' & <-).
        replace v' with v in Hl' by congruence. rewrite fmap_length. by apply Hs. }
    split; [|done].
    pose proof (route_alive _ _ _ _ Hwf Hu Hr) as Hal.
    destruct (route_inv_snoc _ _ _ _ Hr) as [[-> Heq]|(l' & x & -> & Hr' & Hx)].
    { exfalso. apply Hne. rewrite <- (bg_name_map einv _ _ _ Hwf Ha), <- (bg_name_map einv _ _ _ Hwf Hb).
      by rewrite Heq. }
    rewrite removelast_last. apply Forall_app in Hal as [Hal _].
    rewrite (frame_ids_names s l') by done. cbn [obind].
    destruct l' as [|y l']; [by apply route_nil in Hr'|]. cbn [fmap list_fmap]. f_equal.
    rewrite !fmap_app. cbn. by rewrite (bg_name_map einv _ _ _ Hwf Hb).
  - intros Hn. rewrite linked_names in Hn by done. by rewrite (Hno Hn).
Qed.

(** Being linked is decidable through the search. *)
Lemma get_frames_dec s a b u v : dg_wf (gs_dg s) -> dg_map (gs_dg s) !! a = Some u ->
  dg_map (gs_dg s) !! b = Some v -> linked (joined s) a b \/ ~ linked (joined s) a b.
Proof.
  intros Hwf Ha Hb. rewrite linked_names by done.
  destruct (bfs_trace_spec einv (gs_dg s) (fun _ => true) u Hwf) as (tr & _ & _ & Hres).
  { by eapply wf_map_alive. }
  unfold vnext. rewrite <- (br_disc _ _ _ Hres). 
  destruct (tdep u (BDiscover u :: tr) !! v); [left; eauto|right; by intros [? ?]].
Qed.

(** C09 *)
Lemma get_frames_shortest s a b l : dg_wf (gs_dg s) -> get_frames s a b = Ret l -> l <> [] ->
  shortest (joined s) a b l /\ NoDup l.
Proof.
  intros Hwf Hg Hne.
  destruct (get_vertex_cases einv s a Hwf) as [(u & Ha & Hva)|[_ Hva]].
  2:{ unfold get_frames in Hg. by rewrite Hva in Hg. }
  destruct (get_vertex_cases einv s b Hwf) as [(v & Hb & Hvb)|[_ Hvb]].
  2:{ unfold get_frames in Hg. by rewrite Hva, Hvb in Hg. }
  destruct (get_frames_known s a b u v Hwf Ha Hb) as (H1 & H2 & H3).
  destruct (decide (a = b)) as [Heq|Hab]; [rewrite (H1 Heq) in Hg; congruence|].
  assert (Hlk : linked (joined s) a b).
  { destruct (get_frames_dec s a b u v Hwf Ha Hb) as [|Hn]; [done|].
    destruct (H3 Hn) as [H3' _]. rewrite H3' in Hg. congruence. }
  destruct (H2 Hab Hlk) as (l' & Hg' & _ & _ & Hs). rewrite Hg' in Hg. injection Hg as <-.
  split; [done|]. by eapply shortest_NoDup.
Qed.

(** C10 *)
Lemma get_frames_empty s a b : dg_wf (gs_dg s) ->
  contains_frame s a = true -> contains_frame s b = true ->
  exists l, get_frames s a b = Ret l /\ (l = [] <-> a = b \/ ~ linked (joined s) a b).
Proof.
  intros Hwf. rewrite !(contains_frame_map einv) by done. rewrite !bool_decide_eq_true.
  intros [u Ha] [v Hb]. destruct (get_frames_known s a b u v Hwf Ha Hb) as (H1 & H2 & H3).
  destruct (decide (a = b)) as [Heq|Hab]; [exists []; split; [by apply H1|]; tauto|].
  destruct (get_frames_dec s a b u v Hwf Ha Hb) as [Hlk|Hn].
  - destruct (H2 Hab Hlk) as (l' & Hg' & _ & _ & Hs & _). eexists; split; [exact Hg'|].
    split; [|tauto]. intros Hl. rewrite Hl in Hs. by apply route_nil in Hs.
  - exists []. split; [by apply H3|]. tauto.
Qed.

Lemma get_frames_unknown s a b : dg_wf (gs_dg s) ->
  (contains_frame s a = false -> get_frames s a b = Throw (XUnknownFrame a)) /\
  (contains_frame s a = true -> contains_frame s b = false -> get_frames s a b = Throw (XUnknownFrame b)).
Proof.
  intros Hwf. unfold get_frames.
  destruct (get_vertex_cases einv s a Hwf) as [(u & Ha & ->)|[Ha ->]];
    rewrite !(contains_frame_map einv), Ha by done.
  2:{ split; [done|]. intros Hx. by apply bool_decide_eq_true in Hx as [? ?]. }
  split; [intros Hx; by apply bool_decide_eq_false in Hx; destruct Hx|]. intros _.
  destruct (get_vertex_cases einv s b Hwf) as [(v & Hb & ->)|[Hb ->]]; rewrite Hb; [|done].
  intros Hx; by apply bool_decide_eq_false in Hx; destruct Hx.
Qed.

End search.
