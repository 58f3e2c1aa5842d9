(** Proofs about saving and loading graphs (C54). *)
From stdpp Require Import prelude strings gmap.
From Verif Require Import Outcome ListLib Digraph TreeView GraphModel GraphOps GraphWf GraphStep SpecStore SpecObs
  GraphStore GraphRefine GraphThms GraphCopy ItemClass SerialModel SpecSerial.

Section load.
Context {D E : Type} (einv : E -> E).
Local Notation dg_wf := (dg_wf (D := D) einv).
Implicit Types (g t : digraph D E) (s : gst D E).

(** The loaded parts. *)
Definition lverts (nv mv : nat) (ld : D -> D) g : list (vrec D) :=
  imap (fun k r => VRec (nv + k) (mv + k) (v_name r) (ld (v_data r))) (dg_verts g).
Definition ledges (nv ne : nat) g : list (erec E) :=
  imap (fun k e => ERec (ne + k) (nv + position (e_src e) (dg_verts g)) (nv + position (e_tgt e) (dg_verts g)) (e_prop e)) (dg_edges g).

Lemma lverts_in nv mv ld g r : r ∈ lverts nv mv ld g <->
  exists k q, dg_verts g !! k = Some q /\ r = VRec (nv + k) (mv + k) (v_name q) (ld (v_data q)).
Proof.
  rewrite elem_of_list_lookup. unfold lverts. split.
  - intros [k Hk]. rewrite list_lookup_imap in Hk. destruct (dg_verts g !! k) as [q|] eqn:Hq; [|done]. exists k, q. by injection Hk.
  - intros (k & q & Hq & ->). exists k. rewrite list_lookup_imap. by rewrite Hq.
Qed.
Lemma ledges_in nv ne g e : e ∈ ledges nv ne g <-> exists k q, dg_edges g !! k = Some q /\
  e = ERec (ne + k) (nv + position (e_src q) (dg_verts g)) (nv + position (e_tgt q) (dg_verts g)) (e_prop q).
Proof.
  rewrite elem_of_list_lookup. unfold ledges. split.
  - intros [k Hk]. rewrite list_lookup_imap in Hk. destruct (dg_edges g !! k) as [q|] eqn:Hq; [|done]. exists k, q. by injection Hk.
  - intros (k & q & Hq & ->). exists k. rewrite list_lookup_imap. by rewrite Hq.
Qed.
Lemma lverts_names nv mv ld g : v_name <$> lverts nv mv ld g = v_name <$> dg_verts g.
Proof.
  unfold lverts. rewrite fmap_imap. apply list_eq. intros k. rewrite list_lookup_imap, list_lookup_fmap. by destruct (_ !! k).
Qed.
Lemma imap_seq_from {A} n (l : list A) : imap (fun k _ => n + k) l = seq n (length l).
Proof.
  apply list_eq. intros k. rewrite list_lookup_imap. destruct (l !! k) as [x|] eqn:Hk; cbn.
  - rewrite lookup_seq_lt; [done|]. by eapply lookup_lt_Some.
  - symmetry. apply lookup_seq_ge. by apply lookup_ge_None.
Qed.
Lemma lverts_ids nv mv ld g : v_id <$> lverts nv mv ld g = seq nv (length (dg_verts g)).
Proof. unfold lverts. rewrite fmap_imap. rewrite <- imap_seq_from. apply imap_ext. done. Qed.

(** What loading does. *)
Lemma new_vertices g0 (l : list (frameid * D)) : foldl dg_new_vertex g0 l =
  Digraph (dg_verts g0 ++ imap (fun k x => VRec (dg_nextv g0 + k) (dg_maxvi g0 + k) x.1 x.2) l) (dg_edges g0) (dg_map g0)
    (dg_nextv g0 + length l) (dg_nexte g0) (dg_maxvi g0 + length l) (dg_nv g0 + length l) (dg_ne g0).
Proof.
  revert g0. induction l as [|x l IH]; intros g0.
  - cbn. rewrite app_nil_r, !Nat.add_0_r. by destruct g0.
  - cbn [foldl]. rewrite IH. cbn [dg_new_vertex dg_verts dg_edges dg_map dg_nextv dg_nexte dg_maxvi dg_nv dg_ne length imap].
    rewrite <- app_assoc, !Nat.add_0_r, !Nat.add_succ_comm. cbn [app]. f_equal. f_equal. f_equal. apply imap_ext.
    intros k y _. cbn. by rewrite !Nat.add_succ_r.
Qed.

Lemma new_edges vs (l : list (nat * nat * E)) g0 : (forall i j x, (i, j, x) ∈ l -> is_Some (vs !! i) /\ is_Some (vs !! j)) ->
  load_edges vs l g0 = Some (Digraph (dg_verts g0)
    (dg_edges g0 ++ imap (fun k x => ERec (dg_nexte g0 + k) (default (0 : vid) (vs !! x.1.1)) (default (0 : vid) (vs !! x.1.2)) x.2) l)
    (dg_map g0) (dg_nextv g0) (dg_nexte g0 + length l) (dg_maxvi g0) (dg_nv g0) (dg_ne g0 + length l)).
Proof.
  revert g0. induction l as [|[[i j] x] l IH]; intros g0 Hin.
  - cbn. rewrite app_nil_r, !Nat.add_0_r. by destruct g0.
  - cbn [load_edges]. destruct (Hin i j x) as [[u Hu] [v Hv]]; [left|]. rewrite Hu, Hv.
    rewrite IH by (intros ??? H; by apply (Hin _ _ x0); right).
    cbn [bg_add_edge fst dg_verts dg_edges dg_map dg_nextv dg_nexte dg_maxvi dg_nv dg_ne length imap snd].
    rewrite Hu, Hv. cbn [default from_option id]. rewrite <- app_assoc, !Nat.add_0_r, !Nat.add_succ_comm. cbn [app].
    do 2 f_equal. f_equal. f_equal. apply imap_ext. intros k y _. cbn. by rewrite !Nat.add_succ_r.
Qed.

(* What is there before the saved parts are added. *)
Definition emptied (keep : bool) t : digraph D E :=
  if keep then t else Digraph [] [] (dg_map t) (dg_nextv t) (dg_nexte t) 0 0 0.

Definition lgraph (b : digraph D E) (ld : D -> D) g : digraph D E :=
  let vs := dg_verts b ++ lverts (dg_nextv b) (dg_maxvi b) ld g in
  Digraph vs (dg_edges b ++ ledges (dg_nextv b) (dg_nexte b) g) (regenerate_label_map (dg_map b) vs)
    (dg_nextv b + length (dg_verts g)) (dg_nexte b + length (dg_edges g)) (dg_maxvi b + length (dg_verts g))
    (dg_nv b + length (dg_verts g)) (dg_ne b + length (dg_edges g)).

Lemma load_saved_eq keep ld g s : dg_wf g ->
  load_saved keep ld (save_graph g) s = (gs_set_dg (lgraph (emptied keep (gs_dg s)) ld g) s, [], Ret tt).
Proof.
  intros Hwf. unfold load_saved, load_directed. fold (emptied keep (gs_dg s)). set (b := emptied keep (gs_dg s)).
  assert (Hv : imap (fun k x => VRec (dg_nextv b + k) (dg_maxvi b + k) x.1 x.2) (prod_map id ld <$> sv_frames (save_graph g)) =
    lverts (dg_nextv b) (dg_maxvi b) ld g).
  { cbn [save_graph sv_frames]. rewrite <- list_fmap_compose, imap_fmap. apply imap_ext. done. }
  rewrite new_vertices, Hv. cbn [dg_verts]. rewrite fmap_app, drop_app_alt by (by rewrite fmap_length). rewrite lverts_ids.
  assert (Hpos : forall v, v ∈ v_id <$> dg_verts g ->
    seq (dg_nextv b) (length (dg_verts g)) !! position v (dg_verts g) = Some (dg_nextv b + position v (dg_verts g))).
  { intros v (r & Hr & _)%position_lookup. apply lookup_seq_lt. by eapply lookup_lt_Some. }
  rewrite new_edges.
  - cbn [dg_verts dg_edges dg_map dg_nextv dg_nexte dg_maxvi dg_nv dg_ne]. unfold lgraph.
    assert (He : imap (fun k (x : nat * nat * E) => ERec (dg_nexte b + k)
        (default 0 (seq (dg_nextv b) (length (dg_verts g)) !! x.1.1)) (default 0 (seq (dg_nextv b) (length (dg_verts g)) !! x.1.2)) x.2)
        (sv_edges (save_graph g)) = ledges (dg_nextv b) (dg_nexte b) g).
    { cbn [save_graph sv_edges]. rewrite imap_fmap. apply imap_ext. intros k e He%elem_of_list_lookup_2. cbn.
      rewrite !Hpos by (by apply (wf_src einv _ Hwf) || by apply (wf_tgt einv _ Hwf)). done. }
    match goal with |- context [imap ?h (sv_edges (save_graph g))] => replace (imap h (sv_edges (save_graph g)))
      with (ledges (dg_nextv b) (dg_nexte b) g) by (symmetry; exact He) end.
    cbn [save_graph sv_frames sv_edges]. rewrite !fmap_length. done.
  - intros i j x H. cbn [save_graph sv_edges] in H. apply elem_of_list_fmap in H as (e & [= -> -> ->] & He).
    rewrite !Hpos by (by apply (wf_src einv _ Hwf) || by apply (wf_tgt einv _ Hwf)). by split.
Qed.

(** *** Names that were saved *)
Lemma lgraph_map b ld g f v : dg_wf g -> dg_map g !! f = Some v ->
  dg_map (lgraph b ld g) !! f = Some (dg_nextv b + position v (dg_verts g)).
Proof.
  intros Hwf Hf. cbn [lgraph dg_map]. unfold regenerate_label_map. rewrite foldl_app.
  change (foldl _ (foldl ?h ?m ?vs) ?ws) with (regenerate_label_map (regenerate_label_map m vs) ws).
  apply regenerate_lookup; [rewrite lverts_names; apply (wf_vname einv _ Hwf)|]. left.
  apply (wf_map einv _ Hwf) in Hf as (q & Hq & Hu & Hn). apply elem_of_list_lookup in Hq as [k Hk].
  exists (VRec (dg_nextv b + k) (dg_maxvi b + k) (v_name q) (ld (v_data q))). split; [apply lverts_in; eauto|]. split; [done|].
  cbn. rewrite <- Hu, (position_self k q); [done|apply (wf_vid einv _ Hwf)|done].
Qed.

(** *** Names that were not saved *)
Lemma regenerate_other m (vs : list (vrec D)) f : f ∉ v_name <$> vs -> regenerate_label_map m vs !! f = m !! f.
Proof.
  unfold regenerate_label_map. revert m. induction vs as [|r vs IH]; intros m; [done|]. cbn.
  rewrite not_elem_of_cons. intros [H1 H2]. rewrite IH by done. by rewrite lookup_insert_ne.
Qed.

Lemma lgraph_map_stale b ld g f : dg_wf g -> dg_map g !! f = None -> f ∉ v_name <$> dg_verts b ->
  dg_map (lgraph b ld g) !! f = dg_map b !! f.
Proof.
  intros Hwf Hf Hb. cbn [lgraph dg_map]. rewrite regenerate_other; [done|]. rewrite fmap_app, elem_of_app, lverts_names.
  intros [?|(r & -> & Hr)%elem_of_list_fmap]; [done|].
  rewrite (proj2 (wf_map einv _ Hwf (v_name r) (v_id r))) in Hf by eauto. done.
Qed.

(* A known name stays known. *)
Lemma regenerate_known m (vs : list (vrec D)) f : is_Some (m !! f) -> is_Some (regenerate_label_map m vs !! f).
Proof.
  unfold regenerate_label_map. revert m. induction vs as [|r vs IH]; intros m H; [done|]. cbn. apply IH.
  destruct (decide (v_name r = f)) as [->|Hne]; [rewrite lookup_insert; eauto|by rewrite lookup_insert_ne].
Qed.

(** *** Loading into a graph without other vertices *)
Definition bare (b : digraph D E) : Prop := dg_verts b = [] /\ dg_edges b = [] /\ dg_nv b = 0 /\ dg_ne b = 0 /\ 0 < dg_nextv b /\ 0 < dg_nexte b.

Section bare.
Context (b : digraph D E) (ld : D -> D) (g : digraph D E).
Hypothesis Hb : bare b.
Hypothesis Hwf : dg_wf g.
Hypothesis Hsub : forall f, is_Some (dg_map b !! f) -> is_Some (dg_map g !! f).
Local Notation L := (lgraph b ld g).
Local Notation V := (lverts (dg_nextv b) (dg_maxvi b) ld g).
Local Notation F := (ledges (dg_nextv b) (dg_nexte b) g).

Lemma bare_verts : dg_verts L = V.
Proof. cbn. by destruct Hb as [-> _]. Qed.
Lemma bare_edges : dg_edges L = F.
Proof. cbn. by destruct Hb as (_ & -> & _). Qed.

Lemma bare_map f : dg_map L !! f = (fun v => dg_nextv b + position v (dg_verts g)) <$> dg_map g !! f.
Proof.
  destruct (dg_map g !! f) as [v|] eqn:Hf; cbn [fmap option_fmap option_map]; [by apply lgraph_map|].
  destruct Hb as (Hv & _). rewrite lgraph_map_stale; [|done|done|rewrite Hv; apply not_elem_of_nil].
  apply eq_None_not_Some. intros H%Hsub. rewrite Hf in H. by destruct H.
Qed.

Lemma bare_wf : dg_wf L.
Proof.
  assert (Hal : forall v, v ∈ v_id <$> dg_verts g -> dg_nextv b + position v (dg_verts g) ∈ v_id <$> V).
  { intros v (r & Hr & _)%position_lookup. rewrite lverts_ids. apply elem_of_seq. apply lookup_lt_Some in Hr. lia. }
  pose proof Hb as (Hbv & Hbe & Hnv & Hne & Hv0 & He0).
  split; rewrite ?bare_verts, ?bare_edges.
  - rewrite lverts_ids. apply NoDup_seq.
  - rewrite lverts_names. apply (wf_vname einv _ Hwf).
  - intros f v. rewrite bare_map, fmap_Some. split.
    + intros (u & (q & Hq & Hu & Hn)%(wf_map einv _ Hwf) & ->). apply elem_of_list_lookup in Hq as [k Hk].
      exists (VRec (dg_nextv b + k) (dg_maxvi b + k) (v_name q) (ld (v_data q))). split; [apply lverts_in; eauto|].
      cbn. rewrite <- Hu, (position_self k q); [done|apply (wf_vid einv _ Hwf)|done].
    + intros (r & (k & q & Hq & ->)%lverts_in & Hv & Hf). cbn in Hv, Hf. exists (v_id q). split.
      * apply (wf_map einv _ Hwf). exists q. split; [by eapply elem_of_list_lookup_2|done].
      * by rewrite (position_self k q); [|apply (wf_vid einv _ Hwf)|].
  - intros r (k & q & Hq & ->)%lverts_in. cbn. apply lookup_lt_Some in Hq. lia.
  - cbn. lia.
  - unfold ledges. rewrite fmap_imap. erewrite imap_ext; [|intros ???; cbn; reflexivity]. rewrite imap_seq_from. apply NoDup_seq.
  - intros e (k & q & Hq & ->)%ledges_in. cbn. apply lookup_lt_Some in Hq. lia.
  - cbn. lia.
  - intros e (k & q & Hq & ->)%ledges_in. cbn [e_src]. apply Hal. apply (wf_src einv _ Hwf). by eapply elem_of_list_lookup_2.
  - intros e (k & q & Hq & ->)%ledges_in. cbn [e_tgt]. apply Hal. apply (wf_tgt einv _ Hwf). by eapply elem_of_list_lookup_2.
  - unfold ledges. rewrite fmap_imap. apply NoDup_alt. intros i j p Hi Hj. rewrite list_lookup_imap in Hi, Hj.
    destruct (dg_edges g !! i) as [e|] eqn:He; [|done]. destruct (dg_edges g !! j) as [e'|] eqn:He'; [|done].
    cbn in Hi, Hj. rewrite <- Hi in Hj. injection Hj as Hs Ht.
    pose proof (elem_of_list_lookup_2 _ _ _ He) as Hin. pose proof (elem_of_list_lookup_2 _ _ _ He') as Hin'.
    apply Nat.add_cancel_l, position_inj in Hs; [|by apply (wf_src einv _ Hwf)..].
    apply Nat.add_cancel_l, position_inj in Ht; [|by apply (wf_tgt einv _ Hwf)..].
    eapply NoDup_lookup; [apply (wf_pair einv _ Hwf)| |]; rewrite list_lookup_fmap; [by rewrite He|]. rewrite He'. cbn. by rewrite Hs, Ht.
  - intros e (k & q & Hq & ->)%ledges_in. cbn [e_src e_tgt]. apply elem_of_list_lookup_2 in Hq. intros Heq.
    apply Nat.add_cancel_l, position_inj in Heq; [|by apply (wf_src einv _ Hwf)|by apply (wf_tgt einv _ Hwf)].
    by apply (wf_noself einv _ Hwf q).
  - intros e (k & q & Hq & ->)%ledges_in. apply elem_of_list_lookup_2 in Hq.
    destruct (wf_inv einv _ Hwf q Hq) as (q' & Hq' & Hs & Ht & Hp). apply elem_of_list_lookup in Hq' as [k' Hk'].
    eexists. split; [apply ledges_in; exists k', q'; split; [done|reflexivity]|]. cbn. by rewrite Hs, Ht.
  - cbn [lgraph dg_nv]. rewrite Hnv. unfold lverts. by rewrite imap_length.
  - cbn [lgraph dg_ne]. rewrite Hne. unfold ledges. by rewrite imap_length.
  - unfold lverts. rewrite fmap_imap. erewrite imap_ext; [|intros ???; cbn; reflexivity]. rewrite imap_seq_from. apply NoDup_seq.
  - intros r (k & q & Hq & ->)%lverts_in. cbn. apply lookup_lt_Some in Hq. lia.
Qed.

Lemma bare_repr st : dgrepr g st -> dgrepr L (store_map ld st).
Proof.
  intros Hr. split; rewrite ?bare_verts, ?bare_edges.
  - intros f d. cbn [store_map st_frames]. rewrite lookup_fmap, fmap_Some. split.
    + intros (d1 & (r & Hr0 & Hn & Hd)%(dr_frames _ _ Hr) & ->). apply elem_of_list_lookup in Hr0 as [k Hk].
      eexists. split; [apply lverts_in; exists k, r; split; [done|reflexivity]|]. cbn. by rewrite Hd.
    + intros (r & (k & q & Hq & ->)%lverts_in & Hn & Hd). cbn in *. exists (v_data q). split; [|done].
      apply (dr_frames _ _ Hr). exists q. split; [by eapply elem_of_list_lookup_2|done].
  - intros x y p. cbn [store_map st_edges]. rewrite (dr_edges _ _ Hr). rewrite !bare_map. split.
    + intros (e & He & Ha & Hb0 & Hp). apply elem_of_list_lookup in He as [k Hk].
      eexists. split; [apply ledges_in; exists k, e; split; [done|reflexivity]|]. rewrite Ha, Hb0. done.
    + intros (e & (k & q & Hq & ->)%ledges_in & Ha & Hb0 & Hp). cbn in *. exists q. apply elem_of_list_lookup_2 in Hq as Hin.
      split; [done|]. apply fmap_Some in Ha as (u & Ha & Hu). apply fmap_Some in Hb0 as (v & Hb0 & Hv).
      apply Nat.add_cancel_l, position_inj in Hu; [|by apply (wf_src einv _ Hwf)|by eapply bg_alive_iff, wf_map_alive].
      apply Nat.add_cancel_l, position_inj in Hv; [|by apply (wf_tgt einv _ Hwf)|by eapply bg_alive_iff, wf_map_alive]. by subst.
Qed.
End bare.

Lemma emptied_bare keep t : dg_wf t -> (keep = true -> forall f, dg_map t !! f = None) -> bare (emptied keep t).
Proof.
  intros Hwf Hk. destruct keep; [|by split_and!; cbn; try done; [apply (wf_nv0 einv _ Hwf)|apply (wf_ne0 einv _ Hwf)]].
  specialize (Hk eq_refl). assert (Hv : dg_verts t = []).
  { destruct (dg_verts t) as [|r l] eqn:Hv; [done|]. assert (H : dg_map t !! v_name r = Some (v_id r)).
    { apply (wf_map einv _ Hwf). exists r. rewrite Hv. split; [left|done]. }
    by rewrite Hk in H. }
  assert (He : dg_edges t = []).
  { destruct (dg_edges t) as [|e l] eqn:He; [done|]. assert (H : e_src e ∈ v_id <$> dg_verts t).
    { apply (wf_src einv _ Hwf). rewrite He. left. }
    rewrite Hv in H. by apply elem_of_nil in H. }
  cbn. split_and!; [done|done|by rewrite (wf_nv einv _ Hwf), Hv|by rewrite (wf_ne einv _ Hwf), He|apply (wf_nv0 einv _ Hwf)|
    apply (wf_ne0 einv _ Hwf)].
Qed.

(** *** C54 *)
Lemma load_observes keep ld s0 s st : dg_wf (gs_dg s0) -> dg_wf (gs_dg s) -> observes s0 st ->
  (forall f, contains_frame s f = true -> keep = false /\ contains_frame s0 f = true) ->
  exists s', load_saved keep ld (save_graph (gs_dg s0)) s = (s', [], Ret tt) /\ dg_wf (gs_dg s') /\ observes s' (store_map ld st).
Proof.
  intros Hwf0 Hwf Ho Hdest. rewrite load_saved_eq by done. eexists. split; [reflexivity|].
  assert (Hb : bare (emptied keep (gs_dg s))).
  { apply emptied_bare; [done|]. intros -> f. destruct (dg_map (gs_dg s) !! f) as [v|] eqn:Hf; [|done].
    destruct (Hdest f) as [? _]; [|done]. rewrite (contains_frame_map einv) by done. by rewrite Hf. }
  assert (Hsub : forall f, is_Some (dg_map (emptied keep (gs_dg s)) !! f) -> is_Some (dg_map (gs_dg s0) !! f)).
  { intros f Hf. replace (dg_map (emptied keep (gs_dg s))) with (dg_map (gs_dg s)) in Hf by by destruct keep.
    destruct (Hdest f) as [_ Hc]; [rewrite (contains_frame_map einv) by done; by apply bool_decide_eq_true|].
    rewrite (contains_frame_map einv) in Hc by done. by apply bool_decide_eq_true in Hc. }
  pose proof (bare_wf (emptied keep (gs_dg s)) ld (gs_dg s0) Hb Hwf0 Hsub) as HwfL.
  split; [done|]. apply (dgrepr_observes einv); [done|]. apply bare_repr; [done|done|done|]. by apply (observes_dgrepr einv).
Qed.

Lemma find_app_none {A} (f : A -> bool) l k : (forall x, x ∈ l -> f x = false) -> find f (l ++ k) = find f k.
Proof.
  induction l as [|x l IH]; intros H; [done|]. cbn. rewrite (H x) by left. apply IH. intros y Hy. apply H. by right.
Qed.
Lemma find_app_some {A} (f : A -> bool) l k x : find f l = Some x -> find f (l ++ k) = Some x.
Proof. induction l as [|y l IH]; cbn; [done|]. destruct (f y); [done|]. apply IH. Qed.


Lemma frame_at s f v : dg_map (gs_dg s) !! f = Some v -> 0 < v -> contains_frame s f = true /\
  get_frame_property s f = match bg_vrec (gs_dg s) v with Some r => Ret (v_data r) | None => UB end.
Proof.
  intros Hf Hv. unfold contains_frame, get_frame_property, get_vertex. rewrite (bg_vertex_some _ _ _ Hf). cbv zeta.
  assert (Nat.eqb v null_vertex = false) as -> by (apply Nat.eqb_neq; unfold null_vertex; lia). done.
Qed.
Lemma frame_not_at s f : dg_map (gs_dg s) !! f = None -> contains_frame s f = false.
Proof. intros Hf. unfold contains_frame, bg_vertex. destruct (dg_map (gs_dg s) !! f); done. Qed.

(* Every saved frame is found. *)
Lemma load_finds keep ld s0 s s' f d : dg_wf (gs_dg s0) -> dg_wf (gs_dg s) ->
  load_saved keep ld (save_graph (gs_dg s0)) s = (s', [], Ret tt) -> get_frame_property s0 f = Ret d ->
  contains_frame s' f = true /\ get_frame_property s' f = Ret (ld d).
Proof.
  intros Hwf0 Hwf Hl Hd. rewrite load_saved_eq in Hl by done. injection Hl as <-.
  set (b := emptied keep (gs_dg s)).
  destruct (dg_map (gs_dg s0) !! f) as [v|] eqn:Hf.
  2:{ apply frame_not_at in Hf. unfold contains_frame in Hf. unfold get_frame_property, get_vertex in Hd.
      destruct (Nat.eqb _ _); done. }
  pose proof (lgraph_map b ld (gs_dg s0) f v Hwf0 Hf) as Hm.
  apply (wf_map einv _ Hwf0) in Hf as Hq. destruct Hq as (q & Hq & Hi & _).
  destruct (frame_at s0 f v Hf) as [_ Hd2]; [rewrite <- Hi; apply (wf_vbound einv _ Hwf0 q Hq)|].
  rewrite Hd2 in Hd. rewrite (proj2 (bg_vrec_iff einv _ v q Hwf0)) in Hd by done. injection Hd as <-.
  apply elem_of_list_lookup in Hq as [k Hk].
  assert (Hpos : position v (dg_verts (gs_dg s0)) = k) by (rewrite <- Hi; apply position_self; [apply (wf_vid einv _ Hwf0)|done]).
  rewrite Hpos in Hm.
  assert (Hnext : 0 < dg_nextv b) by (unfold b; destruct keep; apply (wf_nv0 einv _ Hwf)).
  assert (Hrec : bg_vrec (lgraph b ld (gs_dg s0)) (dg_nextv b + k) =
    Some (VRec (dg_nextv b + k) (dg_maxvi b + k) (v_name q) (ld (v_data q)))).
  { unfold bg_vrec. cbn [lgraph dg_verts]. rewrite find_app_none.
    2:{ intros r Hr. apply Nat.eqb_neq. unfold b in *. destruct keep; [|by apply elem_of_nil in Hr].
        pose proof (wf_vbound einv _ Hwf r Hr). cbn. lia. }
    assert (Hin : VRec (dg_nextv b + k) (dg_maxvi b + k) (v_name q) (ld (v_data q)) ∈ lverts (dg_nextv b) (dg_maxvi b) ld (gs_dg s0))
      by (apply lverts_in; eauto).
    assert (Hnd : NoDup (v_id <$> lverts (dg_nextv b) (dg_maxvi b) ld (gs_dg s0))) by (rewrite lverts_ids; apply NoDup_seq).
    destruct (find _ _) as [r|] eqn:Hfd.
    - apply find_some in Hfd as [Hr%elem_of_list_In Hi2%Nat.eqb_eq]. f_equal. by eapply (NoDup_fmap_inj v_id).
    - pose proof (find_none _ _ Hfd _ (proj1 (elem_of_list_In _ _) Hin)) as Hn. cbn in Hn. by rewrite Nat.eqb_refl in Hn. }
  destruct (frame_at (gs_set_dg (lgraph b ld (gs_dg s0)) s) f (dg_nextv b + k) Hm) as [Hc Hp]; [lia|]. split; [done|].
  rewrite Hp. cbn [gs_set_dg gs_dg]. by rewrite Hrec.
Qed.

(* Frames that were not saved stay known. *)
Lemma load_stale keep ld s0 s s' f : dg_wf (gs_dg s0) -> dg_wf (gs_dg s) ->
  load_saved keep ld (save_graph (gs_dg s0)) s = (s', [], Ret tt) -> contains_frame s f = true -> contains_frame s0 f = false ->
  contains_frame s' f = true /\ get_frame_property s' f = if keep then get_frame_property s f else UB.
Proof.
  intros Hwf0 Hwf Hl Hc Hn. rewrite load_saved_eq in Hl by done. injection Hl as <-.
  set (b := emptied keep (gs_dg s)).
  destruct (dg_map (gs_dg s) !! f) as [v|] eqn:Hf; [|by rewrite (frame_not_at _ _ Hf) in Hc].
  destruct (dg_map (gs_dg s0) !! f) as [v0|] eqn:Hf0.
  { rewrite (contains_frame_map einv) in Hn by done. by rewrite Hf0 in Hn. }
  apply (wf_map einv _ Hwf) in Hf as Hq. destruct Hq as (q & Hq & Hi & Hnm).
  pose proof (wf_vbound einv _ Hwf q Hq) as Hb. rewrite Hi in Hb.
  assert (Hm : dg_map (lgraph b ld (gs_dg s0)) !! f = Some v).
  { destruct keep.
    - cbn [b emptied lgraph dg_map]. unfold regenerate_label_map. rewrite foldl_app.
      change (foldl _ (foldl ?h ?m ?vs) ?ws) with (regenerate_label_map (regenerate_label_map m vs) ws).
      rewrite regenerate_other.
      + apply regenerate_lookup; [apply (wf_vname einv _ Hwf)|]. left. eauto.
      + rewrite lverts_names. intros (r & -> & Hr)%elem_of_list_fmap.
        by rewrite (proj2 (wf_map einv _ Hwf0 (v_name r) (v_id r))) in Hf0 by eauto.
    - rewrite lgraph_map_stale; [exact Hf|done|done|]. apply not_elem_of_nil. }
  destruct (frame_at (gs_set_dg (lgraph b ld (gs_dg s0)) s) f v Hm) as [Hc' Hp]; [lia|]. split; [done|].
  rewrite Hp. cbn [gs_set_dg gs_dg]. destruct (frame_at s f v Hf) as [_ ->]; [lia|].
  assert (Hvs : bg_vrec (gs_dg s) v = Some q) by (by apply (bg_vrec_iff einv)).
  destruct keep.
  - rewrite Hvs. unfold bg_vrec in *. cbn [b emptied lgraph dg_verts]. by rewrite (find_app_some _ _ _ _ Hvs).
  - destruct (bg_vrec _ v) as [r|] eqn:Hr; [|done]. unfold bg_vrec in Hr. cbn [b emptied lgraph dg_verts app] in Hr.
    apply find_some in Hr as [Hr%elem_of_list_In Heq%Nat.eqb_eq]. apply lverts_in in Hr as (k & r0 & _ & ->). cbn in Heq. lia.
Qed.

End load.

Section reach.
Context {D E : Type} (d0 : D) (einv : E -> E).
Implicit Types s : gst D E.

Lemma load_observes_reachable keep ld s0 s st : reachable d0 einv s0 -> reachable d0 einv s -> observes s0 st ->
  (forall f, contains_frame s f = true -> keep = false /\ contains_frame s0 f = true) ->
  exists s', load_saved keep ld (save_graph (gs_dg s0)) s = (s', [], Ret tt) /\ observes s' (store_map ld st).
Proof.
  intros H0%reachable_wf H%reachable_wf Ho Hd. destruct (load_observes einv keep ld s0 s st H0 H Ho Hd) as (s' & ? & _ & ?). by exists s'.
Qed.
Lemma load_finds_reachable keep ld s0 s : reachable d0 einv s0 -> reachable d0 einv s ->
  exists s', load_saved keep ld (save_graph (gs_dg s0)) s = (s', [], Ret tt) /\
    forall f d, get_frame_property s0 f = Ret d -> contains_frame s' f = true /\ get_frame_property s' f = Ret (ld d).
Proof.
  intros H0%reachable_wf H%reachable_wf. eexists. split; [by apply (load_saved_eq einv)|]. intros f d.
  eapply load_finds; [done|done|]. by apply (load_saved_eq einv).
Qed.
Lemma load_stale_reachable keep ld s0 s : reachable d0 einv s0 -> reachable d0 einv s ->
  exists s', load_saved keep ld (save_graph (gs_dg s0)) s = (s', [], Ret tt) /\
    forall f, contains_frame s f = true -> contains_frame s0 f = false ->
      contains_frame s' f = true /\ get_frame_property s' f = if keep then get_frame_property s f else UB.
Proof.
  intros H0%reachable_wf H%reachable_wf. eexists. split; [by apply (load_saved_eq einv)|]. intros f.
  eapply load_stale; [done|done|]. by apply (load_saved_eq einv).
Qed.
End reach.
