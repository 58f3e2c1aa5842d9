(** Lemmas about the structure visualisation. *)
From stdpp Require Import prelude strings gmap.
From Verif Require Import ListLib Outcome Digraph Bfs TreeView GraphModel GraphOps GraphWf GraphStep GraphRefine SpecStore SpecObs GraphThms
  SpecWalk WalkThms BfsThms BfsFind SpecTree BuildThms SpecSearch GraphSearch SyncThms TransformModel VizModel SpecViz.

Section viz.
Context {D T : Type} (d0 : D) (one : T) (mul : T -> T -> T) (inv : T -> T).
Local Notation einv := (tf_inverse inv).
Local Notation dg_wf := (dg_wf einv).
Implicit Types (s : gst D (tf T)) (sc : scene T) (tr : list (bev (tf T))).

(** Names of vertices. *)
Local Notation nm s := (bg_name (gs_dg s)).

Lemma alive_name s v : dg_wf (gs_dg s) -> bg_alive (gs_dg s) v = true ->
  get_frame_id s v = Ret (nm s v) /\ dg_map (gs_dg s) !! nm s v = Some v.
Proof.
  intros Hwf Hv. destruct (wf_alive_map einv _ _ Hwf Hv) as (f & Hf & _).
  rewrite (bg_name_map einv _ _ _ Hwf Hf). split; [|done]. by apply (get_frame_id_some einv).
Qed.

Lemma name_inj s u v : dg_wf (gs_dg s) -> bg_alive (gs_dg s) u = true -> bg_alive (gs_dg s) v = true ->
  nm s u = nm s v -> u = v.
Proof.
  intros Hwf Hu Hv Heq. destruct (alive_name s u Hwf Hu) as [_ H1]. destruct (alive_name s v Hwf Hv) as [_ H2].
  rewrite Heq in H1. congruence.
Qed.

Lemma edge_transform s e : dg_wf (gs_dg s) -> e ∈ dg_edges (gs_dg s) ->
  get_transform_v one mul s (e_src e) (e_tgt e) = Ret (e_prop e).
Proof.
  intros Hwf He. unfold get_transform_v. destruct (Nat.eqb_spec (num_edges s) 0) as [H0|_].
  { exfalso. unfold num_edges in H0. rewrite (wf_ne einv _ Hwf) in H0. apply nil_length_inv in H0.
    rewrite H0 in He. by apply elem_of_nil in He. }
  rewrite find_edge_alive by by apply (wf_src_alive einv). cbn [obind].
  by rewrite (proj2 (bg_edge_iff einv _ _ _ e Hwf)).
Qed.

Lemma edge_property s e : dg_wf (gs_dg s) -> e ∈ dg_edges (gs_dg s) ->
  get_edge_property s (nm s (e_src e)) (nm s (e_tgt e)) = Ret (e_prop e).
Proof.
  intros Hwf He. pose proof (wf_src_alive einv _ e Hwf He) as Hs. pose proof (wf_tgt_alive einv _ e Hwf He) as Ht.
  destruct (alive_name s _ Hwf Hs) as [_ H1]. destruct (alive_name s _ Hwf Ht) as [_ H2].
  unfold get_edge_property, get_edge. rewrite (get_vertex_some einv _ _ _ Hwf H1), (get_vertex_some einv _ _ _ Hwf H2).
  cbn [obind]. unfold get_edge_v. rewrite find_edge_alive by done. cbn [obind].
  rewrite (proj2 (bg_edge_iff einv _ _ _ e Hwf)) by done. cbn [obind].
  unfold get_edge_property_e. by rewrite (proj2 (bg_erec_iff einv _ _ e Hwf)).
Qed.

Definition named s (e : erec (tf T)) : frameid * frameid * tf T := (nm s (e_src e), nm s (e_tgt e), e_prop e).
Definition ends s (e : erec (tf T)) : frameid * frameid := (nm s (e_src e), nm s (e_tgt e)).

Lemma elem_need f sc g : f ∈ sc_frames (sc_need g sc) <-> f = g \/ f ∈ sc_frames sc.
Proof. unfold sc_need. case_bool_decide; cbn; set_solver. Qed.
Lemma NoDup_need sc g : NoDup (sc_frames sc) -> NoDup (sc_frames (sc_need g sc)).
Proof.
  intros H. unfold sc_need. case_bool_decide; [done|]. cbn. apply NoDup_app.
  split; [done|]. split; [set_solver|apply NoDup_singleton].
Qed.
Lemma need_rest sc g : sc_tfs (sc_need g sc) = sc_tfs sc /\ sc_links (sc_need g sc) = sc_links sc /\ sc_root (sc_need g sc) = sc_root sc.
Proof. unfold sc_need. by case_bool_decide. Qed.

(** The frames drawn when the search has discovered [d]. *)
Definition drawn s (root : vid) (d : gset vid) sc : Prop :=
  NoDup (sc_frames sc) /\
  ((d = {[root]} /\ sc_frames sc = []) \/ (forall f, f ∈ sc_frames sc <-> exists v, v ∈ d /\ nm s v = f)).

Lemma signals_drawn s root d tr sc : dg_wf (gs_dg s) -> tw d tr -> drawn s root d sc ->
  (forall v, v ∈ d -> bg_alive (gs_dg s) v = true) ->
  (forall e, BTree e ∈ tr \/ BGray e ∈ tr -> e ∈ dg_edges (gs_dg s)) ->
  exists sc', on_signals one mul s (mjoin (sigs_of <$> tr)) sc = Ret sc' /\ drawn s root (d ∪ dset tr) sc' /\
    sc_tfs sc' = sc_tfs sc ++ (named s <$> te tr) /\ sc_links sc' = sc_links sc ++ (ends s <$> ge tr).
Proof.
  intros Hwf H. revert sc. induction H as [d|d e tr Hs Ht H IH|d e tr Hs Ht H IH|d e tr H IH|d v tr H IH]; intros sc Hd Hal He.
  - exists sc. cbn. unfold dset. cbn. rewrite union_empty_r_L, !app_nil_r. done.
  - assert (Hin : e ∈ dg_edges (gs_dg s)) by (apply He; left; left).
    pose proof (wf_src_alive einv _ e Hwf Hin) as Hsa. pose proof (wf_tgt_alive einv _ e Hwf Hin) as Hta.
    destruct (alive_name s _ Hwf Hsa) as [Hn1 _]. destruct (alive_name s _ Hwf Hta) as [Hn2 _].
    cbn [fmap list_fmap sigs_of mjoin list_join app on_signals].
    unfold on_edge_added. rewrite (edge_transform s e Hwf Hin), Hn1, Hn2. cbn [obind].
    set (sc1 := sc_need (nm s (e_tgt e)) (sc_need (nm s (e_src e)) sc)).
    assert (Hrest : sc_tfs sc1 = sc_tfs sc /\ sc_links sc1 = sc_links sc).
    { unfold sc1. destruct (need_rest (sc_need (nm s (e_src e)) sc) (nm s (e_tgt e))) as (-> & -> & _).
      by destruct (need_rest sc (nm s (e_src e))) as (-> & -> & _). }
    destruct Hrest as [Hr1 Hr2].
    destruct (IH (Scene (sc_frames sc1) (sc_tfs sc1 ++ [named s e]) (sc_links sc1) (sc_root sc1))) as (sc' & E1 & E2 & E3 & E4).
    + destruct Hd as [Hnd Hd]. split; [by apply NoDup_need, NoDup_need|]. right. cbn [sc_frames]. intros f. unfold sc1. rewrite !elem_need.
      destruct Hd as [[-> Hnil]|Hd].
      * rewrite Hnil. apply elem_of_singleton in Hs. rewrite Hs. split.
        -- intros [->|[->|?%elem_of_nil]]; [exists (e_tgt e)|exists root|done]; set_solver.
        -- intros (v & Hv & <-). set_solver.
      * rewrite Hd. split.
        -- intros [->|[->|(v & Hv & <-)]]; [exists (e_tgt e)|exists (e_src e)|exists v]; set_solver.
        -- intros (v & Hv & <-). apply elem_of_union in Hv as [->%elem_of_singleton|Hv]; [by left|]. right. right. eauto.
    + intros v [->%elem_of_singleton|Hv]%elem_of_union; [done|by apply Hal].
    + intros e' Hor. apply He. set_solver.
    + exists sc'. cbn [sc_tfs sc_links] in E3, E4. split; [exact E1|]. split.
      * unfold dset. cbn. fold (dset tr). replace (d ∪ ({[e_tgt e]} ∪ dset tr)) with ({[e_tgt e]} ∪ d ∪ dset tr) by set_solver. exact E2.
      * split; [|rewrite E4, Hr2; done]. rewrite E3, Hr1. unfold te. cbn. by rewrite <- app_assoc.
  - assert (Hin : e ∈ dg_edges (gs_dg s)) by (apply He; right; left).
    pose proof (wf_src_alive einv _ e Hwf Hin) as Hsa. pose proof (wf_tgt_alive einv _ e Hwf Hin) as Hta.
    destruct (alive_name s _ Hwf Hsa) as [Hn1 _]. destruct (alive_name s _ Hwf Hta) as [Hn2 _].
    cbn [fmap list_fmap sigs_of mjoin list_join app on_signals].
    unfold on_cross_edge_added. cbn [ce_origin ce_target cross_of]. rewrite Hn1, Hn2. cbn [obind].
    destruct Hd as [Hnd Hd]. destruct Hd as [[-> Hnil]|Hd].
    { apply elem_of_singleton in Hs, Ht. destruct (wf_noself einv _ Hwf e Hin). congruence. }
    assert (Hf1 : nm s (e_src e) ∈ sc_frames sc) by (apply Hd; eauto).
    assert (Hf2 : nm s (e_tgt e) ∈ sc_frames sc) by (apply Hd; eauto).
    rewrite !bool_decide_true by done. cbn [andb obind].
    destruct (IH (Scene (sc_frames sc) (sc_tfs sc) (sc_links sc ++ [ends s e]) (sc_root sc))) as (sc' & E1 & E2 & E3 & E4).
    + split; [done|by right].
    + done.
    + intros e' Hor. apply He. set_solver.
    + exists sc'. split; [exact E1|]. split; [exact E2|]. split; [exact E3|]. rewrite E4. cbn. by rewrite <- app_assoc.
  - destruct (IH sc Hd Hal) as (sc' & E1 & E2 & E3 & E4); [intros e' Hor; apply He; set_solver|]. by exists sc'.
  - destruct (IH sc Hd Hal) as (sc' & E1 & E2 & E3 & E4); [intros e' Hor; apply He; set_solver|]. by exists sc'.
Qed.

Lemma te_NoDup tr : NoDup (ex tr) -> NoDup (te tr).
Proof.
  induction tr as [|b tr IH]; [done|]. unfold ex, te. cbn. fold (ex tr) (te tr).
  destruct b; cbn; try done; try (intros [_ H]%NoDup_cons; by apply IH).
  intros [Hn H]%NoDup_cons. constructor; [|by apply IH]. intros He. apply Hn.
  apply elem_ex. left. by apply elem_te.
Qed.

(** Tree edges between two vertices. *)
Lemma tree_once s root tr e e' : dg_wf (gs_dg s) -> bfs_result (fout (gs_dg s) (fun _ => true)) root tr ->
  e ∈ dg_edges (gs_dg s) -> e' ∈ dg_edges (gs_dg s) -> e_src e' = e_tgt e -> e_tgt e' = e_src e ->
  BTree e ∈ tr -> BTree e' ∈ tr -> False.
Proof.
  intros Hwf Hres He He' Hs Ht H1 H2. pose proof (ex_NoDup _ _ _ _ _ Hwf Hres) as Hnd.
  assert (Hx : e ∈ ex tr) by (apply elem_ex; auto). assert (Hx' : e' ∈ ex tr) by (apply elem_ex; auto).
  destruct (br_pair _ _ _ Hres e e' Hx Hx' (wf_noself einv _ Hwf e He) Hs Ht) as [_ P].
  assert (BTree e' = BBlack e') by (eapply (omap_NoDup_inj _ tr _ _ e' Hnd H2); auto). done.
Qed.

Lemma traced_edge s root tr e : bfs_result (fout (gs_dg s) (fun _ => true)) root tr -> e ∈ ex tr ->
  e ∈ dg_edges (gs_dg s) /\ is_Some (tdep root tr !! e_src e).
Proof.
  intros Hres He. assert (Hf : e ∈ filter (fun y => e_src y = e_src e) (ex tr)) by by apply elem_of_list_filter.
  rewrite (br_ex _ _ _ Hres) in Hf. case_decide; [|by apply elem_of_nil in Hf].
  by apply elem_fout in Hf as (_ & _ & ?).
Qed.
Lemma filter_fmap_length {A B} (f : A -> B) (P : B -> Prop) (Q : A -> Prop) `{!forall x, Decision (P x)} `{!forall x, Decision (Q x)} l :
  (forall x, x ∈ l -> P (f x) <-> Q x) -> length (filter P (f <$> l)) = length (filter Q l).
Proof.
  induction l as [|x l IH]; intros Hpq; [done|]. cbn [fmap list_fmap]. rewrite !filter_cons.
  assert (Hx : P (f x) <-> Q x) by (apply Hpq; left).
  assert (Hl : length (filter P (f <$> l)) = length (filter Q l)) by (apply IH; intros; apply Hpq; by right).
  repeat case_decide; cbn; rewrite ?Hl; tauto.
Qed.

Lemma draw_component s root g : reachable d0 einv s -> joined s root g ->
  exists sc, draw_graph one mul s root = Ret sc /\ shows_component s root sc.
Proof.
  intros Hre Hj. pose proof (reachable_wf d0 einv s Hre) as Hwf.
  apply (joined_vnext einv) in Hj as Hj'; [|done]. destruct Hj' as (r & v & Hr & Hv & Hrv).
  pose proof (wf_map_alive einv _ _ _ Hwf Hr) as Hal. pose proof (bg_name_map einv _ _ _ Hwf Hr) as Hnr.
  destruct (bfs_trace_spec einv (gs_dg s) (fun _ => true) r Hwf Hal) as (tr & Htr & Htw & Hres).
  set (ftr := BDiscover r :: tr) in *.
  assert (Hnv : num_vertices s <> 0).
  { unfold num_vertices. rewrite (wf_nv einv _ Hwf). apply bg_alive_iff in Hal. intros H0%nil_length_inv. rewrite H0 in Hal.
    by apply elem_of_nil in Hal. }
  unfold draw_graph. destruct (Nat.eqb_spec (num_vertices s) 0) as [|_]; [done|].
  rewrite (get_vertex_some einv _ _ _ Hwf Hr). cbn [obind]. unfold get_tree_into. rewrite Htr. cbn [obind]. rewrite build_log.
  change (tv_log (tv_add_root r tv_new) ++ mjoin (sigs_of <$> ftr)) with (mjoin (sigs_of <$> tr)).
  assert (Hedge : forall e, BTree e ∈ ftr \/ BGray e ∈ ftr -> e ∈ dg_edges (gs_dg s) /\ is_Some (tdep r ftr !! e_src e)).
  { intros e He. apply (traced_edge s r ftr); [done|]. apply elem_ex. tauto. }
  destruct (signals_drawn s r {[r]} tr scene0 Hwf Htw) as (sc & E1 & (Hnd & E2) & E3 & E4).
  { split; [constructor|]. left. done. }
  { by intros x ->%elem_of_singleton. }
  { intros e He. apply Hedge. set_solver. }
  rewrite E1. cbn [obind]. eexists. split; [done|].
  assert (Hdisc : forall x, x ∈ {[r]} ∪ dset tr <-> linked (vnext (gs_dg s)) r x).
  { intros x. rewrite <- (br_disc _ _ _ Hres x). unfold ftr. rewrite dset_disc by done. set_solver. }
  assert (Halive : forall x, x ∈ {[r]} ∪ dset tr -> bg_alive (gs_dg s) x = true).
  { intros x [->%elem_of_singleton|Hx]%elem_of_union; [done|]. by apply (tree_dset_alive einv _ _ r ftr x Hwf Hres). }
  assert (Hframes : forall f, f ∈ sc_frames sc <-> exists v, v ∈ {[r]} ∪ dset tr /\ nm s v = f).
  { destruct E2 as [[E2 _]|E2]; [|done]. exfalso.
    assert (Hvd : v ∈ {[r]} ∪ dset tr) by (apply Hdisc, linked_step; done).
    rewrite E2 in Hvd. apply elem_of_singleton in Hvd as ->. apply vnext_iff in Hrv as (e & He & He1 & He2).
    destruct (wf_noself einv _ Hwf e He). congruence. }
  assert (Hsd : forall x, is_Some (tdep r ftr !! x) <-> x ∈ {[r]} ∪ dset tr).
  { intros x. unfold ftr. rewrite dset_disc by done. set_solver. }
  change (sc_tfs scene0) with (@nil (frameid * frameid * tf T)) in E3. change (sc_links scene0) with (@nil (frameid * frameid)) in E4.
  cbn [app] in E3, E4.
  assert (Hte : forall e, e ∈ te tr <-> BTree e ∈ ftr).
  { intros e. rewrite elem_te. unfold ftr. set_solver. }
  assert (Hge : forall e, e ∈ ge tr <-> BGray e ∈ ftr).
  { intros e. rewrite elem_ge. unfold ftr. set_solver. }
  pose proof (ex_NoDup _ _ _ _ _ Hwf Hres) as Hexnd.
  assert (Htnd : NoDup (te tr)) by (apply te_NoDup; exact Hexnd).
  assert (Hea : forall e, e ∈ te tr -> e ∈ dg_edges (gs_dg s) /\ bg_alive (gs_dg s) (e_src e) = true /\ bg_alive (gs_dg s) (e_tgt e) = true).
  { intros e He%Hte. destruct (Hedge e) as [Hin _]; [by left|]. split; [done|].
    split; [by apply (wf_src_alive einv)|by apply (wf_tgt_alive einv)]. }
  split; cbn [sc_frames sc_tfs sc_links sc_root].
  - done.
  - intros f. rewrite Hframes. split.
    + intros (x & Hx & <-). destruct (alive_name s x Hwf (Halive x Hx)) as [_ Hm].
      rewrite (linked_names einv s root (nm s x) r x Hwf Hr Hm). by apply Hdisc.
    + intros Hl. destruct Hl as [fl Hfl]. destruct (vids_of_route einv s root f fl r Hwf Hr Hfl) as (x & l & Hx & Hl & _).
      exists x. split; [apply Hdisc; by exists l|]. by apply (bg_name_map einv).
  - intros a b x Hx. rewrite E3 in Hx. apply elem_of_list_fmap in Hx as (e & Heq & He). injection Heq as -> -> ->.
    apply edge_property; [done|]. by apply Hea.
  - intros a b Hx. rewrite E4 in Hx. apply elem_of_list_fmap in Hx as (e & Heq & He%Hge). injection Heq as -> ->.
    destruct (Hedge e) as [Hin _]; [by right|]. apply (joined_vnext einv); [done|].
    exists (e_src e), (e_tgt e). split; [by apply alive_name, (wf_src_alive einv)|]. split; [by apply alive_name, (wf_tgt_alive einv)|].
    apply vnext_iff. eauto.
  - intros f (x & Hx & <-)%Hframes Hne.
    assert (Hxr : x <> r) by (intros ->; done).
    destruct (br_tsome _ _ _ Hres x) as (e & He & Het); [by apply Hsd|done|].
    exists (nm s (e_src e)), (e_prop e). unfold placed_by. cbn [sc_tfs]. rewrite E3.
    assert (Hfil : filter (fun e => e_tgt e = x) (te tr) = [e]).
    { apply NoDup_one; [by apply NoDup_filter|]. intros e2. rewrite elem_of_list_filter, Hte. split.
      - intros [H2 He2]. apply (br_tuniq _ _ _ Hres); [done|done|congruence].
      - by intros ->. }
    transitivity (named s <$> filter (fun e => e_tgt e = x) (te tr)); [|rewrite Hfil; cbn; unfold named; by rewrite Het].
    assert (Hall : forall e, e ∈ te tr -> bg_alive (gs_dg s) (e_tgt e) = true) by (intros e2 H2; by apply Hea).
    pose proof (Halive x Hx) as Hxa. clear -Hall Hxa Hwf. induction (te tr) as [|e l IH]; [done|].
    cbn [fmap list_fmap]. rewrite !filter_cons. cbn [named fst snd].
    specialize (IH ltac:(intros; apply Hall; by right)).
    assert (Hp : nm s (e_tgt e) = nm s x <-> e_tgt e = x).
    { split; [|by intros ->]. apply name_inj; [done|apply Hall; left|done]. }
    destruct (decide (nm s (e_tgt e) = nm s x)) as [H1|H1]; destruct (decide (e_tgt e = x)) as [H2|H2]; cbn; rewrite ?IH; tauto.
  - split; [|done]. unfold placed_by. cbn [sc_tfs]. apply filter_none. rewrite E3. intros y Hy.
    apply elem_of_list_fmap in Hy as (e & -> & He). cbn. intros Heq. apply Hte in He as He'.
    destruct (br_tree _ _ _ Hres e He') as (Hnt & _). apply Hnt. apply (name_inj s); [done|by apply Hea|done|congruence].
  - intros f (x & Hx & <-)%Hframes. rewrite <- Hnr. rewrite E3. 
    assert (Hn : forall n x, dp r ftr x <= n -> x ∈ {[r]} ∪ dset tr -> linked (fun a b => (a, b) ∈ (named s <$> te tr).*1) (nm s r) (nm s x)).
    { clear x Hx. induction n as [|n IH]; intros x Hn Hx; (destruct (decide (x = r)) as [->|Hxr]; [apply linked_refl|]);
        (destruct (br_tsome _ _ _ Hres x) as (e & He & Het); [by apply Hsd|done|]);
        destruct (br_tree _ _ _ Hres e He) as (_ & _ & Hsrc & _ & Hd); rewrite Het in Hd; [lia|].
      apply (linked_trans _ _ (nm s (e_src e))); [apply IH; [lia|by apply Hsd]|]. apply linked_step.
      apply elem_of_list_fmap. exists (named s e). split; [by rewrite <- Het|]. by apply elem_of_list_fmap_1, Hte. }
    by apply (Hn (dp r ftr x)).
  - intros a b Hab Hla. apply (joined_vnext einv) in Hab; [|done]. destruct Hab as (u & w & Hu & Hw & Huw).
    rewrite (linked_names einv s root a r u Hwf Hr Hu) in Hla.
    apply vnext_iff in Huw as (e & He & Hes & Het).
    destruct (wf_inv einv _ Hwf e He) as (e' & He' & Hs' & Ht' & _).
    assert (Hso : is_Some (tdep r ftr !! e_src e)).
    { apply Hsd, Hdisc. by rewrite Hes. }
    pose proof (pair_once einv _ (fun _ => true) r ftr e e' Hwf Hres He He' Hs' Ht' eq_refl eq_refl Hso) as Hpo.
    pose proof (bg_name_map einv _ _ _ Hwf Hu) as Hnu. pose proof (bg_name_map einv _ _ _ Hwf Hw) as Hnw.
    pose proof (wf_map_alive einv _ _ _ Hwf Hu) as Hua. pose proof (wf_map_alive einv _ _ _ Hwf Hw) as Hwa.
    unfold times_drawn. cbn [sc_tfs sc_links]. rewrite E3, E4. rewrite filter_app, app_length.
    assert (Hse : forall x, x ∈ dg_edges (gs_dg s) -> same_ends a b (ends s x) <-> between (e_src e) (e_tgt e) (cross_of x)).
    { intros x Hx. pose proof (wf_src_alive einv _ x Hwf Hx) as Hxs. pose proof (wf_tgt_alive einv _ x Hwf Hx) as Hxt.
      unfold same_ends, ends, between, cross_of. cbn. rewrite Hes, Het, <- Hnu, <- Hnw. split.
      - intros [[= H1 H2]|[= H1 H2]]; [left|right]; (split; apply (name_inj s); done).
      - intros [[-> ->]|[-> ->]]; [by left|by right]. }
    rewrite <- list_fmap_compose. change (fst ∘ named s) with (ends s).
    rewrite (filter_fmap_length (ends s) (same_ends a b) (fun x => between (e_src e) (e_tgt e) (cross_of x)) (te tr)) by (intros x Hx; apply Hse, Hea, Hx).
    rewrite (filter_fmap_length (ends s) (same_ends a b) (fun x => between (e_src e) (e_tgt e) (cross_of x)) (ge tr))
      by (intros x Hx%Hge; apply Hse, Hedge; by right).
    assert (Hg1 : length (filter (fun x => between (e_src e) (e_tgt e) (cross_of x)) (ge tr)) =
                  length (filter (between (e_src e) (e_tgt e)) (cross_of <$> ge ftr))).
    { change (ge ftr) with (ge tr). symmetry. by apply filter_fmap_length. }
    rewrite Hg1.
    assert (Hends : forall x, x ∈ te tr -> between (e_src e) (e_tgt e) (cross_of x) <-> x = e \/ x = e').
    { intros x Hx. destruct (Hea x Hx) as [Hxin _]. split.
      - intros [[H1 H2]|[H1 H2]]; cbn in *; [left|right]; (eapply (edge_by_ends einv); [done..| |]; congruence).
      - intros [->| ->]; [left|right]; cbn; auto. }
    assert (Hboth : BTree e ∈ ftr -> BTree e' ∈ ftr -> False) by by apply (tree_once s r ftr e e').
    destruct Hpo as [[Ht0 ->]|[Ht0 ->]].
    + assert (Hone : exists x, filter (fun x => between (e_src e) (e_tgt e) (cross_of x)) (te tr) = [x]); [|destruct Hone as [x ->]; done].
      destruct Ht0 as [Ht0|Ht0]; [exists e|exists e']; (apply NoDup_one; [by apply NoDup_filter|]); intros x; rewrite elem_of_list_filter; split.
      * intros [Hb Hx]. destruct (proj1 (Hends x Hx) Hb) as [->| ->]; [done|]. exfalso. apply Hboth; [done|by apply Hte].
      * intros ->. assert (e ∈ te tr) by by apply Hte. split; [apply Hends; auto|done].
      * intros [Hb Hx]. destruct (proj1 (Hends x Hx) Hb) as [->| ->]; [|done]. exfalso. apply Hboth; [by apply Hte|done].
      * intros ->. assert (e' ∈ te tr) by by apply Hte. split; [apply Hends; auto|done].
    + rewrite filter_none; [done|]. intros x Hx Hb. apply (Hends x Hx) in Hb. apply Ht0. apply Hte in Hx. destruct Hb as [<-|<-]; auto.
Qed.

(** A root without neighbours. *)
Lemma draw_alone s root : reachable d0 einv s -> contains_frame s root = true -> (forall g, ~ joined s root g) ->
  draw_graph one mul s root = Ret (Scene [] [] [] (Some root)).
Proof.
  intros Hre Hc Hno. pose proof (reachable_wf d0 einv s Hre) as Hwf.
  rewrite (contains_frame_map einv) in Hc by done. apply bool_decide_eq_true in Hc as [r Hr].
  pose proof (wf_map_alive einv _ _ _ Hwf Hr) as Hal.
  destruct (bfs_trace_spec einv (gs_dg s) (fun _ => true) r Hwf Hal) as (tr & Htr & Htw & Hres).
  unfold draw_graph. destruct (Nat.eqb_spec (num_vertices s) 0) as [H0|_].
  { exfalso. unfold num_vertices in H0. rewrite (wf_nv einv _ Hwf) in H0. apply bg_alive_iff in Hal. apply nil_length_inv in H0.
    rewrite H0 in Hal. by apply elem_of_nil in Hal. }
  rewrite (get_vertex_some einv _ _ _ Hwf Hr). cbn [obind]. unfold get_tree_into. rewrite Htr. cbn [obind]. rewrite build_log.
  assert (Hnone : forall e, e ∈ dg_edges (gs_dg s) -> e_src e <> r).
  { intros e He Hs. apply (Hno (nm s (e_tgt e))). apply (joined_vnext einv); [done|]. exists r, (e_tgt e). split; [done|].
    split; [by apply alive_name, (wf_tgt_alive einv)|]. apply vnext_iff. eauto. }
  assert (Hsig : forall b, b ∈ tr -> sigs_of b = []).
  { assert (Hx : forall e, e ∈ ex (BDiscover r :: tr) -> False).
    { intros e He. destruct (traced_edge s r _ e Hres He) as [Hin Hd]. apply (br_disc _ _ _ Hres) in Hd.
      assert (Hl : forall x, linked (next (fout (gs_dg s) (fun _ => true))) r x -> x = r).
      { apply linked_ind_r; [done|]. intros x y _ -> Hxy. exfalso. apply vnext_iff in Hxy as (e2 & He2 & Hs2 & _).
        by apply (Hnone e2). }
      by apply (Hnone e), Hl. }
    intros b Hb. destruct b as [v|e|e|e|v]; try done; exfalso; apply (Hx e), elem_ex; set_solver. }
  assert (Hlog : mjoin (sigs_of <$> BDiscover r :: tr) = []).
  { cbn. clear -Hsig. induction tr as [|b tr IH]; [done|]. cbn. rewrite (Hsig b) by left. apply IH. intros c Hc. apply Hsig. by right. }
  rewrite Hlog. done.
Qed.

Lemma draw_empty s root : num_vertices s = 0 -> draw_graph one mul s root = Ret (Scene [] [] [] None).
Proof. intros H. unfold draw_graph. by rewrite H. Qed.

Lemma draw_unknown s root : num_vertices s <> 0 -> contains_frame s root = false ->
  draw_graph one mul s root = Throw (XUnknownFrame root).
Proof.
  intros Hn Hc. unfold draw_graph. destruct (Nat.eqb_spec (num_vertices s) 0); [done|].
  unfold contains_frame in Hc. unfold get_vertex. destruct (Nat.eqb _ _); done.
Qed.

(** Whatever root the graph knows, drawing succeeds. *)
Lemma draw_ret s root : reachable d0 einv s -> contains_frame s root = true -> exists sc, draw_graph one mul s root = Ret sc.
Proof.
  intros Hre Hc. pose proof (reachable_wf d0 einv s Hre) as Hwf.
  destruct (existsb (fun f => match contains_edge s root f with Ret b => b | _ => false end) (v_name <$> dg_verts (gs_dg s))) eqn:H.
  - apply existsb_exists in H as (f & _ & Hf). destruct (contains_edge s root f) as [[]| | |] eqn:Hce; try done.
    destruct (draw_component s root f Hre Hce) as (sc & ? & _). eauto.
  - eexists. apply draw_alone; [done|done|]. intros g Hg. apply not_true_iff_false in H. apply H. apply existsb_exists. exists g.
    split; [|unfold joined in Hg; by rewrite Hg]. apply elem_of_list_In.
    apply joined_known in Hg as [_ Hg]. rewrite (contains_frame_map einv) in Hg by done.
    apply bool_decide_eq_true in Hg as [v Hv]. apply (wf_map einv _ Hwf) in Hv as (r & Hr & _ & <-). by apply elem_of_list_fmap_1.
Qed.

(** *** The list of roots *)

Lemma names_listed s : dg_wf (gs_dg s) ->
  frame_ids s (v_id <$> dg_verts (gs_dg s)) = Ret (v_name <$> dg_verts (gs_dg s)) /\ lists_frames s (v_name <$> dg_verts (gs_dg s)).
Proof.
  intros Hwf. split; [|split].
  - rewrite (frame_ids_names einv) by (try done; apply list.Forall_forall; intros v Hv; by apply bg_alive_iff).
    f_equal. rewrite <- list_fmap_compose. apply list_fmap_ext. intros i r Hr. cbn. apply elem_of_list_lookup_2 in Hr.
    apply (bg_name_map einv); [done|]. apply (wf_map einv _ Hwf). eauto.
  - apply (wf_vname einv _ Hwf).
  - intros f. rewrite (contains_frame_map einv), bool_decide_eq_true by done. rewrite elem_of_list_fmap. split.
    + intros (r & -> & Hr). exists (v_id r). apply (wf_map einv _ Hwf). eauto.
    + intros [v Hv]. apply (wf_map einv _ Hwf) in Hv as (r & Hr & _ & <-). eauto.
Qed.

Lemma lists_front s f l : lists_frames s l -> f ∈ l -> lists_frames s (f :: remove_all f l).
Proof.
  intros [Hnd Hl] Hf. split.
  - constructor; [unfold remove_all; rewrite elem_of_list_filter; naive_solver|]. by apply NoDup_filter.
  - intros g. unfold remove_all. rewrite elem_of_cons, elem_of_list_filter, <- Hl. split; [by intros [->|[_ ?]]|].
    intros Hg. destruct (decide (g = f)); auto.
Qed.

Lemma remove_one_all f l : NoDup l -> remove_one f l = remove_all f l.
Proof.
  unfold remove_all. induction l as [|x l IH]; [done|]. intros [Hx Hl]%NoDup_cons. cbn [remove_one]. rewrite filter_cons.
  case_bool_decide as Hc.
  - subst x. rewrite decide_False by naive_solver. symmetry. apply filter_all. intros y Hy ->. done.
  - rewrite decide_True by done. by rewrite IH.
Qed.

Lemma get_nodes_lists s (z : viz T) : lists_frames s (vz_next z) -> (vz_next z = [] \/ contains_frame s (vz_root z) = true) ->
  lists_frames s (vz_get_nodes z).
Proof.
  intros Hl Hr. unfold vz_get_nodes. destruct (_ && _) eqn:Hb; [|done]. apply andb_true_iff in Hb as [_ Hn].
  apply negb_true_iff, bool_decide_eq_false in Hn. destruct Hr as [?|Hr]; [done|].
  rewrite remove_one_all by apply Hl. apply lists_front; [done|]. by apply Hl.
Qed.

Lemma get_nodes_head s (z : viz T) : head (vz_next z) = Some (vz_root z) -> NoDup (vz_next z) -> vz_get_nodes z = vz_next z.
Proof.
  unfold vz_get_nodes. destruct (vz_next z) as [|f l]; [done|]. intros [= ->] _.
  destruct (_ && _); [|done]. cbn. by rewrite bool_decide_true.
Qed.

Lemma are_same_eq a b : are_same a b = true <-> a = b.
Proof.
  revert b. induction a as [|x a IH]; intros [|y b]; cbn; try done. rewrite andb_true_iff, bool_decide_eq_true, IH.
  split; [by intros [-> ->]|by intros [= -> ->]].
Qed.

(** A new sample. *)
Lemma sample_ok s (z : viz T) : reachable d0 einv s ->
  exists z' sc, vz_update_data one mul s z = Ret z' /\ lists_frames s (vz_next z') /\ vz_get_nodes z' = vz_next z' /\
    (vz_next z' <> [] -> head (vz_next z') = Some (vz_root z')) /\ (vz_next z' = [] -> vz_root z' = "") /\
    (contains_frame s (vz_root z) = true -> vz_root z' = vz_root z) /\
    draw_graph one mul s (vz_root z') = Ret sc /\ vz_scene z' = Some sc /\
    vz_nodes z' = vz_nodes z /\ vz_shown z' = vz_shown z /\ vz_changed z' = vz_changed z.
Proof.
  intros Hre. pose proof (reachable_wf d0 einv s Hre) as Hwf. destruct (names_listed s Hwf) as [Hids Hlist].
  unfold vz_update_data, init_node_list. rewrite Hids. cbn [obind].
  destruct (v_name <$> dg_verts (gs_dg s)) as [|f l] eqn:Hnames.
  - cbn [obind]. assert (Hn0 : num_vertices s = 0).
    { unfold num_vertices. rewrite (wf_nv einv _ Hwf). by apply fmap_nil_inv in Hnames as ->. }
    rewrite (draw_empty s "" Hn0). cbn [obind]. do 2 eexists. split; [done|]. cbn. split; [done|]. split; [done|]. split; [done|]. split; [done|].
    split; [|split; [by apply draw_empty|done]]. intros Hc. apply Hlist in Hc. by apply elem_of_nil in Hc.
  - case_bool_decide as Hroot; cbn [obind].
    + assert (Hc : contains_frame s (vz_root z) = true) by by apply Hlist.
      destruct (draw_ret s (vz_root z) Hre Hc) as [sc Hsc]. rewrite Hsc. cbn [obind]. do 2 eexists. split; [done|].
      cbn [vz_next vz_root vz_scene vz_nodes vz_shown vz_changed]. pose proof (lists_front s _ _ Hlist Hroot) as Hfr. split; [done|].
      split; [apply (get_nodes_head s); [done|apply Hfr]|]. done.
    + assert (Hc : contains_frame s f = true) by (apply Hlist; left).
      destruct (draw_ret s f Hre Hc) as [sc Hsc]. rewrite Hsc. cbn [obind]. do 2 eexists. split; [done|].
      cbn [vz_next vz_root vz_scene vz_nodes vz_shown vz_changed]. split; [done|].
      split; [apply (get_nodes_head s); [done|apply Hlist]|]. split; [done|]. split; [done|].
      split; [|done]. intros Hc'. apply Hlist in Hc'. done.
Qed.

(** Histories. *)
Lemma vrun_lists ops cur z : (forall s, VSample s ∈ ops -> reachable d0 einv s) -> selects_frames cur ops ->
  match cur with
  | None => vz_next z = []
  | Some s => lists_frames s (vz_next z) /\ (vz_next z = [] \/ contains_frame s (vz_root z) = true)
  end ->
  exists z', vrun one mul ops z = Ret z' /\
    match foldl last_sample cur ops with
    | None => vz_get_nodes z' = []
    | Some s => lists_frames s (vz_get_nodes z')
    end.
Proof.
  revert cur z. induction ops as [|op ops IH]; intros cur z Hre Hsel Hinv.
  { exists z. split; [done|]. cbn. destruct cur as [s|].
    - destruct Hinv as [H1 H2]. by apply get_nodes_lists.
    - unfold vz_get_nodes. rewrite Hinv. by rewrite andb_false_r. }
  destruct Hsel as [Hop Hsel]. cbn [vrun foldl].
  assert (Hre' : forall s, VSample s ∈ ops -> reachable d0 einv s) by (intros s Hs; apply Hre; by right).
  destruct op as [s|values|]; cbn [vstep].
  - destruct (sample_ok s z (Hre s ltac:(left))) as (z' & sc & Hz & Hl & _ & Hh & _ & _ & Hd & _). rewrite Hz. cbn [obind].
    apply (IH (Some s) z' Hre' Hsel). split; [done|]. destruct (vz_next z') as [|f l] eqn:Hn; [by left|right].
    specialize (Hh ltac:(done)). injection Hh as <-. apply Hl. left.
  - cbn [obind]. apply (IH cur (vz_set_nodes values z) Hre' Hsel). destruct cur as [s|]; [|done]. destruct Hinv as [Hl Hr].
    split; [done|]. cbn. destruct values as [|f values]; [done|]. by right.
  - cbn [obind]. apply (IH cur (vz_update_main z) Hre' Hsel). unfold vz_update_main. by destruct (are_same _ _).
Qed.

(** The GUI thread. *)
Lemma redraw_spec (z : viz T) : let z' := vz_update_main z in
  vz_nodes z' = vz_next z /\ vz_next z' = vz_next z /\ vz_root z' = vz_root z /\ vz_get_nodes z' = vz_get_nodes z /\
  (forall sc, vz_scene z = Some sc -> vz_shown z' = Some sc) /\
  vz_changed z' = vz_changed z + (if decide (vz_nodes z = vz_next z) then 0 else 1) /\
  vz_update_main z' = z'.
Proof.
  cbn. unfold vz_update_main. destruct (are_same (vz_next z) (vz_nodes z)) eqn:Ha.
  - apply are_same_eq in Ha. cbn. rewrite Ha. destruct (decide (vz_nodes z = vz_nodes z)); [|done].
    assert (Hs : are_same (vz_nodes z) (vz_nodes z) = true) by by apply are_same_eq. rewrite Hs.
    split; [done|]. split; [done|]. split; [done|]. split; [unfold vz_get_nodes; cbn; by rewrite Ha|]. split; [by intros sc ->|]. split; [lia|].
    by destruct (vz_scene z).
  - assert (Hne : vz_nodes z <> vz_next z).
    { intros Heq. symmetry in Heq. apply are_same_eq in Heq. congruence. }
    cbn. destruct (decide (vz_nodes z = vz_next z)); [done|].
    assert (Hs : are_same (vz_next z) (vz_next z) = true) by by apply are_same_eq. rewrite Hs.
    split; [done|]. split; [done|]. split; [done|]. split; [done|]. split; [by intros sc ->|]. split; [lia|].
    by destruct (vz_scene z).
Qed.

End viz.
