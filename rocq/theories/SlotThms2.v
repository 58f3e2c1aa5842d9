(** What the slots of a tree view find when its signals are emitted (C97). *)
From stdpp Require Import prelude strings gmap.
From Verif Require Import ListLib Outcome Digraph Bfs TreeView GraphModel GraphOps GraphWf GraphStep GraphRefine GraphThms
  SpecObs SpecWalk WalkThms BfsThms BfsFind SpecSearch GraphSearch SpecTree SpecView BuildThms SyncThms VisitThms RemoveThms
  ViewStep ViewSync ViewRun ViewFollow ViewRemove SlotModel SpecSlot SlotThms.

(** ** One view *)

(** A sight on the way to [w']: a tree, part of the final one, with the news of the signal in it. *)
Definition on_way (w' : tview) (x : vsig) (v : tview) : Prop :=
  is_tree v /\ (forall p c, child v p c -> child w' p c) /\ (exists k, tv_cross w' = tv_cross v ++ k) /\
  match x with
  | SigAdded o t => child v o t /\ (forall c, ~ child v t c)
  | SigCross c => last (tv_cross v) = Some c /\ tv_vertex_exists v (ce_origin c) = true /\ tv_vertex_exists v (ce_target c) = true
  | SigRemoved _ _ => False
  end.

Lemma on_way_promised {D E} (g : digraph D E) w' x v : in_sync g w' -> on_way w' x v -> is_tree v /\ promised g v x.
Proof.
  intros Hs (Hv & Hsub & (k & Hk) & Hx). split; [done|]. destruct x as [c|o t|o t]; [| |done].
  - destruct Hx as (Hl & Ho & Ht).
    assert (Hc : c ∈ tv_cross v) by by apply last_Some_elem_of.
    assert (Hc' : c ∈ tv_cross w') by (rewrite Hk; apply elem_of_app; by left).
    destruct (sy_real _ _ Hs c Hc') as (Hex & e & He & He1 & He2 & He3).
    split; [done|]. split; [done|]. split; [done|]. split; [|eauto 10]. intros Hch.
    destruct (sy_once _ _ Hs (ce_origin c) (ce_target c)) as [[_ Hf]|[Hn _]]; [by exists e|done| |].
    + assert (Hin : c ∈ filter (between (ce_origin c) (ce_target c)) (tv_cross w')).
      { apply elem_of_list_filter. split; [by left|done]. }
      rewrite Hf in Hin. by apply elem_of_nil in Hin.
    + apply Hn. destruct Hch as [Hch|Hch]; [left|right]; by apply Hsub.
  - destruct Hx as [Hc Hleaf]. split; [done|]. split; [by apply (it_child _ Hv)|]. split; [done|].
    by apply (sy_edge _ _ Hs), Hsub.
Qed.

Lemma on_way_more w1 w2 x v : (forall p c, child w1 p c -> child w2 p c) -> (exists k, tv_cross w2 = tv_cross w1 ++ k) ->
  on_way w1 x v -> on_way w2 x v.
Proof.
  intros Hc (k & Hk) (H1 & H2 & (k' & Hk') & H4). split; [done|]. split; [auto|]. split; [|done].
  exists (k' ++ k). by rewrite Hk, Hk', <- app_assoc.
Qed.

(** The first sight of an added edge. *)
Lemma see_add_edge_way o t w : is_tree w -> o ∈ dom (tv_tree w) -> t ∉ dom (tv_tree w) -> t <> null_vertex ->
  forall x v, (x, v) ∈ snd (see_add_edge o t w) -> on_way (tv_add_edge o t w) x v.
Proof.
  intros Ht Ho Hn Hnn x v Hin. apply elem_of_list_singleton in Hin. injection Hin as -> ->.
  pose proof (is_tree_add o t w Ht Ho Hn Hnn) as Ht'.
  split; [by apply (is_tree_ext (tv_add_edge o t w))|]. split; [done|]. split; [exists []; by rewrite app_nil_r|].
  assert (Hch : forall p c, child (tv_add_edge o t w) p c <-> child w p c \/ (p = o /\ c = t)).
  { intros p c. apply add_edge_child; [done|done|]. intros ->. done. }
  split; [apply Hch; by right|]. intros c Hc. apply Hch in Hc as [Hc|[-> _]]; [|done].
  by apply (child_dom w t c Ht) in Hc as [? _].
Qed.

Lemma see_build_way {E} (tr : list (bev E)) w : is_tree w -> tw (dom (tv_tree w)) tr -> null_vertex ∉ dset tr ->
  (forall p c, child w p c -> child (build_tree tr w) p c) /\ (exists k, tv_cross (build_tree tr w) = tv_cross w ++ k) /\
  forall x v, (x, v) ∈ snd (see_build tr w) -> on_way (build_tree tr w) x v.
Proof.
  intros Ht H Hn.
  destruct (build_spec tr w Ht H Hn) as (_ & _ & _ & S4 & S5 & _).
  split; [intros p c Hc; apply S4; by left|]. split; [eauto|]. clear S4 S5.
  remember (dom (tv_tree w)) as d eqn:Hd. revert w Ht Hd.
  induction H as [d|d e tr Hs Htg H IH|d e tr Hs Htg H IH|d e tr H IH|d v tr H IH]; intros w Ht -> x u Hin.
  - by apply elem_of_nil in Hin.
  - assert (Hnt : e_tgt e <> null_vertex /\ null_vertex ∉ dset tr).
    { unfold dset in Hn. cbn in Hn. unfold dset. set_solver. }
    destruct Hnt as [Hnt Hntr].
    assert (Hne : e_src e <> e_tgt e) by (intros Heq; rewrite Heq in Hs; done).
    assert (Hit : is_tree (tv_add_edge (e_src e) (e_tgt e) w)) by by apply is_tree_add.
    assert (Hdm : tw (dom (tv_tree (tv_add_edge (e_src e) (e_tgt e) w))) tr) by by rewrite add_edge_dom.
    change (build_tree (BTree e :: BDiscover (e_tgt e) :: tr) w) with (build_tree tr (tv_add_edge (e_src e) (e_tgt e) w)).
    destruct (build_spec tr _ Hit Hdm Hntr) as (_ & _ & _ & S4 & S5 & _).
    cbn [see_build] in Hin. destruct (see_add_edge (e_src e) (e_tgt e) w) as [w1 l1] eqn:Ha.
    assert (Hw1 : w1 = tv_add_edge (e_src e) (e_tgt e) w) by by injection Ha.
    destruct (see_build tr w1) as [w2 l2] eqn:Hb. cbn [snd app] in Hin. apply elem_of_app in Hin as [Hin|Hin].
    + apply (on_way_more (tv_add_edge (e_src e) (e_tgt e) w)); [intros p c Hc; apply S4; by left|eauto|].
      apply see_add_edge_way; try done. by rewrite Ha.
    + apply IH; [done|done|by rewrite add_edge_dom|]. by rewrite <- Hw1, Hb.
  - assert (Hit : is_tree (tv_add_cross (e_src e) (e_tgt e) (e_id e) w)) by by apply (is_tree_ext w).
    change (build_tree (BGray e :: tr) w) with (build_tree tr (tv_add_cross (e_src e) (e_tgt e) (e_id e) w)).
    destruct (build_spec tr _ Hit H Hn) as (_ & _ & _ & S4 & S5 & _).
    cbn [see_build] in Hin. destruct (see_add_cross (e_src e) (e_tgt e) (e_id e) w) as [w1 l1] eqn:Ha.
    destruct (see_build tr w1) as [w2 l2] eqn:Hb. injection Ha as Hw1 <-.
    cbn [snd] in Hin. apply elem_of_app in Hin as [Hin|Hin].
    + apply (on_way_more (tv_add_cross (e_src e) (e_tgt e) (e_id e) w)); [intros p c Hc; apply S4; by left|eauto|].
      apply elem_of_list_singleton in Hin. injection Hin as -> ->. split; [by apply (is_tree_ext w)|]. split; [done|].
      split; [exists []; by rewrite app_nil_r|]. split; [cbn; by rewrite last_snoc|]. split; by apply tv_vertex_exists_iff.
    + apply IH; [done|done|done|]. change (tv_add_cross (e_src e) (e_tgt e) (e_id e) w) with (fst (see_add_cross (e_src e) (e_tgt e) (e_id e) w)). cbn [see_add_cross fst]. by rewrite Hw1, Hb.
  - change (build_tree (BBlack e :: tr) w) with (build_tree tr w). apply IH; [done|done|done|].
    cbn [see_build] in Hin. by destruct (see_build tr w).
  - change (build_tree (BFinish v :: tr) w) with (build_tree tr w). apply IH; [done|done|done|].
    cbn [see_build] in Hin. by destruct (see_build tr w).
Qed.

(** A search without a signal changes nothing. *)
Lemma see_build_silent {E} (tr : list (bev E)) w : snd (see_build tr w) = [] -> build_tree tr w = w.
Proof.
  revert w. induction tr as [|b tr IH]; intros w; [done|]. cbn [see_build].
  change (build_tree (b :: tr) w) with (build_tree tr (build_step b w)).
  destruct b; try (intros H; apply IH; by destruct (see_build tr w)).
  - unfold see_add_edge. by destruct (see_build tr _).
  - unfold see_add_cross. by destruct (see_build tr _).
Qed.

(** The removed vertices leave one by one. *)
Lemma see_prune_all vs : forall w, is_tree w -> NoDup vs -> tv_root w ∉ vs -> (forall v, v ∈ vs -> v ∈ dom (tv_tree w)) ->
  (forall k v c, vs !! k = Some v -> child w v c -> exists k', k < k' /\ vs !! k' = Some c) ->
  forall x v, (x, v) ∈ snd (fst (see_remove_vertices (rev vs) w)) ->
  is_tree v /\ exists p c, x = SigRemoved p c /\ c ∉ dom (tv_tree v) /\ p ∈ dom (tv_tree v) /\ p ∈ dom (tv_tree w) /\ c ∈ dom (tv_tree w).
Proof.
  induction vs as [|v vs IH] using rev_ind; intros w Ht Hnd Hroot Hdom Hcl x u.
  { by intros ?%elem_of_nil. }
  rewrite rev_app_distr. cbn [rev app see_remove_vertices].
  apply NoDup_app in Hnd as (Hnd & Hdis & _).
  assert (Hvn : v ∉ vs) by (intros Hv; apply (Hdis v Hv); by left).
  assert (Hleaf : forall c, ~ child w v c).
  { intros c Hc. destruct (Hcl (length vs) v c) as (k' & Hk & Hk'); [|done|].
    - rewrite lookup_app_r, Nat.sub_diag by lia. done.
    - apply lookup_lt_Some in Hk'. rewrite app_length in Hk'. cbn in Hk'. lia. }
  assert (Hvd : v ∈ dom (tv_tree w)) by set_solver.
  assert (Hvr : v <> tv_root w) by set_solver.
  destruct (prune1_tree w v) as (Ht' & Hd' & Hc' & Hg' & (p & Hp & Hl') & Hlast); [done..|].
  unfold par in Hlast. rewrite bool_decide_true by exact Hlast.
  match goal with |- context [see_remove_vertices (rev vs) ?y] => change y with (prune1 v w) end.
  destruct (see_remove_vertices (rev vs) (prune1 v w)) as [[w2 l] r] eqn:Hrest. cbn [fst snd].
  intros [Hin|Hin]%elem_of_cons.
  - injection Hin as -> ->. split; [by apply (is_tree_ext (prune1 v w))|]. eexists _, v. split; [done|].
    change (tv_tree (tv_set_tree _ w)) with (tv_tree (prune1 v w)). rewrite Hd'.
    destruct (it_parent _ Ht v) as (q & Hq & Hqc); [by apply tv_vertex_exists_iff|done|].
    assert (Hpar : vr_parent (tv_rel (tv_tree w) v) = q).
    { apply get_parent_iff in Hq as (r' & Hr' & <-); [unfold tv_rel; by rewrite Hr'|]. apply tv_vertex_exists_not, (it_null _ Ht). }
    rewrite Hpar. destruct (child_dom w q v Ht Hqc) as [Hqd _].
    assert (q <> v) by (intros ->; by eapply Hleaf). set_solver.
  - destruct (IH (prune1 v w)) with (x := x) (v := u) as (H1 & q & c & -> & H2 & H3 & H4 & H5).
    + done.
    + done.
    + intros Hx. apply Hroot. apply elem_of_app. by left.
    + intros y Hy. rewrite Hd'. assert (y <> v) by (intros ->; done). set_solver.
    + intros k y c Hk [Hc Hcv]%Hc'. destruct (Hcl k y c) as (k' & Hk' & Hc2); [by apply lookup_app_l_Some|done|].
      exists k'. split; [done|]. apply lookup_app_Some in Hc2 as [?|[_ Hx]]; [done|].
      apply list_lookup_singleton_Some in Hx as [_ ->]. done.
    + by rewrite Hrest.
    + split; [done|]. exists q, c. split; [done|]. set_solver.
Qed.

Lemma remove_edge_see ord o t w : is_tree w -> ord_ok ord -> tv_edge_exists w o t = Ret true ->
  let '(w', l, r) := see_remove_edge ord o t w in
  is_tree w' /\ dom (tv_tree w') ⊆ dom (tv_tree w) /\
  forall x v, (x, v) ∈ l -> is_tree v /\ exists p c, x = SigRemoved p c /\ c ∉ dom (tv_tree v) /\ p ∈ dom (tv_tree v) /\
    p ∈ dom (tv_tree w) /\ c ∈ dom (tv_tree w).
Proof.
  intros Ht Ho Hee. pose proof (proj1 (tv_vertex_exists_not _ _) (it_null _ Ht)) as Hnull.
  assert (Hdo : o ∈ dom (tv_tree w) /\ t ∈ dom (tv_tree w)).
  { unfold tv_edge_exists in Hee. destruct (tv_tree w !! o) eqn:H1; [|done]. destruct (tv_tree w !! t) eqn:H2; [|done].
    split; by eapply elem_of_dom_2. }
  assert (Hpc : exists p c, child w p c /\ same_ends o t p c).
  { destruct (edge_exists_spec w o t Ht) as (r & Hr & Hi); [apply Hdo..|].
    rewrite Hee in Hr. injection Hr as <-. destruct (proj1 Hi eq_refl) as [Hc|Hc]; [exists o, t|exists t, o]; (split; [done|]); [left|right]; done. }
  destruct Hpc as (p & c & Hpc & Hends).
  destruct (child_dom w p c Ht Hpc) as [Hpd Hcd].
  assert (Hce : tv_vertex_exists w c = true) by by apply tv_vertex_exists_iff.
  destruct (it_child _ Ht _ _ Hpc) as [Hcr Hpar].
  assert (Hpn : p <> c). { intros ->. eapply (acyclic w Ht c c); [done|apply linked_refl|done]. }
  assert (Hreal : (if vr_parent (tv_rel (tv_tree w) t) =? o then Some t
                   else if vr_parent (tv_rel (tv_tree w) o) =? t then Some o else None) = Some c).
  { assert (Hvp : vr_parent (tv_rel (tv_tree w) c) = p).
    { apply get_parent_iff in Hpar as (r & Hr & <-); [|done]. unfold tv_rel. by rewrite Hr. }
    destruct Hends as [[<- <-]|[<- <-]]; rewrite Hvp, ?Nat.eqb_refl; [done|].
    destruct (Nat.eqb_spec (vr_parent (tv_rel (tv_tree w) p)) c) as [Hx|]; [|done]. exfalso.
    apply elem_of_dom in Hpd as [r Hr]. unfold tv_rel in Hx. rewrite Hr in Hx. cbn in Hx.
    assert (Hcp : child w c p).
    { rewrite <- Hx. apply (parent_child w p r); [done|done|]. rewrite Hx. intros ->. done. }
    eapply (acyclic w Ht c p); [done| |done]. by apply linked_step. }
  destruct (bfs_visits w Ht c Hce ord (S (size (tv_tree w)))) as (vis & Hvis & [Hnd Hall Hord]); [done|lia|].
  unfold see_remove_edge. rewrite Hreal, Hvis.
  destruct (xs_steps _ _) as [xs|]; [|split; [done|split; [done|]]; by intros x v ?%elem_of_nil].
  assert (Hvs : forall v, v ∈ vis.*1 <-> linked (child w) c v).
  { intros v. rewrite elem_of_list_fmap. split.
    - intros ([v' q] & -> & Hv%Hall). apply Hv.
    - intros Hl. assert (Hvd : v ∈ dom (tv_tree w)) by by apply (below_in w Ht c).
      assert (Hvr : v <> tv_root w).
      { intros ->. destruct Hl as [l Hl]. apply route_inv_snoc in Hl as [[_ ->]|(l' & b & _ & _ & Hb)]; [done|].
        by apply (it_child _ Ht) in Hb as [? _]. }
      destruct (it_parent _ Ht v) as (q & Hq & _); [by apply tv_vertex_exists_iff|done|].
      exists (v, q). split; [done|]. by apply Hall. }
  assert (Hlater : forall k v x, vis.*1 !! k = Some v -> child w v x -> exists k', k < k' /\ vis.*1 !! k' = Some x).
  { intros k v x Hk Hvx.
    assert (Hx : x ∈ vis.*1).
    { apply Hvs. eapply linked_trans; [|by apply linked_step]. apply Hvs. by apply elem_of_list_lookup_2 in Hk. }
    apply elem_of_list_lookup in Hx as [k' Hk']. exists k'. split; [|done].
    apply list_lookup_fmap_Some in Hk as ([v1 q1] & Hk & ->). apply list_lookup_fmap_Some in Hk' as ([x1 q2] & Hk' & ->).
    cbn in *. assert (Hq : q2 = v1).
    { apply elem_of_list_lookup_2, Hall in Hk' as [_ Hq]. destruct (it_child _ Ht _ _ Hvx) as [_ Hq']. congruence. }
    subst q2. destruct (Hord k' x1 v1 Hk') as (j & q & Hj & Hjk).
    { intros ->. apply (acyclic w Ht c v1); [done| |done]. apply Hvs. apply elem_of_list_fmap. exists (v1, q1).
      split; [done|]. by apply elem_of_list_lookup_2 in Hk. }
    assert (j = k) as ->; [|done]. eapply NoDup_lookup; [exact Hnd| |].
    - rewrite list_lookup_fmap, Hjk. done.
    - rewrite list_lookup_fmap, Hk. done. }
  set (w1 := tv_set_cross (xs_cross xs) w).
  assert (Ht1 : is_tree w1) by by apply (is_tree_ext w).
  assert (Hr1 : tv_root w1 ∉ vis.*1).
  { cbn. intros [l Hl]%Hvs. apply route_inv_snoc in Hl as [[_ Hx]|(l' & b & _ & _ & Hb)]; [done|].
    by apply (it_child _ Ht) in Hb as [? _]. }
  assert (Hd1 : forall v, v ∈ vis.*1 -> v ∈ dom (tv_tree w1)) by (intros v Hv%Hvs; by apply (below_in w Ht c)).
  destruct (prune_all (vis.*1) w1 Ht1 Hnd Hr1 Hd1 Hlater) as (w2 & H1 & H2 & H3 & _).
  pose proof (see_prune_all (vis.*1) w1 Ht1 Hnd Hr1 Hd1 Hlater) as Hsee.
  pose proof (see_remove_vertices_eq (rev vis.*1) w1) as Heq.
  destruct (see_remove_vertices (rev vis.*1) w1) as [[w3 l] r3]. rewrite H1 in Heq. injection Heq as <- <-. cbn [fst snd] in Hsee.
  assert (Hsub : dom (tv_tree w2) ⊆ dom (tv_tree w)) by (rewrite H3; cbn; set_solver).
  destruct (xs_leaving xs); (split; [done|]; split; [done|]); exact Hsee.
Qed.

Section slots2.
Context {D E : Type} (d0 : D) (einv : E -> E).
Local Notation dg_wf := (dg_wf einv).
Implicit Types (s : gst D E) (g : digraph D E) (w : tview).

Lemma view_remove_see ord o t (i : viewid) w : is_tree w -> ord_ok (ord i) ->
  let '(w', l, r) := see_view_remove ord o t i w in
  is_tree w' /\ dom (tv_tree w') ⊆ dom (tv_tree w) /\
  forall x v, (x, v) ∈ l -> is_tree v /\ exists p c, x = SigRemoved p c /\ c ∉ dom (tv_tree v) /\ p ∈ dom (tv_tree v) /\
    p ∈ dom (tv_tree w) /\ c ∈ dom (tv_tree w).
Proof.
  intros Ht Ho. unfold see_view_remove. destruct (tv_edge_exists w o t) as [[]| | |] eqn:He;
    try (split; [done|split; [done|]]; by intros ? ? ?%elem_of_nil).
  by apply remove_edge_see.
Qed.

(** The view is a tree of vertices of the graph. *)
Definition alive_tree g w : Prop := is_tree w /\ forall v, tv_vertex_exists w v = true -> bg_alive g v = true.

Lemma sync_alive_tree g w : dg_wf g -> in_sync g w -> alive_tree g w.
Proof.
  intros Hwf Hs. split; [apply (sy_tree _ _ Hs)|]. intros v Hv%(sy_span _ _ Hs). revert v Hv.
  apply linked_ind_r; [apply (sy_alive _ _ Hs)|]. intros x y _ _ (e & He & _ & <-). by eapply (wf_tgt_alive einv).
Qed.

Lemma removal_promised ord o t i w g : alive_tree g w -> ord_ok (ord i) -> forall x v, (x, v) ∈ snd (fst (see_view_remove ord o t i w)) ->
  is_tree v /\ promised g v x.
Proof.
  intros [Ht Hal] Ho x v Hin. pose proof (view_remove_see ord o t i w Ht Ho) as H.
  destruct (see_view_remove ord o t i w) as [[w' l] r]. destruct H as (_ & _ & H). cbn in Hin.
  destruct (H x v Hin) as (Hv & p & c & -> & H1 & H2 & H3 & H4). split; [done|]. cbn.
  split; [by apply tv_vertex_exists_not|]. split; [by apply tv_vertex_exists_iff|].
  split; apply Hal; by apply tv_vertex_exists_iff.
Qed.

(** ** An edge is added *)

Lemma see_add_promised s1 g o t p w :
  dg_wf g -> bg_alive g o = true -> bg_alive g t = true -> o <> t -> bg_edge g o t = None ->
  gs_dg s1 = dg_add2 einv o t p g -> in_sync g w ->
  forall x v, (x, v) ∈ snd (fst (see_add_to_view s1 (ERec (dg_nexte g) o t p) w)) -> is_tree v /\ promised (gs_dg s1) v x.
Proof.
  intros Hwf Ho Ht Hot Hn Hs1 Hs x v Hin.
  destruct (add_edge_sync einv s1 g o t p w) as (w' & Hw' & Hsync & _); [done..|]. rewrite <- Hs1 in Hsync.
  apply (on_way_promised _ w' x v Hsync). clear Hsync.
  pose proof (see_add_to_view_eq s1 (ERec (dg_nexte g) o t p) w) as Heq. revert Hin Heq.
  assert (Hwf' : dg_wf (dg_add2 einv o t p g)) by by apply wf_add2.
  set (g' := dg_add2 einv o t p g) in *.
  set (e1 := ERec (dg_nexte g) o t p) in *. set (e2 := ERec (S (dg_nexte g)) t o (einv p)).
  assert (Hedges : forall e, e ∈ dg_edges g' <-> e ∈ dg_edges g \/ e = e1 \/ e = e2).
  { intros e. unfold g'. rewrite add2_edges, elem_of_app, elem_of_cons, elem_of_list_singleton. done. }
  assert (Hfid : forall e, e ∈ dg_edges g -> e_id e < dg_nexte g) by (intros; by apply (wf_ebound einv g Hwf)).
  assert (He1 : bg_edge g' o t = Some e1).
  { apply (bg_edge_iff einv); [done|]. split; [apply Hedges; auto|done]. }
  assert (He2 : bg_edge g' t o = Some e2).
  { apply (bg_edge_iff einv); [done|]. split; [apply Hedges; auto|done]. }
  pose proof (sy_tree _ _ Hs) as Hit.
  (* the branch in which the other end joins *)
  assert (Hgo : forall inv notinv a b,
     (inv = o /\ notinv = t /\ a = e1 /\ b = e2) \/ (inv = t /\ notinv = o /\ a = e2 /\ b = e1) ->
     tv_vertex_exists w inv = true -> tv_vertex_exists w notinv = false ->
     forall w2 l r, (let '(w1, l1) := see_add_edge inv notinv w in
      if bg_alive (gs_dg s1) notinv then
      if bool_decide (2 < bg_degree (gs_dg s1) notinv) then
        match obind (get_frame_id s1 inv) (fun id1 =>
              obind (get_frame_id s1 notinv) (fun id2 =>
              obind (get_edge s1 id1 id2) (fun e1 =>
              obind (get_edge s1 id2 id1) (fun e2 =>
              bfs_trace (gs_dg s1)
                (fun e => negb (Nat.eqb (e_id e) (e_id e1)) && negb (Nat.eqb (e_id e) (e_id e2)))
                notinv)))) with
        | Ret tr => let '(w2, l2) := see_build tr w1 in (w2, l1 ++ l2, Ret tt)
        | Throw x => (w1, l1, Throw x)
        | UB => (w1, l1, UB)
        | Fuel => (w1, l1, Fuel)
        end
      else (w1, l1, Ret tt)
    else (w1, l1, UB)) = (w2, l, r) -> (x, v) ∈ l -> on_way w2 x v).
  { intros inv notinv a b Hab Hin Hni w2 l r. rewrite Hs1. fold g'.
    assert (Hali : bg_alive g' inv = true) by (destruct Hab as [(-> & -> & _)|(-> & -> & _)]; done).
    assert (Haln : bg_alive g' notinv = true) by (destruct Hab as [(-> & -> & _)|(-> & -> & _)]; done).
    assert (Hea : bg_edge g' inv notinv = Some a) by (destruct Hab as [(-> & -> & -> & ->)|(-> & -> & -> & ->)]; done).
    assert (Heb : bg_edge g' notinv inv = Some b) by (destruct Hab as [(-> & -> & -> & ->)|(-> & -> & -> & ->)]; done).
    rewrite Haln.
    apply tv_vertex_exists_iff in Hin as Hinvd. apply tv_vertex_exists_not in Hni as Hnotd.
    assert (Hne : inv <> notinv) by congruence.
    assert (Hnn : notinv <> null_vertex) by by apply (alive_null einv g').
    pose proof (see_add_edge_way inv notinv w Hit Hinvd Hnotd Hnn) as Hfirst.
    destruct (see_add_edge inv notinv w) as [w1 l1] eqn:Ha. cbn [snd] in Hfirst.
    assert (Hw1 : w1 = tv_add_edge inv notinv w) by by injection Ha. clear Ha. rewrite <- Hw1 in Hfirst.
    case_bool_decide as Hdeg; [|intros [= <- <- _] Hx; by apply Hfirst].
    set (flt := fun e : erec E => negb (Nat.eqb (e_id e) (e_id a)) && negb (Nat.eqb (e_id e) (e_id b))).
    assert (Hflt : forall e, e ∈ dg_edges g' -> flt e = true <-> e ∈ dg_edges g).
    { intros e He. unfold flt. rewrite andb_true_iff, !negb_true_iff, !Nat.eqb_neq.
      assert (Hx : e_id e <> e_id a /\ e_id e <> e_id b <-> e_id e <> e_id e1 /\ e_id e <> e_id e2).
      { destruct Hab as [(_ & _ & -> & ->)|(_ & _ & -> & ->)]; tauto. }
      rewrite Hx. apply Hedges in He as [He|[->| ->]].
      - specialize (Hfid e He). cbn. split; [done|]. intros _. lia.
      - split; [by intros [? _]|]. intros He%Hfid. cbn in He. lia.
      - split; [by intros [_ ?]|]. intros He%Hfid. cbn in He. lia. }
    destruct (wf_alive_map einv _ inv Hwf' Hali) as (fi & Hfi & _).
    destruct (wf_alive_map einv _ notinv Hwf' Haln) as (fn & Hfn & _).
    assert (Hd1 : dg_wf (gs_dg s1)) by by rewrite Hs1.
    rewrite (get_frame_id_some einv s1 fi inv) by by rewrite ?Hs1.
    rewrite (get_frame_id_some einv s1 fn notinv) by by rewrite ?Hs1. cbn [obind].
    rewrite (get_edge_some einv s1 fi fn inv notinv a) by by rewrite ?Hs1. cbn [obind].
    rewrite (get_edge_some einv s1 fn fi notinv inv b) by by rewrite ?Hs1. cbn [obind]. fold flt.
    destruct (bfs_trace_spec einv g' flt notinv Hwf' Haln) as (tr & Htr & Htw & Hres). rewrite Htr.
    assert (Hnx : forall u v, next (fout g' flt) u v <-> adjacent g u v).
    { intros u y. split.
      - intros (e & (Hf & <- & He)%elem_fout & <-). exists e. split; [|done]. by apply Hflt.
      - intros (e & He & <- & <-). assert (He' : e ∈ dg_edges g') by (apply Hedges; auto).
        exists e. rewrite elem_fout. split; [|done]. split; [by apply Hflt|done]. }
    assert (Hdisc : forall v, v = notinv \/ v ∈ dset tr <-> linked (adjacent g) notinv v).
    { intros y. rewrite <- dset_disc by done. rewrite (br_disc _ _ _ Hres). by apply linked_iff. }
    assert (Hdisj : forall v, linked (adjacent g) notinv v -> tv_vertex_exists w v = true -> False).
    { intros y Hl Hv. apply (sy_span _ _ Hs) in Hv.
      assert (tv_vertex_exists w notinv = true); [|congruence]. apply (sy_span _ _ Hs).
      eapply linked_trans; [done|]. apply linked_sym; [|done]. intros z y'. by apply (adjacent_sym einv). }
    pose proof (is_tree_add inv notinv w Hit Hinvd Hnotd Hnn) as Hit1.
    assert (Hnull : null_vertex ∉ dset tr) by exact (null_not_dset einv g' flt notinv _ Hwf' Hres).
    assert (Htw1 : tw (dom (tv_tree w1)) tr).
    { rewrite Hw1, add_edge_dom by done. rewrite (union_comm_L {[notinv]}). apply tw_mono; [done|].
      intros y Hv Hvw. eapply Hdisj; [apply Hdisc; by right|by apply tv_vertex_exists_iff]. }
    rewrite <- Hw1 in Hit1. destruct (see_build_way tr w1 Hit1 Htw1 Hnull) as (B1 & B2 & B3).
    cbn [see_build]. pose proof (see_build_eq tr w1) as Hbe. destruct (see_build tr w1) as [w3 l3]. cbn [fst snd] in *. subst w3.
    intros [= <- <- _] [Hx|Hx]%elem_of_app; [|by apply B3].
    apply (on_way_more w1); [done|done|]. by apply Hfirst. }
  unfold see_add_to_view, get_source_vertex, get_target_vertex. cbn zeta.
  change (e_src e1) with o. change (e_tgt e1) with t.
  destruct (tv_vertex_exists w o) eqn:Hvo, (tv_vertex_exists w t) eqn:Hvt.
  - destruct (tv_edge_exists w o t) as [[]| | |]; try by intros ?%elem_of_nil.
    intros Hin [Heq _]. rewrite Hw' in Heq. injection Heq as ->. apply elem_of_list_singleton in Hin. injection Hin as -> ->.
    split; [by apply (is_tree_ext w)|]. split; [done|]. split; [exists []; by rewrite app_nil_r|].
    split; [cbn; by rewrite last_snoc|]. done.
  - destruct (let '(w1, l1) := see_add_edge o t w in _) as [[w2 l] r] eqn:Hg. cbn [fst snd]. intros Hin [Heq _].
    rewrite Hw' in Heq. injection Heq as -> _. eapply (Hgo o t e1 e2); [left|..]; done.
  - destruct (let '(w1, l1) := see_add_edge t o w in _) as [[w2 l] r] eqn:Hg. cbn [fst snd]. intros Hin [Heq _].
    rewrite Hw' in Heq. injection Heq as -> _. eapply (Hgo t o e2 e1); [right|..]; done.
  - by intros ?%elem_of_nil.
Qed.

(** ** A tree is asked for *)

Lemma get_tree_see s s' root keep i tr r w : dg_wf (gs_dg s) -> see_get_tree_v root keep i s = (s', tr, r) ->
  gs_views s !! i = Some w ->
  (forall m, m ∈ tr -> match m with inl _ => True | inr x => sn_view x = i end) /\
  (tv_tree w = ∅ -> tv_cross w = [] ->
   (forall x, inr x ∈ tr -> seen_ok x) /\
   (bg_alive (gs_dg s) root = true -> (exists v, adjacent (gs_dg s) root v) -> exists x, inr x ∈ tr /\ sn_view x = i)).
Proof.
  intros Hwf H Hw. unfold see_get_tree_v in H. rewrite Hw in H.
  destruct (bfs_trace (gs_dg s) (fun _ => true) root) as [t|x| |] eqn:Htr.
  2-4: injection H as <- <- <-; (split; [by intros m ?%elem_of_nil|]); intros _ _;
       (split; [by intros m ?%elem_of_nil|]); intros Hal;
       destruct (bfs_trace_spec einv (gs_dg s) (fun _ => true) root Hwf Hal) as (tt' & Ht & _); congruence.
  destruct (see_build t (tv_add_root root w)) as [w' l] eqn:Hb.
  destruct (slift (if keep then subscribe_tree_view i else cret tt) (gs_set_view i w' s)) as [[s2 l2] r2] eqn:Hl.
  injection H as <- <- <-. apply slift_inv in Hl as (ev & _ & ->). split.
  { intros m [(y & -> & _)%elem_of_list_fmap|(y & -> & _)%elem_of_list_fmap]%elem_of_app; done. }
  intros He Hc.
  assert (Hal : bg_alive (gs_dg s) root = true).
  { unfold bfs_trace in Htr. by destruct (bg_alive (gs_dg s) root). }
  destruct (get_tree_sync einv s root w Hwf Hal He Hc) as (w2 & Hg & Hsync & Hroot & _).
  unfold get_tree_into in Hg. rewrite Htr in Hg. cbn [obind] in Hg. injection Hg as Hg.
  destruct (bfs_trace_spec einv (gs_dg s) (fun _ => true) root Hwf Hal) as (t0 & Ht0 & Htw & Hres).
  rewrite Htr in Ht0. injection Ht0 as ->.
  destruct (add_root_tree root w He (alive_null einv _ root Hwf Hal)) as (Hit & Hdom & Hnoc).
  assert (Hnull : null_vertex ∉ dset t0) by apply (null_not_dset einv (gs_dg s) _ root _ Hwf Hres).
  destruct (see_build_way t0 (tv_add_root root w) Hit) as (_ & _ & Hway); [by rewrite Hdom|done|].
  cbn [see_build] in Hb. destruct (see_build t0 (tv_add_root root w)) as [w3 l3] eqn:Hb3. injection Hb as -> <-. cbn [app snd] in *.
  change (build_tree (BDiscover root :: t0) (tv_add_root root w)) with (build_tree t0 (tv_add_root root w)) in Hg. rewrite Hg in Hway.
  split.
  - intros x [Hin|(? & ? & _)%elem_of_list_fmap]%elem_of_app; [|done].
    apply elem_of_list_fmap in Hin as ([y v] & Hy & Hin). injection Hy as ->.
    destruct (on_way_promised (gs_dg s) w2 y v Hsync (Hway y v Hin)) as [Hv Hp].
    exists v. cbn. rewrite lookup_insert. done.
  - intros _ (v & Hv). destruct l3 as [|[y u] l3].
    + exfalso. assert (Hsame : w2 = tv_add_root root w).
      { rewrite <- Hg. apply see_build_silent. by rewrite Hb3. }
      assert (Hvx : tv_vertex_exists w2 v = true).
      { apply (sy_span _ _ Hsync). rewrite Hroot. by apply linked_step. }
      destruct (it_parent _ (sy_tree _ _ Hsync) v Hvx) as (q & _ & Hq).
      { rewrite Hroot. intros ->. destruct Hv as (e & Hee & H1 & H2). apply (wf_noself einv _ Hwf e Hee). congruence. }
      rewrite Hsame in Hq. by eapply Hnoc.
    + eexists. split; [apply elem_of_app; left; left|done].
Qed.

(** ** Whole calls *)

Lemma see_views_inv f l i (Q : tview -> Prop) : (forall w w' x r, Q w -> f i w = (w', x, r) -> Q w') ->
  forall s s' tr r, see_views f l s = (s', tr, r) -> (exists w, gs_views s !! i = Some w /\ Q w) ->
  exists w, gs_views s' !! i = Some w /\ Q w.
Proof.
  intros Hf. induction l as [|j l IH]; intros s s' tr r; cbn [see_views]; [by intros [= <- _ _]|].
  destruct (gs_views s !! j) as [w|] eqn:Hw; [|by intros [= <- _ _]]. destruct (f j w) as [[w' x] r1] eqn:Hfj.
  assert (Hone : (exists w, gs_views s !! i = Some w /\ Q w) -> exists w, gs_views (gs_set_view j w' s) !! i = Some w /\ Q w).
  { intros (u & Hu & HQ). cbn. destruct (decide (j = i)) as [->|Hji].
    - rewrite lookup_insert. eexists. split; [done|]. rewrite Hw in Hu. injection Hu as <-. by eapply Hf.
    - rewrite lookup_insert_ne by done. eauto. }
  destruct r1; [|intros [= <- _ _]; done..]. destruct (see_views f l (gs_set_view j w' s)) as [[s2 y] r2] eqn:Hr.
  intros [= <- _ _] H. by apply (IH _ _ _ _ Hr), Hone.
Qed.

Lemma see_views_each f l i (Q : tview -> Prop) (P : vsig -> tview -> Prop) :
  (forall w w' x r, Q w -> f i w = (w', x, r) -> Q w') ->
  (forall w x v, Q w -> (x, v) ∈ snd (fst (f i w)) -> P x v) ->
  forall s s' tr r, see_views f l s = (s', tr, r) -> (exists w, gs_views s !! i = Some w /\ Q w) ->
  forall x st, inr (Seen i x st) ∈ tr -> exists v, gs_views st !! i = Some v /\ gs_dg st = gs_dg s /\ P x v.
Proof.
  intros Hf HP. induction l as [|j l IH]; intros s s' tr r; cbn [see_views]; [by intros [= _ <- _] _ x st ?%elem_of_nil|].
  destruct (gs_views s !! j) as [w|] eqn:Hw; [|by intros [= _ <- _] _ x st ?%elem_of_nil].
  destruct (f j w) as [[w' x] r1] eqn:Hfj. intros H HQ.
  assert (Hhere : forall y st, inr (Seen i y st) ∈ see_in j s x -> exists v, gs_views st !! i = Some v /\ gs_dg st = gs_dg s /\ P y v).
  { intros y st ([z v] & Hz & Hin)%elem_of_list_fmap. injection Hz as -> -> ->. cbn. rewrite lookup_insert. exists v. split; [done|].
    split; [done|]. destruct HQ as (u & Hu & HQ). rewrite Hw in Hu. injection Hu as <-. apply (HP w); [done|]. by rewrite Hfj. }
  destruct r1; [|injection H as _ <- _; exact Hhere..]. destruct (see_views f l (gs_set_view j w' s)) as [[s2 y] r2] eqn:Hr.
  injection H as _ <- _. intros z st [Hin|Hin]%elem_of_app; [by apply Hhere|].
  apply (IH (gs_set_view j w' s) _ _ _ Hr); [|done]. destruct HQ as (u & Hu & HQ). cbn. destruct (decide (j = i)) as [->|Hji].
  - rewrite lookup_insert. eexists. split; [done|]. rewrite Hw in Hu. injection Hu as <-. by eapply Hf.
  - rewrite lookup_insert_ne by done. eauto.
Qed.

Lemma alive_tree_ext g g' w : (forall v, bg_alive g' v = bg_alive g v) -> alive_tree g w -> alive_tree g' w.
Proof. intros H [H1 H2]. split; [done|]. intros v Hv. rewrite H. by apply H2. Qed.

Lemma rm_contract ord s s' tr i : ord_ok (ord i) -> rm_steps ord s s' tr ->
  (exists w, gs_views s !! i = Some w /\ alive_tree (gs_dg s) w) ->
  (exists w, gs_views s' !! i = Some w /\ alive_tree (gs_dg s') w) /\
  forall x st, inr (Seen i x st) ∈ tr -> seen_ok (Seen i x st).
Proof.
  intros Ho (Hal & Hsub & [(ev & -> & Hv)|(evA & s1 & o & t & sl & rv & -> & H1 & H2 & H3 & H4 & _)]) (w & Hw & HQ).
  { split; [|by intros x st (? & ? & _)%elem_of_list_fmap]. exists w. rewrite Hv. split; [done|]. by eapply alive_tree_ext. }
  assert (HQf : forall w w' x r, alive_tree (gs_dg s) w -> see_view_remove ord o t i w = (w', x, r) -> alive_tree (gs_dg s) w').
  { intros v v' x r [Ht Ha] Hf. pose proof (view_remove_see ord o t i v Ht Ho) as Hs. rewrite Hf in Hs.
    destruct Hs as (Hs1 & Hs2 & _). split; [done|]. intros y Hy%tv_vertex_exists_iff. apply Ha, tv_vertex_exists_iff. set_solver. }
  assert (HP : forall w x v, alive_tree (gs_dg s) w -> (x, v) ∈ snd (fst (see_view_remove ord o t i w)) -> is_tree v /\ promised (gs_dg s1) v x).
  { intros u x v Hu. apply removal_promised; [|done]. by apply (alive_tree_ext (gs_dg s)). }
  assert (Hst : exists w, gs_views s1 !! i = Some w /\ alive_tree (gs_dg s) w) by (rewrite H2; eauto).
  split.
  - destruct (see_views_inv _ _ i (alive_tree (gs_dg s)) HQf _ _ _ _ H1 Hst) as (w' & Hw' & HQ'). exists w'. split; [done|].
    by apply (alive_tree_ext (gs_dg s)).
  - intros x st [(? & ? & _)%elem_of_list_fmap|Hin]%elem_of_app; [done|].
    destruct (see_views_each _ _ i (alive_tree (gs_dg s)) (fun x v => is_tree v /\ promised (gs_dg s1) v x) HQf HP _ _ _ _ H1 Hst x st Hin)
      as (v & Hv & Hd & Hv1 & Hv2).
    exists v. cbn. rewrite Hd. done.
Qed.

Lemma disconnect_contract ord v n i : ord_ok (ord i) -> forall s s' tr r, see_disconnect_loop n ord v s = (s', tr, r) ->
  (exists w, gs_views s !! i = Some w /\ alive_tree (gs_dg s) w) ->
  forall x st, inr (Seen i x st) ∈ tr -> seen_ok (Seen i x st).
Proof.
  intros Ho. induction n as [|n IH]; intros s s' tr r; cbn [see_disconnect_loop]; destruct (bg_out (gs_dg s) v) as [|e l].
  1-3: by intros [= _ <- _] _ x st ?%elem_of_nil.
  intros [(s1 & tr1 & [] & tr2 & H1 & H2 & ->)|(rm & H1 & _)]%sbind_inv Hs x st Hin.
  - apply remove_v_steps in H1. destruct (rm_contract ord s s1 tr1 i Ho H1 Hs) as [Hs1 Hok].
    apply elem_of_app in Hin as [Hin|Hin]; [by apply Hok|]. by eapply IH.
  - apply remove_v_steps in H1. destruct (rm_contract ord s s' tr i Ho H1 Hs) as [_ Hok]. by apply Hok.
Qed.

(** Calls that remove edges keep the promise to every view that is a tree of living vertices. *)
Lemma removal_contract ord op s s' tr r i x st w : removes op -> ord_ok (ord i) -> gsee d0 einv ord op s = (s', tr, r) ->
  gs_views s !! i = Some w -> is_tree w -> (forall v, tv_vertex_exists w v = true -> bg_alive (gs_dg s) v = true) ->
  inr (Seen i x st) ∈ tr -> seen_ok (Seen i x st).
Proof.
  intros Hop Ho H Hw Ht Ha Hin.
  assert (Hs : exists w, gs_views s !! i = Some w /\ alive_tree (gs_dg s) w) by (exists w; done).
  destruct op; try done; cbn [gsee] in H.
  - apply remove_n_steps in H. by destruct (rm_contract ord s s' tr i Ho H Hs) as [_ Hok]; apply Hok.
  - apply remove_v_steps in H. by destruct (rm_contract ord s s' tr i Ho H Hs) as [_ Hok]; apply Hok.
  - unfold see_disconnect in H. apply sbind_inv in H as [(s1 & tr1 & v & tr2 & H1 & H2 & ->)|(rm & H1 & _)].
    + apply slift_inv in H1 as (ev1 & H1 & ->). unfold cread in H1. injection H1 as <- <- _. by eapply disconnect_contract.
    + apply slift_inv in H1 as (ev & _ & ->). apply elem_of_list_fmap in Hin as (? & ? & _). done.
Qed.

(** Only subscribed views and the view a tree is asked for emit signals. *)
Lemma rm_where ord s s' tr i x st : rm_steps ord s s' tr -> inr (Seen i x st) ∈ tr -> i ∈ gs_subs s.
Proof.
  intros (_ & _ & [(ev & -> & _)|(evA & s1 & o & t & sl & rv & -> & H1 & _)]) Hin.
  { apply elem_of_list_fmap in Hin as (? & ? & _). done. }
  apply elem_of_app in Hin as [(? & ? & _)%elem_of_list_fmap|Hin]; [done|].
  apply see_views_elem in H1 as (_ & _ & _ & _ & H1). destruct (H1 i x st Hin) as (l1 & l2 & sj & w & w1 & -> & _).
  apply elem_of_app. right. left.
Qed.

Lemma disconnect_where ord v n i x st : forall s s' tr r, see_disconnect_loop n ord v s = (s', tr, r) ->
  inr (Seen i x st) ∈ tr -> i ∈ gs_subs s.
Proof.
  induction n as [|n IH]; intros s s' tr r; cbn [see_disconnect_loop]; destruct (bg_out (gs_dg s) v) as [|e l].
  1-3: by intros [= _ <- _] ?%elem_of_nil.
  intros [(s1 & tr1 & [] & tr2 & H1 & H2 & ->)|(rm & H1 & _)]%sbind_inv Hin.
  - apply remove_v_steps in H1. apply elem_of_app in Hin as [Hin|Hin]; [by eapply rm_where|].
    destruct H1 as (_ & <- & _). by eapply IH.
  - apply remove_v_steps in H1. by eapply rm_where.
Qed.

Lemma get_tree_where s s' root keep i tr r x : see_get_tree_v root keep i s = (s', tr, r) -> inr x ∈ tr -> sn_view x = i.
Proof.
  unfold see_get_tree_v. destruct (gs_views s !! i) as [w|]; [|by intros [= _ <- _] ?%elem_of_nil].
  destruct (bfs_trace (gs_dg s) (fun _ => true) root) as [t|y| |]; [|by intros [= _ <- _] ?%elem_of_nil..].
  destruct (see_build t (tv_add_root root w)) as [w' l].
  destruct (slift (if keep then subscribe_tree_view i else cret tt) (gs_set_view i w' s)) as [[s2 l2] r2] eqn:Hl.
  intros [= _ <- _]. apply slift_inv in Hl as (ev & _ & ->).
  intros [(y & Hy & _)%elem_of_list_fmap|(y & ? & _)%elem_of_list_fmap]%elem_of_app; [by injection Hy as ->|done].
Qed.

Lemma emission_where ord op s s' tr r i x st : reachable d0 einv s -> op_noself op -> gsee d0 einv ord op s = (s', tr, r) ->
  inr (Seen i x st) ∈ tr -> i ∈ gs_subs s \/ asks_tree i op.
Proof.
  intros Hre Hns H Hin. pose proof (reachable_wf d0 einv s Hre) as Hwf.
  assert (Hlift : forall m : call (gst D E) unit, slift m s = (s', tr, r) -> i ∈ gs_subs s \/ asks_tree i op).
  { intros m (ev & _ & ->)%slift_inv. apply elem_of_list_fmap in Hin as (? & ? & _). done. }
  assert (Hone : one_edge op -> i ∈ gs_subs s \/ asks_tree i op).
  { intros Ho. left. by destruct (other_views d0 einv ord op s s' tr r i x st Hre Hns Ho H Hin) as [? _]. }
  destruct op; try (by apply Hone); try (by eapply Hlift; exact H).
  - left. cbn [gsee] in H. unfold see_disconnect in H. apply sbind_inv in H as [(s1 & tr1 & v & tr2 & H1 & H2 & ->)|(rm & H1 & _)].
    + apply slift_inv in H1 as (ev1 & H1 & ->). unfold cread in H1. injection H1 as <- <- _. by eapply disconnect_where.
    + apply slift_inv in H1 as (ev & _ & ->). apply elem_of_list_fmap in Hin as (? & ? & _). done.
  - right. cbn [gsee asks_tree] in *. apply sbind_inv in H as [(s1 & tr1 & v & tr2 & H1 & H2 & ->)|(rm & H1 & _)].
    + apply slift_inv in H1 as (ev1 & H1 & ->). unfold cread in H1. injection H1 as <- <- _. symmetry.
      by apply (get_tree_where _ _ _ _ _ _ _ _ H2 Hin).
    + apply slift_inv in H1 as (ev & _ & ->). apply elem_of_list_fmap in Hin as (? & ? & _). done.
  - right. cbn [gsee asks_tree] in *. symmetry. by apply (get_tree_where _ _ _ _ _ _ _ _ H Hin).
Qed.

(** The promises of the documentation. *)
Lemma contract ord op s s' tr r i x st w : reachable d0 einv s -> op_noself op -> ord_ok (ord i) ->
  gsee d0 einv ord op s = (s', tr, r) -> inr (Seen i x st) ∈ tr -> gs_views s !! i = Some w ->
  (asks_tree i op /\ tv_tree w = ∅ /\ tv_cross w = []) \/ (~ asks_tree i op /\ in_sync (gs_dg s) w) ->
  seen_ok (Seen i x st).
Proof.
  intros Hre Hns Ho H Hin Hw Hcase. pose proof (reachable_wf d0 einv s Hre) as Hwf.
  destruct (reachable_subs_ok d0 einv s Hre) as [Hnd _].
  destruct Hcase as [(Hask & He & Hc)|[Hask Hs]].
  { destruct op; try done; cbn [asks_tree gsee] in *; subst.
    - apply sbind_inv in H as [(s1 & tr1 & v & tr2 & H1 & H2 & ->)|(rm & H1 & _)].
      + apply slift_inv in H1 as (ev1 & H1 & ->). unfold cread in H1. injection H1 as <- <- _.
        destruct (get_tree_see _ _ _ _ _ _ _ w Hwf H2 Hw) as [_ Hok]. by apply (Hok He Hc).
      + apply slift_inv in H1 as (ev & _ & ->). apply elem_of_list_fmap in Hin as (? & ? & _). done.
    - destruct (get_tree_see _ _ _ _ _ _ _ w Hwf H Hw) as [_ Hok]. by apply (Hok He Hc). }
  destruct (sync_alive_tree _ _ Hwf Hs) as [Ht Ha].
  assert (Hrem : removes op -> seen_ok (Seen i x st)) by (intros Hr; by eapply removal_contract).
  assert (Hone : one_edge op -> seen_ok (Seen i x st)).
  { intros Hon. apply gsee_phased in H; [|done..].
    destruct (phased_elem einv ord s s' tr i x st H Hin) as (s1 & f & H1 & H2 & H3 & H4 & Hl & l1 & l2 & sj & u & u1 & Hli & A1 & A2 & -> & A4 & A5 & A6 & A7).
    rewrite Hli in Hnd. apply NoDup_app in Hnd as (_ & Hdis & _).
    assert (Hi1 : i ∉ l1) by (intros Hi; apply (Hdis i Hi); by left).
    rewrite A6, H1, Hw in A1 by done. injection A1 as <-.
    assert (Hgoal : is_tree u1 /\ promised (gs_dg s1) u1 x -> seen_ok (Seen i x (gs_set_view i u1 sj))).
    { intros [G1 G2]. exists u1. cbn. rewrite lookup_insert, A4. done. }
    apply Hgoal. destruct Hl as [(o & t & p & g0 & L1 & L2 & L3 & L4 & L5 & L6 & L7 & ->)|(o & t & -> & L1)].
    - apply (see_add_promised s1 g0 o t p w L2 L3 L4 L1 L5 L6); [by apply L7|done].
    - apply (removal_promised ord o t i w); [|done|done]. by apply (alive_tree_ext (gs_dg s)). }
  destruct (emission_where ord op s s' tr r i x st Hre Hns H Hin) as [_|?]; [|done].
  assert (Hlift : forall m : call (gst D E) unit, slift m s = (s', tr, r) -> seen_ok (Seen i x st)).
  { intros m (ev & _ & ->)%slift_inv. apply elem_of_list_fmap in Hin as (? & ? & _). done. }
  destruct op; try (by apply Hone); try (by apply Hrem); try (by eapply Hlift; exact H).
  - exfalso. apply Hask. cbn [gsee asks_tree] in *. apply sbind_inv in H as [(s1 & tr1 & v & tr2 & H1 & H2 & ->)|(rm & H1 & _)].
    + apply slift_inv in H1 as (ev1 & H1 & ->). unfold cread in H1. injection H1 as <- <- _. symmetry.
      by apply (get_tree_where _ _ _ _ _ _ _ _ H2 Hin).
    + apply slift_inv in H1 as (ev & _ & ->). apply elem_of_list_fmap in Hin as (? & ? & _). done.
  - exfalso. apply Hask. cbn [gsee asks_tree] in *. symmetry. by apply (get_tree_where _ _ _ _ _ _ _ _ H Hin).
Qed.

(** A view that is not to be kept up to date does emit signals: while it is filled. *)
Lemma not_updating ord s root i w v : reachable d0 einv s -> bg_alive (gs_dg s) root = true -> adjacent (gs_dg s) root v ->
  gs_views s !! i = Some w -> tv_tree w = ∅ -> tv_cross w = [] ->
  exists x, inr x ∈ snd (fst (gsee d0 einv ord (OGetTreeV root false i) s)) /\ sn_view x = i.
Proof.
  intros Hre Hal Hadj Hw He Hc. pose proof (reachable_wf d0 einv s Hre) as Hwf. cbn [gsee].
  destruct (see_get_tree_v root false i s) as [[s' tr] r] eqn:H. cbn [fst snd].
  destruct (get_tree_see _ _ _ _ _ _ _ w Hwf H Hw) as [_ Hok]. apply (Hok He Hc); eauto.
Qed.

End slots2.
