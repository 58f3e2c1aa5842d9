(** Tree views when an edge is removed from the graph (C19, C20), their signals (C23). *)
From stdpp Require Import prelude strings gmap.
From Verif Require Import ListLib Outcome Digraph Bfs TreeView GraphModel GraphOps GraphWf GraphStep
  SpecObs SpecView GraphStore GraphRefine GraphThms SpecWalk WalkThms BfsThms BfsFind SpecTree BuildThms SyncThms
  SpecSearch GraphSearch ViewStep ViewSync ViewRun VisitThms RemoveThms ViewFollow.

Section remove.
Context {D E : Type} (d0 : D) (einv : E -> E).
Local Notation dg_wf := (dg_wf einv).
Implicit Types (s : gst D E) (g : digraph D E) (w : tview).

Lemma same_ends_sym o t u v : same_ends o t u v -> same_ends o t v u.
Proof. unfold same_ends. tauto. Qed.

Section pair.
Variables (g : digraph D E) (o t : vid) (e1 e2 : erec E).
Hypothesis Hwf : dg_wf g.
Hypothesis He1 : bg_edge g o t = Some e1.
Hypothesis He2 : bg_edge g t o = Some e2.
Let g' := dg_rem2 (e_id e1) (e_id e2) g.

Lemma rem2_edges e : e ∈ dg_edges g' <-> e ∈ dg_edges g /\ ~ same_ends o t (e_src e) (e_tgt e).
Proof.
  pose proof (proj1 (bg_edge_iff einv g o t e1 Hwf) He1) as (Hi1 & Hs1 & Ht1).
  pose proof (proj1 (bg_edge_iff einv g t o e2 Hwf) He2) as (Hi2 & Hs2 & Ht2).
  unfold g', dg_rem2. cbn. rewrite elem_of_list_filter. split.
  - intros [[Hn1 Hn2] He]. split; [done|]. intros [[H1 H2]|[H1 H2]].
    + apply Hn1. f_equal. apply (edge_by_ends einv g); congruence.
    + apply Hn2. f_equal. apply (edge_by_ends einv g); congruence.
  - intros [He Hn]. split; [|done]. split; intros Heq; apply Hn.
    + assert (e = e1) as -> by (eapply (NoDup_fmap_inj e_id); eauto using wf_eid). left. done.
    + assert (e = e2) as -> by (eapply (NoDup_fmap_inj e_id); eauto using wf_eid). right. done.
Qed.

Lemma adj_removed u v : adjacent g' u v <-> adjacent g u v /\ ~ same_ends o t u v.
Proof.
  unfold adjacent. split.
  - intros (e & [He Hn]%rem2_edges & <- & <-). eauto.
  - intros [(e & He & <- & <-) Hn]. exists e. rewrite rem2_edges. done.
Qed.

Lemma adj_ot : adjacent g o t /\ adjacent g t o.
Proof.
  pose proof (proj1 (bg_edge_iff einv g o t e1 Hwf) He1) as (Hi1 & Hs1 & Ht1).
  pose proof (proj1 (bg_edge_iff einv g t o e2 Hwf) He2) as (Hi2 & Hs2 & Ht2).
  split; [exists e1|exists e2]; done.
Qed.

Lemma adjacent_in w u v : in_sync g w -> adjacent g u v -> tv_vertex_exists w u = true -> tv_vertex_exists w v = true.
Proof.
  intros Hs Huv. rewrite !(sy_span _ _ Hs). intros Hl. eapply linked_trans; [done|]. by apply linked_step.
Qed.

Lemma both_or_neither w : in_sync g w -> tv_vertex_exists w o = tv_vertex_exists w t.
Proof.
  intros Hs. destruct adj_ot as [H1 H2]. destruct (tv_vertex_exists w o) eqn:Ho.
  - symmetry. by eapply adjacent_in.
  - destruct (tv_vertex_exists w t) eqn:Ht; [|done]. by rewrite (adjacent_in w t o) in Ho.
Qed.

Lemma tree_edge_dec w : is_tree w -> tv_vertex_exists w o = true -> tv_vertex_exists w t = true ->
  (child w o t \/ child w t o) \/ ~ (child w o t \/ child w t o).
Proof.
  intros Ht Ho Htt. destruct (edge_exists_spec w o t) as (r & _ & Hr); [done|by apply tv_vertex_exists_iff..|].
  destruct r; [left; by apply Hr|right]. intros ?%Hr. done.
Qed.

(** The edge is not a tree edge: the view is left as it is and still spans. *)
Lemma not_tree_spanning w : in_sync g w -> ~ (child w o t \/ child w t o) -> spanning g' w.
Proof.
  intros Hs Hn.
  assert (Hce : forall p c, child w p c -> adjacent g' p c).
  { intros p c Hc. apply adj_removed. split; [by apply (sy_edge _ _ Hs)|]. intros [[-> ->]|[-> ->]]; auto. }
  split.
  - apply (sy_tree _ _ Hs).
  - apply (sy_alive _ _ Hs).
  - intros v. split.
    + intros Hv. apply (it_below _ (sy_tree _ _ Hs)) in Hv. revert Hv. apply linked_mono. exact Hce.
    + intros Hl. apply (sy_span _ _ Hs). revert Hl. apply linked_mono. intros x y ?%adj_removed. tauto.
  - exact Hce.
Qed.

Lemma not_tree_sync w : in_sync g w -> ~ (child w o t \/ child w t o) -> filter (between o t) (tv_cross w) = [] -> in_sync g' w.
Proof.
  intros Hs Hn Hf. destruct (not_tree_spanning w Hs Hn) as [S1 S2 S3 S4]. split; try done.
  - intros c Hc. destruct (sy_real _ _ Hs c Hc) as (Ho & e & He & H1 & H2 & H3). split; [done|]. exists e.
    rewrite rem2_edges. split; [|done]. split; [done|]. intros Hb.
    assert (Hx : c ∈ filter (between o t) (tv_cross w)).
    { apply elem_of_list_filter. split; [|done]. unfold between. rewrite <- H1, <- H2. done. }
    rewrite Hf in Hx. by apply elem_of_nil in Hx.
  - intros u v [Huv _]%adj_removed. by apply (sy_once _ _ Hs).
Qed.

(** Cross edges of the removed edge are stale. *)
Lemma stale_not_sync w : filter (between o t) (tv_cross w) <> [] -> ~ in_sync g' w.
Proof.
  intros Hne Hs. destruct (filter (between o t) (tv_cross w)) as [|c l] eqn:Hf; [done|].
  assert (Hc : c ∈ filter (between o t) (tv_cross w)) by (rewrite Hf; by left).
  apply elem_of_list_filter in Hc as [Hb Hc]. destruct (sy_real _ _ Hs c Hc) as (_ & e & He & H1 & H2 & _).
  apply rem2_edges in He as [_ Hn]. apply Hn. unfold same_ends. rewrite H1, H2. exact Hb.
Qed.

(** Pruning a bridge. *)
Lemma prune_sync w p c w' : in_sync g w -> child w p c -> same_ends o t p c -> no_cross_below w c ->
  is_tree w' -> pruned w c w' -> in_sync g' w'.
Proof.
  intros Hs Hpc Hends Hno Ht' [Pr Pp Pc Pl Pch _]. pose proof (sy_tree _ _ Hs) as Ht.
  destruct (child_dom w p c Ht Hpc) as [Hpd Hcd].
  assert (Hce : tv_vertex_exists w c = true) by by apply tv_vertex_exists_iff.
  assert (Hends' : forall u v, same_ends o t u v <-> same_ends p c u v).
  { intros u v. unfold same_ends in *. destruct Hends as [[-> ->]|[-> ->]]; tauto. }
  assert (Hcp : ~ child w c p).
  { intros Hx. apply (acyclic w Ht c p); [done| |done]. by apply linked_step. }
  assert (Hbelow : forall x y, child w x y -> linked (child w) c y -> y = c \/ linked (child w) c x).
  { intros x y Hxy [l Hl]. apply route_inv_snoc in Hl as [[_ ->]|(l' & b & _ & Hb & Hby)]; [by left|].
    right. rewrite (parent_unique w Ht x b y Hxy Hby). by exists l'. }
  assert (Hch : forall a b, child w' a b -> adjacent g' a b).
  { intros a b [Hab Hnb]%Pch. apply adj_removed. split; [by apply (sy_edge _ _ Hs)|].
    rewrite Hends'. intros [[-> ->]|[-> ->]]; [|done]. apply Hnb, linked_refl. }
  assert (Hnoc : forall x y, adjacent g' x y -> tv_vertex_exists w x = true -> ~ linked (child w) c x -> ~ linked (child w) c y).
  { intros x y [Hxy Hn]%adj_removed Hx Hnx Hy. rewrite Hends' in Hn.
    destruct (sy_once _ _ Hs x y Hxy Hx) as [[[Hc|Hc] _]|[_ Hc]].
    - destruct (Hbelow x y Hc Hy) as [->|?]; [|done]. apply Hn. left. split; [|done]. by apply (parent_unique w Ht x p c).
    - apply Hnx. eapply linked_trans; [done|]. by apply linked_step.
    - destruct (filter (between x y) (tv_cross w)) as [|z l] eqn:Hf; [done|].
      assert (Hz : z ∈ filter (between x y) (tv_cross w)) by (rewrite Hf; by left).
      apply elem_of_list_filter in Hz as [Hb Hz]. destruct (Hno z y Hz Hy) as [H1 H2].
      destruct Hb as [[_ ?]|[? _]]; done. }
  split.
  - done.
  - rewrite Pr. apply (sy_alive _ _ Hs).
  - intros v. split.
    + intros Hv%(it_below _ Ht'). revert Hv. apply linked_mono. exact Hch.
    + rewrite Pr. revert v. apply linked_ind_r; [rewrite <- Pr; apply (it_rootin _ Ht')|].
      intros x y _ [Hx Hnx]%Pl Hxy. apply Pl. split; [|by eapply Hnoc].
      apply adj_removed in Hxy as [Hxy _]. by eapply adjacent_in.
  - exact Hch.
  - intros x. rewrite Pc. intros Hx. destruct (sy_real _ _ Hs x Hx) as (Ho & e & He & H1 & H2 & H3). split.
    + apply Pl. split; [done|]. intros Hl. by destruct (Hno x (ce_origin x) Hx Hl).
    + exists e. rewrite rem2_edges. split; [|done]. split; [done|]. rewrite H1, H2, Hends'.
      intros [[Ha Hb]|[Ha Hb]]; destruct (Hno x c Hx (linked_refl _ _)); done.
  - intros u v Huv [Hu Hnu]%Pl. pose proof (Hnoc u v Huv Hu Hnu) as Hnv. apply adj_removed in Huv as [Huv _].
    rewrite Pc, !Pch. destruct (sy_once _ _ Hs u v Huv Hu) as [[Hc Hf]|[Hc Hf]]; [left|right]; tauto.
Qed.

Lemma view_removed ord w : in_sync g w -> ord_ok ord -> prunable w o t ->
  exists w', view_remove ord o t w = (w', Ret tt) /\ spanning g' w' /\
    (filter (between o t) (tv_cross w) = [] -> in_sync g' w') /\
    (~ (child w o t \/ child w t o) -> w' = w) /\
    (forall p c, child w p c -> same_ends o t p c -> pruned w c w' /\ in_sync g' w').
Proof.
  intros Hs Hord Hpr. pose proof (sy_tree _ _ Hs) as Ht. unfold view_remove.
  assert (Hnot : ~ (child w o t \/ child w t o) -> exists w', (w, Ret tt) = (w', Ret tt) /\ spanning g' w' /\
    (filter (between o t) (tv_cross w) = [] -> in_sync g' w') /\ (~ (child w o t \/ child w t o) -> w' = w) /\
    (forall p c, child w p c -> same_ends o t p c -> pruned w c w' /\ in_sync g' w')).
  { intros Hn. exists w. split; [done|]. split; [by apply not_tree_spanning|]. split; [by apply not_tree_sync|].
    split; [done|]. intros p c Hpc [[-> ->]|[-> ->]]; exfalso; auto. }
  destruct (tv_vertex_exists w o) eqn:Ho.
  2:{ assert (Hx : tv_edge_exists w o t = Ret false).
      { unfold tv_edge_exists. apply tv_vertex_exists_not in Ho. apply not_elem_of_dom in Ho. by rewrite Ho. }
      rewrite Hx. apply Hnot. apply tv_vertex_exists_not in Ho. intros [Hc|Hc]; apply (child_dom w) in Hc as [??]; done. }
  assert (Htt : tv_vertex_exists w t = true) by (by rewrite <- both_or_neither).
  destruct (edge_exists_spec w o t) as (r & -> & Hr); [done|by apply tv_vertex_exists_iff..|].
  destruct r.
  2:{ apply Hnot. intros ?%Hr. done. }
  assert (Hpc : exists p c, child w p c /\ same_ends o t p c).
  { destruct (proj1 Hr eq_refl); [exists o, t|exists t, o]; (split; [done|]); unfold same_ends; auto. }
  destruct Hpc as (p & c & Hpc & Hends). pose proof (Hpr p c Hpc Hends) as Hno.
  destruct (remove_edge_tree ord o t w p c) as (w' & r & Hrem & Ht' & Hpd & Hret & _); [done..| |].
  { intros x Hx [H1 _]. by destruct (Hno x _ Hx H1). }
  rewrite Hrem, (Hret Hno). exists w'. split; [done|].
  pose proof (prune_sync w p c w' Hs Hpc Hends Hno Ht' Hpd) as Hs'.
  split; [destruct Hs'; done|]. split; [done|]. split; [intros Hn; exfalso; apply Hn; by apply Hr|].
  intros p2 c2 Hpc2 Hends2. assert (c2 = c) as ->; [|done].
  destruct Hends as [[-> ->]|[-> ->]], Hends2 as [[-> ->]|[-> ->]]; try done; exfalso;
    (eapply (acyclic w Ht); [|by apply linked_step, Hpc2|exact Hpc]); apply tv_vertex_exists_iff; by apply (child_dom w) in Hpc2 as [??].
Qed.

(** With cross edges leaving the part below, the exception is thrown and the part is gone. *)
Lemma view_removed_leaving ord w p c : in_sync g w -> ord_ok ord -> child w p c -> same_ends o t p c ->
  no_cross_inside w c -> ~ no_cross_below w c ->
  exists w', view_remove ord o t w = (w', Throw XRuntime) /\ is_tree w' /\ pruned w c w' /\ ~ spanning g' w'.
Proof.
  intros Hs Hord Hpc Hends Hin Hno. pose proof (sy_tree _ _ Hs) as Ht. unfold view_remove.
  destruct (child_dom w p c Ht Hpc) as [Hpd Hcd].
  destruct (edge_exists_spec w o t) as (r & -> & Hr); [done|by destruct Hends as [[<- <-]|[<- <-]]..|].
  assert (Hrt : r = true). { apply Hr. destruct Hends as [[<- <-]|[<- <-]]; auto. }
  rewrite Hrt. destruct (remove_edge_tree ord o t w p c) as (w' & r' & Hrem & Ht' & Hp & _ & Hth); [done..|].
  rewrite Hrem, (Hth Hno). exists w'. split; [done|]. split; [done|]. split; [done|]. intros Hsp.
  destruct Hp as [Pr Pp Pc Pl Pch _]. apply Hno. intros x v Hx Hv.
  assert (Hends' : forall u v, same_ends o t u v <-> same_ends p c u v).
  { intros u y. unfold same_ends in *. destruct Hends as [[-> ->]|[-> ->]]; tauto. }
  assert (Hadj : forall u y, adjacent g u y -> ~ same_ends o t u y -> tv_vertex_exists w u = true -> ~ linked (child w) c u ->
    ~ linked (child w) c y).
  { intros u y Huy Hne Hu Hnu. assert (Hex : tv_vertex_exists w' y = true).
    { apply (sp_span _ _ Hsp). eapply linked_trans; [apply (sp_span _ _ Hsp), Pl; done|]. apply linked_step.
      by apply adj_removed. }
    apply Pl in Hex as [_ Hex]. exact Hex. }
  destruct (sy_real _ _ Hs x Hx) as (Hox & e & He & H1 & H2 & H3).
  assert (Hax : adjacent g (ce_origin x) (ce_target x)) by (exists e; done).
  assert (Hax' : adjacent g (ce_target x) (ce_origin x)) by by apply (adjacent_sym einv).
  assert (Htx : tv_vertex_exists w (ce_target x) = true) by by eapply adjacent_in.
  assert (Hne : ~ same_ends o t (ce_origin x) (ce_target x)).
  { intros Hse. assert (Hadj2 : adjacent g o t) by apply adj_ot.
    assert (Ho : tv_vertex_exists w o = true) by (destruct Hse as [[<- <-]|[<- <-]]; done).
    destruct (sy_once _ _ Hs o t Hadj2 Ho) as [[_ Hf]|[Hn _]]; [|apply Hn; by apply Hr].
    assert (Hxf : x ∈ filter (between o t) (tv_cross w)) by (apply elem_of_list_filter; done).
    rewrite Hf in Hxf. by apply elem_of_nil in Hxf. }
  split; intros Heq.
  - apply (Hadj (ce_target x) (ce_origin x)); try done.
    + intros ?%same_ends_sym. done.
    + intros Hl. apply (Hin x Hx). rewrite Heq in *. done.
    + by rewrite Heq.
  - apply (Hadj (ce_origin x) (ce_target x)); try done.
    + intros Hl. apply (Hin x Hx). rewrite Heq in *. done.
    + by rewrite Heq.
Qed.

End pair.

Lemma for_views_all f l : forall s, NoDup l ->
  (forall i, i ∈ l -> exists w w', gs_views s !! i = Some w /\ f i w = (w', Ret tt)) ->
  exists s', for_views f l s = (s', [], Ret tt).
Proof.
  induction l as [|i l IH]; intros s Hnd H; [by exists s|]. apply NoDup_cons in Hnd as [Hi Hnd]. cbn.
  destruct (H i) as (w & w' & -> & ->); [by left|]. apply IH; [done|].
  intros j Hj. destruct (H j) as (v & v' & ? & ?); [by right|]. exists v, v'. split; [|done].
  cbn. rewrite lookup_insert_ne; [done|]. by intros ->.
Qed.

Lemma remove_edge_views s a b o t ord : reachable d0 einv s ->
  get_vertex s a = Ret o -> get_vertex s b = Ret t -> adjacent (gs_dg s) o t ->
  (forall i, ord_ok (ord i)) ->
  (forall i w, i ∈ gs_subs s -> gs_views s !! i = Some w -> in_sync (gs_dg s) w /\ prunable w o t) ->
  exists s', remove_edge ord a b s = (s', [EvEdgeRemoved a b], Ret tt) /\
    (forall u v, adjacent (gs_dg s') u v <-> adjacent (gs_dg s) u v /\ ~ same_ends o t u v) /\
    gs_subs s' = gs_subs s /\ (forall j, j ∉ gs_subs s -> gs_views s' !! j = gs_views s !! j) /\
    forall i w, i ∈ gs_subs s -> gs_views s !! i = Some w ->
      exists w', gs_views s' !! i = Some w' /\ spanning (gs_dg s') w' /\
       (filter (between o t) (tv_cross w) = [] -> in_sync (gs_dg s') w') /\
       (~ (child w o t \/ child w t o) -> w' = w) /\
       (forall p c, child w p c -> same_ends o t p c -> pruned w c w' /\ in_sync (gs_dg s') w').
Proof.
  intros Hre Ha Hb (e1 & He1 & Hs1 & Ht1) Hord Hall.
  pose proof (reachable_wf d0 einv s Hre) as Hwf. destruct (reachable_subs_ok d0 einv s Hre) as [Hnd Hsubs].
  assert (Hb1 : bg_edge (gs_dg s) o t = Some e1) by by apply (bg_edge_iff einv).
  destruct (edge_rev einv _ _ _ _ Hwf Hb1) as [e2 Hb2].
  unfold remove_edge. erewrite cbind_read_ret by exact Ha. erewrite cbind_read_ret by exact Hb.
  rewrite (remove_edge_impl_eq einv ord a b o t e1 e2) by done.
  unfold remove_edge_from_tree_views.
  set (f := fun i w => match tv_edge_exists w o t with Ret true => _ | _ => _ end).
  set (g' := dg_rem2 (e_id e1) (e_id e2) (gs_dg s)).
  assert (Hf : forall i w, i ∈ gs_subs s -> gs_views s !! i = Some w ->
    exists w', f i w = (w', Ret tt) /\ spanning g' w' /\
    (filter (between o t) (tv_cross w) = [] -> in_sync g' w') /\
    (~ (child w o t \/ child w t o) -> w' = w) /\
    (forall p c, child w p c -> same_ends o t p c -> pruned w c w' /\ in_sync g' w')).
  { intros i w Hi Hw. destruct (Hall i w Hi Hw) as [Hs Hp]. by apply (view_removed (gs_dg s) o t e1 e2 Hwf Hb1 Hb2). }
  destruct (for_views_all f (gs_subs s) (gs_set_dg g' s)) as [s' Hs']; [done|..].
  { intros i Hi. destruct (Hsubs i Hi) as (w & Hw & _). destruct (Hf i w Hi Hw) as (w' & Hw' & _). exists w, w'. done. }
  change (gs_subs (gs_set_dg g' s)) with (gs_subs s). rewrite Hs'.
  pose proof Hs' as Hfr. apply for_views_frame in Hfr as (Hdg & Hsb & _). cbn in Hdg, Hsb.
  exists s'. split; [done|]. rewrite Hdg. split; [by apply adj_removed|]. split; [done|]. split.
  { intros j Hj. by rewrite (for_views_other _ _ _ _ _ _ j Hs') by done. }
  intros i w Hi Hw. destruct (Hf i w Hi Hw) as (w' & Hw' & H1 & H2).
  destruct (for_views_one _ _ _ _ _ _ i w Hs' Hnd Hi) as [(w1 & r1 & Hw1 & Hv1 & _)|(_ & x & ?)]; [done|done| |done].
  rewrite Hw' in Hw1. injection Hw1 as <- <-. by exists w'.
Qed.

Lemma remove_edge_stale s a b o t ord i w : reachable d0 einv s ->
  get_vertex s a = Ret o -> get_vertex s b = Ret t -> adjacent (gs_dg s) o t ->
  (forall i, ord_ok (ord i)) ->
  (forall i w, i ∈ gs_subs s -> gs_views s !! i = Some w -> in_sync (gs_dg s) w /\ prunable w o t) ->
  i ∈ gs_subs s -> gs_views s !! i = Some w -> filter (between o t) (tv_cross w) <> [] ->
  exists s', remove_edge ord a b s = (s', [EvEdgeRemoved a b], Ret tt) /\
    gs_views s' !! i = Some w /\ ~ in_sync (gs_dg s') w.
Proof.
  intros Hre Ha Hb Hadj Hord Hall Hi Hw Hne.
  destruct (remove_edge_views s a b o t ord) as (s' & Hr & Hadj' & _ & _ & Hv); try done.
  destruct (Hall i w Hi Hw) as [Hs _]. destruct (Hv i w Hi Hw) as (w' & Hw' & _ & _ & Hsame & _).
  assert (Hnt : ~ (child w o t \/ child w t o)).
  { assert (Ho : tv_vertex_exists w o = true).
    { destruct (filter (between o t) (tv_cross w)) as [|c l] eqn:Hf; [done|].
      assert (Hc : c ∈ filter (between o t) (tv_cross w)) by (rewrite Hf; by left).
      apply elem_of_list_filter in Hc as [Hb' Hc]. destruct (sy_real _ _ Hs c Hc) as (Hoc & e & He & H1 & H2 & _).
      destruct Hb' as [[<- <-]|[<- <-]]; [done|]. apply (sy_span _ _ Hs). apply (sy_span _ _ Hs) in Hoc.
      eapply linked_trans; [done|]. apply linked_step. exists e. done. }
    destruct (sy_once _ _ Hs o t Hadj Ho) as [[_ ?]|[? _]]; done. }
  rewrite (Hsame Hnt) in Hw'. exists s'. split; [done|]. split; [done|]. intros Hs'.
  destruct (filter (between o t) (tv_cross w)) as [|c l] eqn:Hf; [done|].
  assert (Hc : c ∈ filter (between o t) (tv_cross w)) by (rewrite Hf; by left).
  apply elem_of_list_filter in Hc as [Hb' Hc]. destruct (sy_real _ _ Hs' c Hc) as (_ & e & He & H1 & H2 & _).
  assert (Hx : adjacent (gs_dg s') (ce_origin c) (ce_target c)) by (exists e; done).
  apply Hadj' in Hx as [_ Hx]. apply Hx. exact Hb'.
Qed.

Lemma remove_edge_leaving s a b o t ord i w p c : reachable d0 einv s ->
  get_vertex s a = Ret o -> get_vertex s b = Ret t -> adjacent (gs_dg s) o t ->
  (forall i, ord_ok (ord i)) -> gs_subs s = [i] -> gs_views s !! i = Some w -> in_sync (gs_dg s) w ->
  child w p c -> same_ends o t p c -> no_cross_inside w c -> ~ no_cross_below w c ->
  exists s' w', remove_edge ord a b s = (s', [EvEdgeRemoved a b], Throw XRuntime) /\
    (forall u v, adjacent (gs_dg s') u v <-> adjacent (gs_dg s) u v /\ ~ same_ends o t u v) /\
    gs_views s' !! i = Some w' /\ is_tree w' /\ pruned w c w' /\ ~ spanning (gs_dg s') w'.
Proof.
  intros Hre Ha Hb (e1 & He1 & Hs1 & Ht1) Hord Hsub Hw Hs Hpc Hends Hin Hno.
  pose proof (reachable_wf d0 einv s Hre) as Hwf.
  assert (Hb1 : bg_edge (gs_dg s) o t = Some e1) by by apply (bg_edge_iff einv).
  destruct (edge_rev einv _ _ _ _ Hwf Hb1) as [e2 Hb2].
  unfold remove_edge. erewrite cbind_read_ret by exact Ha. erewrite cbind_read_ret by exact Hb.
  rewrite (remove_edge_impl_eq einv ord a b o t e1 e2) by done.
  unfold remove_edge_from_tree_views. cbn [gs_subs gs_set_dg]. rewrite Hsub. cbn [for_views gs_views gs_set_dg]. rewrite Hw.
  destruct (view_removed_leaving (gs_dg s) o t e1 e2 Hwf Hb1 Hb2 (ord i) w p c) as (w' & Hv & Ht' & Hp & Hsp); [done..|].
  unfold view_remove in Hv. rewrite Hv.
  eexists _, w'. split; [done|]. cbn. split; [by apply adj_removed|]. rewrite lookup_insert. done.
Qed.

(** *** Signals (C23) *)
Lemma add_to_view_heard s ne w w' r : add_edge_to_tree_view s ne w = (w', r) ->
  exists l, tv_log w' = tv_log w ++ l /\ forall p c, child w' p c <-> heard_all (child w) l p c.
Proof.
  assert (Hsame : exists l, tv_log w = tv_log w ++ l /\ forall p c, child w p c <-> heard_all (child w) l p c).
  { exists []. by rewrite app_nil_r. }
  assert (H1 : forall a b, exists l, tv_log (tv_add_edge a b w) = tv_log w ++ l /\
    forall p c, child (tv_add_edge a b w) p c <-> heard_all (child w) l p c).
  { intros a b. exists [SigAdded a b]. split; [done|]. intros p c. by rewrite child_add_edge. }
  assert (H2 : forall (tr : list (bev E)) a b, exists l, tv_log (build_tree tr (tv_add_edge a b w)) = tv_log w ++ l /\
    forall p c, child (build_tree tr (tv_add_edge a b w)) p c <-> heard_all (child w) l p c).
  { intros tr a b. destruct (build_heard (E:=E) tr (tv_add_edge a b w)) as (l & Hl & Hc). exists (SigAdded a b :: l).
    rewrite Hl. cbn. rewrite <- app_assoc. split; [done|]. intros p c. rewrite Hc. apply heard_all_ext.
    intros x y. by rewrite child_add_edge. }
  assert (Hgo : forall a b, let w1 := tv_add_edge a b w in
    (if bg_alive (gs_dg s) b then
      if bool_decide (2 < bg_degree (gs_dg s) b) then
        match obind (get_frame_id s a) (fun id1 =>
              obind (get_frame_id s b) (fun id2 =>
              obind (get_edge s id1 id2) (fun e1 =>
              obind (get_edge s id2 id1) (fun e2 =>
              bfs_trace (gs_dg s)
                (fun e => negb (Nat.eqb (e_id e) (e_id e1)) && negb (Nat.eqb (e_id e) (e_id e2)))
                b)))) with
        | Ret tr => (build_tree tr w1, Ret tt)
        | Throw x => (w1, Throw x)
        | UB => (w1, UB)
        | Fuel => (w1, Fuel)
        end
      else (w1, Ret tt)
    else (w1, UB)) = (w', r) -> exists l, tv_log w' = tv_log w ++ l /\ forall p c, child w' p c <-> heard_all (child w) l p c).
  { intros a b w1. destruct (bg_alive _ _); [|intros [= <- _]; apply H1].
    case_bool_decide; [|intros [= <- _]; apply H1].
    destruct (obind _ _); intros [= <- _]; [apply H2|apply H1..]. }
  unfold add_edge_to_tree_view. destruct (tv_vertex_exists _ _), (tv_vertex_exists _ _).
  - destruct (tv_edge_exists _ _ _) as [[]| | |]; intros [= <- _]; try done.
    eexists [SigCross _]. split; [done|]. done.
  - apply Hgo.
  - apply Hgo.
  - intros [= <- _]. done.
Qed.

Lemma vstep_heard (x y : digraph D E * tview) ev : vstep einv x ev y ->
  exists l, tv_log (snd y) = tv_log (snd x) ++ l /\ forall p c, child (snd y) p c <-> heard_all (child (snd x)) l p c.
Proof.
  assert (Hsame : forall w, exists l, tv_log w = tv_log w ++ l /\ forall p c, child w p c <-> heard_all (child w) l p c).
  { intros w. exists []. by rewrite app_nil_r. }
  intros Hv. destruct Hv as [g ev g' w Hl Hk|g fo ft o t p s1 w w' Hfo Hft Hot He Hs1 Hadd|g fo ft o t e1 e2 ord w w' r ? ? ? ? Hv Hok|]; cbn.
  - done.
  - by eapply add_to_view_heard.
  - unfold view_remove in Hv. destruct (tv_edge_exists w o t) as [[]| | |]; try (by injection Hv as <- _).
    eapply remove_edge_heard; [done|]. by destruct r.
  - done.
Qed.

Lemma vsteps_heard (x y : digraph D E * tview) ev : vsteps einv x ev y ->
  exists l, tv_log (snd y) = tv_log (snd x) ++ l /\ forall p c, child (snd y) p c <-> heard_all (child (snd x)) l p c.
Proof.
  induction 1 as [x|x ev1 y ev2 z H1 H2 IH|g w k on c ev z H IH]; [exists []; by rewrite app_nil_r| |].
  2:{ by destruct k. }
  apply vstep_heard in H1 as (l1 & Hl1 & Hc1). destruct IH as (l2 & Hl2 & Hc2).
  exists (l1 ++ l2). rewrite Hl2, Hl1, <- app_assoc. split; [done|]. intros p c. rewrite Hc2, heard_all_app.
  by apply heard_all_ext.
Qed.

Lemma signals_heard s i w h s' ev r : reachable d0 einv s -> i ∈ gs_subs s -> gs_views s !! i = Some w ->
  hist_noself h -> Forall (fun x => op_not i (snd x)) h -> run d0 einv h s = (s', ev, r) -> ok r ->
  exists w' l, gs_views s' !! i = Some w' /\ tv_log w' = tv_log w ++ l /\
    forall p c, child w' p c <-> heard_all (child w) l p c.
Proof.
  intros Hre Hi Hw Hns Hnot Hrun Hok.
  destruct (run_vsteps d0 einv i h s s' ev r w) as (w' & (_ & _ & Hw') & Hv); try done.
  { by apply (reachable_wf d0 einv). }
  { by apply (reachable_subs_ok d0 einv). }
  { split; [|done]. by destruct (reachable_subs_ok d0 einv s Hre). }
  apply vsteps_heard in Hv as (l & Hl & Hc). by exists w', l.
Qed.

Lemma get_tree_heard s rf root keep i w s' ev r : gs_views s !! i = Some w -> get_vertex s rf = Ret root ->
  get_tree rf keep i s = (s', ev, r) -> ok r ->
  exists w' l, gs_views s' !! i = Some w' /\ tv_log w' = tv_log w ++ l /\
    forall p c, child w' p c <-> heard_all (child w) l p c.
Proof.
  intros Hw Hr. unfold get_tree. erewrite cbind_read_ret by exact Hr. unfold get_tree_v. rewrite Hw.
  unfold get_tree_into. destruct (bfs_trace _ _ _) as [tr| | |] eqn:Htr; cbn [obind].
  2:{ intros [= <- _ _] _. exists w, []. rewrite app_nil_r. done. }
  2,3: by intros [= _ _ <-].
  destruct (build_heard tr (tv_add_root root w)) as (l & Hl & Hc).
  assert (Hc' : forall p c, child (build_tree tr (tv_add_root root w)) p c <-> heard_all (child w) l p c).
  { intros p c. rewrite Hc. apply heard_all_ext. clear. intros p c. unfold child, tv_add_root. cbn.
    destruct (decide (root = p)) as [->|]; [|by rewrite lookup_insert_ne]. rewrite lookup_insert. unfold tv_rel.
    destruct (tv_tree w !! p) as [r|]; cbn; split.
    - intros (r' & [= <-] & ?). eauto.
    - intros (r' & [= <-] & ?). eauto.
    - intros (r' & [= <-] & Hx). by apply elem_of_nil in Hx.
    - by intros (r' & ? & _). }
  destruct keep.
  - unfold subscribe_tree_view. cbn. rewrite lookup_insert.
    destruct (tv_pub _); [by intros [= _ _ <-]|]. intros [= <- _ _] _. cbn.
    rewrite lookup_insert. eexists _, l. split; [done|]. split; [done|]. exact Hc'.
  - intros [= <- _ _] _. cbn. rewrite lookup_insert. by eexists _, l.
Qed.

End remove.

(** *** Connections of a view (C23, C24) *)
Section slots.
Context {D E : Type} (d0 : D) (einv : E -> E).
Implicit Types (s : gst D E) (w : tview).

Lemma told_heard c w l R : c ∈ slots_of KAdded w -> c ∈ slots_of KRemoved w ->
  forall p q, heard_all R (told_to c w l) p q <-> heard_all R l p q.
Proof.
  intros Ha Hr. revert R. induction l as [|x l IH]; intros R p q; [done|]. unfold told_to.
  destruct (decide (c ∈ slots_of (kind_of x) w)) as [Hc|Hc].
  - rewrite filter_cons_True by done. apply IH.
  - rewrite filter_cons_False by done. destruct x; [|done..]. apply IH.
Qed.

Lemma slots_hear s i w h s' ev r : reachable d0 einv s -> i ∈ gs_subs s -> gs_views s !! i = Some w ->
  hist_noself h -> Forall (fun x => op_not i (snd x)) h -> Forall (fun x => op_no_slot i (snd x)) h ->
  run d0 einv h s = (s', ev, r) -> ok r ->
  exists w' l, gs_views s' !! i = Some w' /\ tv_log w' = tv_log w ++ l /\ same_slots w w' /\
    forall c, c ∈ slots_of KAdded w -> c ∈ slots_of KRemoved w ->
      forall p q, child w' p q <-> heard_all (child w) (told_to c w l) p q.
Proof.
  intros Hre Hi Hw Hns Hnot Hsl Hrun Hok.
  assert (Hh : hasview i s w) by (split; [|done]; by destruct (reachable_subs_ok d0 einv s Hre)).
  destruct (run_vsteps d0 einv i h s s' ev r w) as (w' & Hh' & Hv); try done.
  { by apply (reachable_wf d0 einv). }
  { by apply (reachable_subs_ok d0 einv). }
  pose proof (run_slots d0 einv i h s s' ev r w w' (reachable_wf d0 einv s Hre) (reachable_subs_ok d0 einv s Hre)
    Hh Hns Hnot Hsl Hrun Hok Hh') as Hss.
  apply vsteps_heard in Hv as (l & Hl & Hc). exists w', l. destruct Hh' as (_ & _ & Hw'). split; [done|]. split; [done|].
  split; [done|]. intros c Ha Hr p q. rewrite told_heard by done. apply Hc.
Qed.
End slots.

(** *** Moving and copying a view (C24) *)
Section move.
Context {D E : Type} (d0 : D) (einv : E -> E).
Implicit Types (s : gst D E) (w : tview).

Lemma filter_all {A} (P : A -> Prop) `{!forall x, Decision (P x)} (l : list A) : (forall x, x ∈ l -> P x) -> filter P l = l.
Proof.
  induction l as [|x l IH]; intros Hl; [done|]. rewrite filter_cons_True by (apply Hl; by left). f_equal. apply IH.
  intros y Hy. apply Hl. by right.
Qed.

Lemma move_view_subscribed s i j w : reachable d0 einv s -> i ∈ gs_subs s -> gs_views s !! i = Some w -> gs_views s !! j = None ->
  exists s' w' wo, move_view i j s = (s', [], Ret tt) /\ gs_dg s' = gs_dg s /\
    i ∉ gs_subs s' /\ filter (fun k => k = j) (gs_subs s') = [j] /\
    filter (fun k => k <> j) (gs_subs s') = filter (fun k => k <> i) (gs_subs s) /\
    gs_views s' !! j = Some w' /\ gs_views s' !! i = Some wo /\ tv_pub wo = false /\
    tv_root w' = tv_root w /\ tv_tree w' = tv_tree w /\ tv_cross w' = tv_cross w /\ tv_pub w' = true /\
    tv_slots_cross w' = tv_slots_cross w /\ tv_slots_added w' = tv_slots_added w /\ tv_slots_removed w' = [] /\
    forall k, k <> i -> k <> j -> gs_views s' !! k = gs_views s !! k.
Proof.
  intros Hre Hi Hw Hj. destruct (reachable_subs_ok d0 einv s Hre) as [Hnd Hsub].
  destruct (Hsub i Hi) as (w0 & Hw0 & Hp). assert (w0 = w) as -> by congruence.
  assert (Hij : i <> j) by congruence.
  assert (Hjn : j ∉ gs_subs s) by (intros Hin; destruct (Hsub j Hin) as (? & ? & _); congruence).
  rewrite (move_view_eq i j w) by done. unfold moved. rewrite Hp. cbn.
  eexists _, _, _. split; [done|]. cbn. split; [done|]. split.
  { rewrite elem_of_app, elem_of_list_filter, elem_of_list_singleton. naive_solver. }
  split.
  { rewrite filter_app. rewrite (filter_none _ (filter _ _)).
    - cbn. unfold filter, list_filter. rewrite decide_True by done. done.
    - intros x [_ Hx]%elem_of_list_filter ->. done. }
  split.
  { rewrite filter_app. rewrite (filter_all _ (filter _ _)).
    - rewrite (filter_none _ [j]); [by rewrite app_nil_r|]. intros x ->%elem_of_list_singleton. auto.
    - intros x [_ Hx]%elem_of_list_filter ->. done. }
  rewrite lookup_insert_ne, !lookup_insert by done. split; [done|]. split; [done|]. cbn.
  repeat (split; [done|]). intros k Hk1 Hk2. by rewrite !lookup_insert_ne by done.
Qed.

Lemma move_loses_slots s i j w s' w' :
  gs_views s !! i = Some w -> gs_views s !! j = None -> slots_of KRemoved w <> [] ->
  move_view i j s = (s', [], Ret tt) -> gs_views s' !! j = Some w' -> slots_of KRemoved w' = [] /\ ~ same_slots w w'.
Proof.
  intros Hw Hj Hne. assert (Hij : i <> j) by congruence. rewrite (move_view_eq i j w) by done. intros [= <-].
  unfold moved. cbn. rewrite lookup_insert_ne, lookup_insert by done. intros [= <-]. cbn. split; [done|].
  intros H. specialize (H KRemoved). cbn in H, Hne. congruence.
Qed.

Lemma move_view_unsubscribed s i j w : gs_views s !! i = Some w -> gs_views s !! j = None -> tv_pub w = false ->
  exists s' w' wo, move_view i j s = (s', [], Ret tt) /\ gs_dg s' = gs_dg s /\ gs_subs s' = gs_subs s /\
    gs_views s' !! j = Some w' /\ gs_views s' !! i = Some wo /\ tv_pub wo = false /\
    tv_root w' = tv_root w /\ tv_tree w' = tv_tree w /\ tv_cross w' = tv_cross w /\ tv_pub w' = false /\
    tv_slots_cross w' = tv_slots_cross w /\ tv_slots_added w' = tv_slots_added w /\ tv_slots_removed w' = [] /\
    forall k, k <> i -> k <> j -> gs_views s' !! k = gs_views s !! k.
Proof.
  intros Hw Hj Hp. assert (Hij : i <> j) by congruence.
  rewrite (move_view_eq i j w) by done. unfold moved. rewrite Hp. cbn.
  eexists _, _, _. split; [done|]. cbn. split; [done|]. split; [done|].
  rewrite lookup_insert_ne, !lookup_insert by done. split; [done|]. split; [done|]. cbn.
  repeat (split; [done|]). intros k Hk1 Hk2. by rewrite !lookup_insert_ne by done.
Qed.

Lemma copy_view_eq s i j w : gs_views s !! i = Some w -> gs_views s !! j = None ->
  exists s' w', copy_view i j s = (s', [], Ret tt) /\ gs_dg s' = gs_dg s /\ gs_subs s' = gs_subs s /\
    gs_views s' !! j = Some w' /\ tv_root w' = tv_root w /\ tv_tree w' = tv_tree w /\ tv_cross w' = tv_cross w /\
    forall k, k <> j -> gs_views s' !! k = gs_views s !! k.
Proof.
  intros Hw Hj. unfold copy_view. rewrite Hw, Hj. eexists _, _. split; [done|]. cbn. rewrite lookup_insert.
  repeat (split; [done|]). intros k Hk. by rewrite lookup_insert_ne.
Qed.

End move.

Lemma remove_bridge {D E : Type} (d0 : D) (einv : E -> E) (s : gst D E) a b o t ord :
  reachable d0 einv s ->
  get_vertex s a = Ret o -> get_vertex s b = Ret t -> adjacent (gs_dg s) o t ->
  (forall i, ord_ok (ord i)) ->
  (forall i w, i ∈ gs_subs s -> gs_views s !! i = Some w -> in_sync (gs_dg s) w /\ prunable w o t) ->
  exists s', remove_edge ord a b s = (s', [EvEdgeRemoved a b], Ret tt) /\
    forall i w p c, i ∈ gs_subs s -> gs_views s !! i = Some w -> child w p c -> same_ends o t p c ->
      exists w', gs_views s' !! i = Some w' /\ in_sync (gs_dg s') w' /\ tv_root w' = tv_root w /\
        (forall v, tv_vertex_exists w v = true ->
           (tv_vertex_exists w' v = false <-> ~ linked (adjacent (gs_dg s')) (tv_root w) v)) /\
        (forall v, tv_vertex_exists w' v = true -> tv_vertex_exists w v = true) /\
        (exists l, tv_log w' = tv_log w ++ ((fun x => SigRemoved (fst x) (snd x)) <$> l) /\ NoDup l.*2 /\
           (forall q v, (q, v) ∈ l <->
              tv_vertex_exists w v = true /\ tv_vertex_exists w' v = false /\ tv_get_parent w v = Ret q) /\
           (forall x y q v q', l !! x = Some (q, v) -> l !! y = Some (q', q) -> x < y)).
Proof.
  intros Hre Ha Hb Hadj Hord Hall.
  destruct (remove_edge_views d0 einv s a b o t ord) as (s' & Hr & _ & _ & _ & Hv); try done.
  exists s'. split; [done|]. intros i w p c Hi Hw Hpc Hends.
  destruct (Hv i w Hi Hw) as (w' & Hw' & _ & _ & _ & Hp). destruct (Hp p c Hpc Hends) as [[Pr Pp Pc Pl Pch Plog] Hs'].
  destruct (Hall i w Hi Hw) as [Hs _]. pose proof (sy_tree _ _ Hs) as Ht.
  assert (Hbelow : forall v, linked (child w) c v -> tv_vertex_exists w v = true).
  { intros v Hl. apply tv_vertex_exists_iff, (below_in w Ht c); [|done]. apply tv_vertex_exists_iff.
    by apply (child_dom w p c Ht). }
  assert (Hgone : forall v, tv_vertex_exists w v = true -> tv_vertex_exists w' v = false <-> linked (child w) c v).
  { intros v Hv1. rewrite <- not_true_iff_false, Pl. split.
    - intros Hn. destruct (decide (v ∈ dom (tv_tree w'))) as [Hd|Hd].
      + apply tv_vertex_exists_iff, Pl in Hd. done.
      + destruct Plog as (l & _ & _ & Hl & _). destruct (decide (v = tv_root w)) as [->|Hvr].
        { exfalso. apply Hd. rewrite <- Pr. apply tv_vertex_exists_iff, (it_rootin _ (sy_tree _ _ Hs')). }
        destruct (it_parent _ Ht v Hv1 Hvr) as (q & Hq & _).
        destruct (decide ((q, v) ∈ l)) as [Hin|Hin]; [by apply Hl in Hin as [? _]|].
        exfalso. apply Hn. split; [done|]. intros Hlk. apply Hin. by apply Hl.
    - tauto. }
  exists w'. split; [done|]. split; [done|]. split; [done|]. split; [|split; [|]].
  - intros v Hv1. rewrite <- not_true_iff_false. rewrite (sy_span _ _ Hs'), Pr. done.
  - intros v Hv1. by apply Pl in Hv1 as [? _].
  - destruct Plog as (l & Hl & Hnd & Hall' & Hord'). exists l. split; [done|]. split; [done|]. split; [|done].
    intros q v. rewrite Hall'. split.
    + intros [Hlk Hq]. split; [by apply Hbelow|]. split; [|done]. apply Hgone; [by apply Hbelow|done].
    + intros (Hv1 & Hv2 & Hq). split; [|done]. by apply Hgone.
Qed.
