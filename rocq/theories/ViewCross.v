(** Graph and view after the removal of a tree edge below which there are cross edges (C19). *)
From stdpp Require Import prelude strings gmap.
From Verif Require Import ListLib Outcome Digraph Bfs TreeView GraphModel GraphOps GraphWf GraphStep
  SpecObs SpecView SpecCross GraphStore GraphRefine GraphThms SpecWalk WalkThms BfsThms BfsFind SpecTree BuildThms SyncThms
  SpecSearch GraphSearch ViewStep ViewSync ViewRun VisitThms RemoveThms ViewFollow ViewRemove CrossThms.

Lemma sublist_filter_mono {A} (P : A -> Prop) `{!forall x, Decision (P x)} (l1 l2 : list A) :
  l1 `sublist_of` l2 -> filter P l1 `sublist_of` filter P l2.
Proof.
  induction 1 as [|x l1 l2 _ IH|x l1 l2 _ IH]; [done|..]; rewrite ?filter_cons.
  - destruct (decide (P x)); [by apply sublist_skip|done].
  - destruct (decide (P x)); [by apply sublist_cons|done].
Qed.

Section cross.
Context {D E : Type} (d0 : D) (einv : E -> E).
Local Notation dg_wf := (dg_wf einv).
Implicit Types (s : gst D E) (g : digraph D E) (w : tview).

Section pair.
Variables (g : digraph D E) (o t : vid) (e1 e2 : erec E).
Hypothesis Hwf : dg_wf g.
Hypothesis He1 : bg_edge g o t = Some e1.
Hypothesis He2 : bg_edge g t o = Some e2.
Let g' := dg_rem2 (e_id e1) (e_id e2) g.

Lemma cross_ends w x : in_sync g w -> x ∈ tv_cross w ->
  tv_vertex_exists w (ce_origin x) = true /\ tv_vertex_exists w (ce_target x) = true /\
  adjacent g (ce_origin x) (ce_target x) /\ ce_origin x <> ce_target x.
Proof.
  intros Hs Hx. destruct (sy_real _ _ Hs x Hx) as (Hox & e & He & H1 & H2 & _).
  assert (Hax : adjacent g (ce_origin x) (ce_target x)) by (exists e; done).
  split; [done|]. split; [by eapply adjacent_in|]. split; [done|]. rewrite <- H1, <- H2. by apply (wf_noself einv _ Hwf).
Qed.

(** A cross edge is not the removed tree edge. *)
Lemma cross_not_tree w p c x : in_sync g w -> child w p c -> same_ends o t p c -> x ∈ tv_cross w ->
  ~ same_ends o t (ce_origin x) (ce_target x).
Proof.
  intros Hs Hpc Hends Hx Hse. destruct (cross_ends w x Hs Hx) as (Hox & Htx & Hax & _).
  assert (Hb : x ∈ filter (between p c) (tv_cross w)).
  { apply elem_of_list_filter. split; [|done]. unfold between, same_ends in *. naive_solver. }
  assert (Hpe : tv_vertex_exists w p = true).
  { apply tv_vertex_exists_iff. by apply (child_dom w p c (sy_tree _ _ Hs)). }
  destruct (sy_once _ _ Hs p c (sy_edge _ _ Hs _ _ Hpc) Hpe) as [[_ Hf]|[Hn _]]; [|by auto].
  rewrite Hf in Hb. by apply elem_of_nil in Hb.
Qed.

Lemma trim_sync w p c w' : in_sync g w -> child w p c -> same_ends o t p c ->
  (forall x, x ∈ tv_cross w -> ~ leaving w c x) -> is_tree w' -> trimmed w c w' ->
  (forall v, linked (child w) c v \/ ~ linked (child w) c v) -> in_sync g' w'.
Proof.
  intros Hs Hpc Hends Hnl Ht' (kept & [Pr Pp Pc Pl Pch _] & Hsub & Hkept) Hdec. pose proof (sy_tree _ _ Hs) as Ht.
  change (tv_root (tv_set_cross kept w)) with (tv_root w) in Pr.
  change (tv_cross (tv_set_cross kept w)) with kept in Pc.
  change (forall v, tv_vertex_exists w' v = true <-> tv_vertex_exists w v = true /\ ~ linked (child w) c v) in Pl.
  change (forall p v, child w' p v <-> child w p v /\ ~ linked (child w) c v) in Pch.
  destruct (child_dom w p c Ht Hpc) as [Hpd Hcd].
  assert (Hends' : forall u v, same_ends o t u v <-> same_ends p c u v).
  { intros u v. unfold same_ends in *. destruct Hends as [[-> ->]|[-> ->]]; tauto. }
  assert (Hcp : ~ child w c p).
  { intros Hx. apply (acyclic w Ht c p); [by apply tv_vertex_exists_iff| |done]. by apply linked_step. }
  assert (Hbelow : forall x y, child w x y -> linked (child w) c y -> y = c \/ linked (child w) c x).
  { intros x y Hxy [l Hl]. apply route_inv_snoc in Hl as [[_ ->]|(l' & b & _ & Hb & Hby)]; [by left|].
    right. rewrite (parent_unique w Ht x b y Hxy Hby). by exists l'. }
  assert (Hch : forall a b, child w' a b -> adjacent g' a b).
  { intros a b [Hab Hnb]%Pch. apply (adj_removed einv g o t e1 e2 Hwf He1 He2). split; [by apply (sy_edge _ _ Hs)|].
    rewrite Hends'. intros [[-> ->]|[-> ->]]; [|done]. apply Hnb, linked_refl. }
  assert (Hnoc : forall x y, adjacent g' x y -> tv_vertex_exists w x = true -> ~ linked (child w) c x -> ~ linked (child w) c y).
  { intros x y [Hxy Hn]%(adj_removed einv g o t e1 e2 Hwf He1 He2) Hx Hnx Hy. rewrite Hends' in Hn.
    destruct (sy_once _ _ Hs x y Hxy Hx) as [[[Hc|Hc] _]|[_ Hc]].
    - destruct (Hbelow x y Hc Hy) as [->|?]; [|done]. apply Hn. left. split; [|done]. by apply (parent_unique w Ht x p c).
    - apply Hnx. eapply linked_trans; [done|]. by apply linked_step.
    - destruct (filter (between x y) (tv_cross w)) as [|z l] eqn:Hf; [done|].
      assert (Hz : z ∈ filter (between x y) (tv_cross w)) by (rewrite Hf; by left).
      apply elem_of_list_filter in Hz as [Hb Hz]. apply (Hnl z Hz). unfold leaving.
      destruct Hb as [[-> ->]|[-> ->]]; auto. }
  assert (Hout : forall x, x ∈ kept -> ~ linked (child w) c (ce_origin x) /\ ~ linked (child w) c (ce_target x)).
  { intros x [Hx Hi]%Hkept. specialize (Hnl x Hx). unfold leaving, inside in *.
    destruct (Hdec (ce_origin x)), (Hdec (ce_target x)); tauto. }
  split.
  - done.
  - rewrite Pr. apply (sy_alive _ _ Hs).
  - intros v. split.
    + intros Hv%(it_below _ Ht'). revert Hv. apply linked_mono. exact Hch.
    + rewrite Pr. revert v. apply linked_ind_r; [rewrite <- Pr; apply (it_rootin _ Ht')|].
      intros x y _ [Hx Hnx]%Pl Hxy. apply Pl. split; [|by eapply Hnoc].
      apply (adj_removed einv g o t e1 e2 Hwf He1 He2) in Hxy as [Hxy _]. by eapply adjacent_in.
  - exact Hch.
  - intros x. rewrite Pc. intros Hx. destruct (Hout x Hx) as [Hn1 Hn2]. apply Hkept in Hx as [Hx _].
    destruct (sy_real _ _ Hs x Hx) as (Ho & e & He & H1 & H2 & H3). split.
    + by apply Pl.
    + exists e. split; [|done]. apply (rem2_edges einv g o t e1 e2 Hwf He1 He2). split; [done|]. rewrite H1, H2, Hends'.
      intros [[Ha Hb]|[Ha Hb]]; [apply Hn2; rewrite Hb|apply Hn1; rewrite Ha]; apply linked_refl.
  - intros u v Huv [Hu Hnu]%Pl. pose proof (Hnoc u v Huv Hu Hnu) as Hnv.
    apply (adj_removed einv g o t e1 e2 Hwf He1 He2) in Huv as [Huv _].
    rewrite Pc, !Pch. pose proof (sublist_filter_mono (between u v) _ _ Hsub) as Hsf.
    destruct (sy_once _ _ Hs u v Huv Hu) as [[Hc Hf]|[Hc Hf]]; [left|right].
    + split; [tauto|]. rewrite Hf in Hsf. by apply sublist_nil_r in Hsf.
    + split; [tauto|]. destruct (filter (between u v) (tv_cross w)) as [|z [|? ?]] eqn:Hz; [done| |done].
      assert (Hzin : z ∈ filter (between u v) (tv_cross w)) by (rewrite Hz; by left).
      apply elem_of_list_filter in Hzin as [Hb Hzin].
      assert (Hzk : z ∈ filter (between u v) kept).
      { apply elem_of_list_filter. split; [done|]. apply Hkept. split; [done|]. intros [H1 H2].
        destruct Hb as [[<- <-]|[<- <-]]; done. }
      apply sublist_length in Hsf. cbn in Hsf. destruct (filter (between u v) kept) as [|? [|? ?]]; cbn in *; [|lia|lia].
      by apply elem_of_nil in Hzk.
Qed.

Lemma trim_not_spanning w p c w' x : in_sync g w -> child w p c -> same_ends o t p c ->
  x ∈ tv_cross w -> leaving w c x -> trimmed w c w' -> ~ spanning g' w'.
Proof.
  intros Hs Hpc Hends Hx Hl (kept & [Pr _ _ Pl _ _] & _ & _) Hsp.
  change (forall v, tv_vertex_exists w' v = true <-> tv_vertex_exists w v = true /\ ~ linked (child w) c v) in Pl.
  destruct (cross_ends w x Hs Hx) as (Hox & Htx & Hax & _).
  pose proof (cross_not_tree w p c x Hs Hpc Hends Hx) as Hne.
  assert (Hgo : forall u y, adjacent g u y -> ~ same_ends o t u y -> tv_vertex_exists w u = true -> ~ linked (child w) c u ->
    ~ linked (child w) c y).
  { intros u y Huy Hn Hu Hnu. assert (Hex : tv_vertex_exists w' y = true).
    { apply (sp_span _ _ Hsp). eapply linked_trans; [apply (sp_span _ _ Hsp), Pl; done|]. apply linked_step.
      by apply (adj_removed einv g o t e1 e2 Hwf He1 He2). }
    apply Pl in Hex as [_ Hex]. exact Hex. }
  destruct Hl as [[H1 H2]|[H1 H2]].
  - apply (Hgo (ce_target x) (ce_origin x)); try done; [by apply (adjacent_sym einv)|]. intros ?%same_ends_sym. done.
  - apply (Hgo (ce_origin x) (ce_target x)); done.
Qed.

End pair.

Lemma remove_tree_edge s a b o t ord i w p c : reachable d0 einv s ->
  get_vertex s a = Ret o -> get_vertex s b = Ret t ->
  (forall i, ord_ok (ord i)) -> gs_subs s = [i] -> gs_views s !! i = Some w -> in_sync (gs_dg s) w ->
  child w p c -> same_ends o t p c ->
  exists s' w' r, remove_edge ord a b s = (s', [EvEdgeRemoved a b], r) /\
    (forall u v, adjacent (gs_dg s') u v <-> adjacent (gs_dg s) u v /\ ~ same_ends o t u v) /\
    gs_views s' !! i = Some w' /\
    ((r = UB /\ w' = w) \/
     (r = Ret tt /\ (forall x, x ∈ tv_cross w -> ~ leaving w c x) /\ trimmed w c w' /\ in_sync (gs_dg s') w') \/
     (r = Throw XRuntime /\ (exists x, x ∈ tv_cross w /\ leaving w c x) /\ is_tree w' /\ trimmed w c w' /\
      ~ spanning (gs_dg s') w')) /\
    ((forall x, x ∈ tv_cross w -> ~ leaving w c x) ->
     (r = Ret tt <-> backwards w c (fst <$> fst (tv_visit_bfs (S (size (tv_tree w))) (ord i) w [c])))).
Proof.
  intros Hre Ha Hb Hord Hsub Hw Hs Hpc Hends.
  pose proof (reachable_wf d0 einv s Hre) as Hwf. pose proof (sy_tree _ _ Hs) as Ht.
  assert (Hadj : adjacent (gs_dg s) o t).
  { pose proof (sy_edge _ _ Hs _ _ Hpc) as Hx. destruct Hends as [[-> ->]|[-> ->]]; [done|by apply (adjacent_sym einv)]. }
  destruct Hadj as (e1 & He1 & Hs1 & Ht1).
  assert (Hb1 : bg_edge (gs_dg s) o t = Some e1) by by apply (bg_edge_iff einv).
  destruct (edge_rev einv _ _ _ _ Hwf Hb1) as [e2 Hb2].
  unfold remove_edge. erewrite cbind_read_ret by exact Ha. erewrite cbind_read_ret by exact Hb.
  rewrite (remove_edge_impl_eq einv ord a b o t e1 e2) by done.
  unfold remove_edge_from_tree_views. cbn [gs_subs gs_set_dg]. rewrite Hsub. cbn [for_views gs_views gs_set_dg]. rewrite Hw.
  destruct (child_dom w p c Ht Hpc) as [Hpd Hcd].
  destruct (edge_exists_spec w o t) as (re & -> & Hr); [done|by destruct Hends as [[<- <-]|[<- <-]]..|].
  assert (re = true) as ->. { apply Hr. destruct Hends as [[<- <-]|[<- <-]]; auto. }
  assert (Hself : forall x, x ∈ tv_cross w -> ce_origin x <> ce_target x).
  { intros x Hx. by destruct (cross_ends _ Hwf w x Hs Hx) as (_ & _ & _ & ?). }
  assert (Hdec : forall v, linked (child w) c v \/ ~ linked (child w) c v).
  { destruct (remove_edge_general (ord i) o t w p c) as (vs & _ & _ & _ & Hvs & _); [done..|].
    intros v. rewrite <- Hvs. destruct (decide (v ∈ vs)); auto. }
  pose proof (remove_edge_defined (ord i) o t w p c Ht (Hord i) Hpc Hends Hself) as Hdef.
  destruct (remove_edge_cases (ord i) o t w p c Ht (Hord i) Hpc Hends) as (w' & r & Hrem & Hcases).
  rewrite Hrem in Hdef |- *. cbn [snd] in Hdef.
  set (g' := dg_rem2 (e_id e1) (e_id e2) (gs_dg s)).
  assert (Hfin : (r = UB /\ w' = w) \/
     (r = Ret tt /\ (forall x, x ∈ tv_cross w -> ~ leaving w c x) /\ trimmed w c w' /\ in_sync g' w') \/
     (r = Throw XRuntime /\ (exists x, x ∈ tv_cross w /\ leaving w c x) /\ is_tree w' /\ trimmed w c w' /\
      ~ spanning g' w')).
  { destruct Hcases as [[-> ->]|(Ht' & Htr & [[-> Hnl]|[-> (x & Hx & Hl)]])]; [by left|..].
    - right. left. split; [done|]. split; [done|]. split; [done|].
      by apply (trim_sync _ o t e1 e2 Hwf Hb1 Hb2 w p c w').
    - right. right. split; [done|]. split; [by exists x|]. split; [done|]. split; [done|].
      by apply (trim_not_spanning _ o t e1 e2 Hwf Hb1 Hb2 w p c w' x). }
  destruct r as [[]| | |]; (eexists _, w', _; split; [done|]; cbn; rewrite lookup_insert;
    split; [by apply (adj_removed einv)|]; split; [done|]; split; [exact Hfin|exact Hdef]).
Qed.

End cross.
