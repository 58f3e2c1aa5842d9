(** Removing edges from tree views (C20, C23). *)
From stdpp Require Import prelude strings gmap.
From Verif Require Import ListLib Outcome Digraph Bfs TreeView SpecWalk WalkThms SpecTree SpecView BuildThms SyncThms VisitThms.

(** *** Signals and links, whatever the view looks like *)

Lemma heard_all_app R l1 l2 : heard_all R (l1 ++ l2) = heard_all (heard_all R l1) l2.
Proof. apply foldl_app. Qed.

Lemma heard_all_ext R R' l : (forall p c, R p c <-> R' p c) -> forall p c, heard_all R l p c <-> heard_all R' l p c.
Proof.
  revert R R'. induction l as [|x l IH]; intros R R' H; [done|]. cbn. apply IH. intros p c.
  destruct x; cbn; rewrite ?H; done.
Qed.

Lemma child_add_edge o t w p c : child (tv_add_edge o t w) p c <-> child w p c \/ (p = o /\ c = t).
Proof.
  unfold child, tv_add_edge, tv_rel. cbn. destruct (decide (p = t)) as [->|Hpt].
  - rewrite lookup_insert. destruct (decide (t = o)) as [->|Hto].
    + rewrite lookup_insert. cbn. split.
      * intros (r & [= <-] & Hc). cbn in Hc. apply elem_set_insert in Hc as [->|Hc]; [auto|].
        left. destruct (tv_tree w !! o) as [r|] eqn:Hr; cbn in Hc; [eauto|by apply elem_of_nil in Hc].
      * intros [(r & Hr & Hc)|[_ ->]]; (eexists; split; [done|]); cbn; apply elem_set_insert; [|by left].
        rewrite Hr. by right.
    + rewrite lookup_insert_ne by done. split.
      * intros (r & [= <-] & Hc). cbn in Hc. left. destruct (tv_tree w !! t) as [r|] eqn:Hr; cbn in Hc; [eauto|].
        by apply elem_of_nil in Hc.
      * intros [(r & Hr & Hc)|[? _]]; [|congruence]. eexists; split; [done|]. cbn. by rewrite Hr.
  - rewrite lookup_insert_ne by done. destruct (decide (p = o)) as [->|Hpo].
    + rewrite lookup_insert. split.
      * intros (r & [= <-] & Hc). cbn in Hc. apply elem_set_insert in Hc as [->|Hc]; [auto|].
        left. destruct (tv_tree w !! o) as [r|] eqn:Hr; cbn in Hc; [eauto|by apply elem_of_nil in Hc].
      * intros [(r & Hr & Hc)|[_ ->]]; (eexists; split; [done|]); cbn; apply elem_set_insert; [|by left].
        rewrite Hr. by right.
    + rewrite lookup_insert_ne by done. split; [intros ?; by left|]. intros [?|[? _]]; [done|congruence].
Qed.

Lemma build_heard {E} (tr : list (bev E)) w : exists l, tv_log (build_tree tr w) = tv_log w ++ l /\
  forall p c, child (build_tree tr w) p c <-> heard_all (child w) l p c.
Proof.
  unfold build_tree. revert w. induction tr as [|b tr IH]; intros w; [exists []; by rewrite app_nil_r|]. cbn.
  destruct (IH (build_step b w)) as (l & Hl & Hc).
  destruct b as [v|e|e|e|v]; cbn [build_step] in *.
  - eauto.
  - exists (SigAdded (e_src e) (e_tgt e) :: l). rewrite Hl. cbn. rewrite <- app_assoc. split; [done|].
    intros p c. rewrite Hc. apply heard_all_ext. intros. apply child_add_edge.
  - exists (SigCross (Cross (e_src e) (e_tgt e) (e_id e)) :: l). rewrite Hl. cbn. rewrite <- app_assoc. split; [done|].
    intros p c. rewrite Hc. apply heard_all_ext. done.
  - eauto.
  - eauto.
Qed.

Definition prune1 (node : vid) (w : tview) : tview :=
  let parent := vr_parent (tv_rel (tv_tree w) node) in
  let rp := tv_rel (tv_tree w) parent in
  tv_emit (SigRemoved parent node) (tv_set_tree
    (delete node (<[parent := VRel (vr_parent rp) (set_erase node (vr_children rp))]> (tv_tree w))) w).

Lemma elem_set_erase x v l : x ∈ set_erase v l <-> x <> v /\ x ∈ l.
Proof. unfold set_erase. rewrite elem_of_list_filter. done. Qed.

Lemma child_prune1 node w p c :
  let parent := vr_parent (tv_rel (tv_tree w) node) in
  let rp := tv_rel (tv_tree w) parent in
  vr_children (tv_rel (<[parent := VRel (vr_parent rp) (set_erase node (vr_children rp))]> (tv_tree w)) node) = [] ->
  child (prune1 node w) p c <-> child w p c /\ ~ (p = parent /\ c = node).
Proof.
  intros parent rp Hno. unfold child, prune1. cbn. fold parent. fold rp.
  destruct (decide (p = node)) as [->|Hpn].
  - rewrite lookup_delete. split; [by intros (? & ? & _)|]. intros [(r & Hr & Hc) Hn]. exfalso.
    unfold tv_rel in Hno. destruct (decide (node = parent)) as [Heq|Hne].
    + rewrite <- Heq in Hno, Hn. rewrite lookup_insert in Hno. cbn in Hno.
      assert (Hx : c ∈ set_erase node (vr_children rp)).
      { apply elem_set_erase. split; [naive_solver|]. unfold rp, tv_rel. rewrite <- Heq, Hr. done. }
      rewrite Hno in Hx. by apply elem_of_nil in Hx.
    + rewrite lookup_insert_ne in Hno by done. rewrite Hr in Hno. cbn in Hno. rewrite Hno in Hc. by apply elem_of_nil in Hc.
  - rewrite lookup_delete_ne by done. destruct (decide (p = parent)) as [->|Hpp].
    + rewrite lookup_insert. split.
      * intros (r & [= <-] & Hc). cbn in Hc. apply elem_set_erase in Hc as [Hcn Hc]. split; [|naive_solver].
        unfold rp, tv_rel in Hc. destruct (tv_tree w !! parent) as [r|] eqn:Hr; cbn in Hc; [eauto|by apply elem_of_nil in Hc].
      * intros [(r & Hr & Hc) Hn]. eexists. split; [done|]. cbn. apply elem_set_erase. split; [naive_solver|].
        unfold rp, tv_rel. by rewrite Hr.
    + rewrite lookup_insert_ne by done. naive_solver.
Qed.

Lemma remove_vertices_heard vs w : snd (tv_remove_vertices vs w) <> UB ->
  exists l, tv_log (fst (tv_remove_vertices vs w)) = tv_log w ++ l /\
  forall p c, child (fst (tv_remove_vertices vs w)) p c <-> heard_all (child w) l p c.
Proof.
  revert w. induction vs as [|v vs IH]; intros w; [exists []; by rewrite app_nil_r|]. cbn [tv_remove_vertices].
  case_bool_decide as Hno; [|done].
  change (tv_emit _ _) with (prune1 v w). intros Hub. destruct (IH _ Hub) as (l & Hl & Hc).
  eexists (_ :: l). rewrite Hl. cbn. rewrite <- app_assoc. split; [done|]. intros p c. rewrite Hc.
  apply heard_all_ext. intros a b. by apply child_prune1.
Qed.

Lemma remove_edge_heard ord o t w w' r : tv_remove_edge ord o t w = (w', r) -> r <> UB ->
  exists l, tv_log w' = tv_log w ++ l /\ forall p c, child w' p c <-> heard_all (child w) l p c.
Proof.
  assert (Hsame : forall w' : tview, tv_log w' = tv_log w -> tv_tree w' = tv_tree w ->
    exists l, tv_log w' = tv_log w ++ l /\ forall p c, child w' p c <-> heard_all (child w) l p c).
  { intros w1 H1 H2. exists []. rewrite app_nil_r. split; [done|]. cbn. unfold child. by rewrite H2. }
  unfold tv_remove_edge. destruct (if _ =? o then _ else _) as [rt|]; [|by intros [= <- <-]].
  destruct (tv_visit_bfs _ _ _ _) as [vis r0]. destruct (xs_steps _ _) as [xs|]; [|by intros [= <- <-]].
  destruct r0; [|intros [= <- <-]; by auto..].
  pose proof (remove_vertices_heard (rev vis.*1) (tv_set_cross (xs_cross xs) w)) as Hp.
  destruct (tv_remove_vertices _ _) as [w2 r2]. cbn in Hp.
  destruct r2; [|intros [= <- <-] ?; by apply Hp..].
  destruct (xs_leaving xs); intros [= <- <-] _; by apply Hp.
Qed.

(** *** Pruning a leaf, then a whole subtree *)

Lemma prune1_tree w v : is_tree w -> v ∈ dom (tv_tree w) -> v <> tv_root w -> (forall c, ~ child w v c) ->
  let w' := prune1 v w in
  is_tree w' /\ dom (tv_tree w') = dom (tv_tree w) ∖ {[v]} /\
  (forall p c, child w' p c <-> child w p c /\ c <> v) /\
  (forall x, x <> v -> tv_get_parent w' x = tv_get_parent w x) /\
  (exists p, tv_get_parent w v = Ret p /\ tv_log w' = tv_log w ++ [SigRemoved p v]) /\
  vr_children (tv_rel (<[par w v := VRel (vr_parent (tv_rel (tv_tree w) (par w v)))
     (set_erase v (vr_children (tv_rel (tv_tree w) (par w v))))]> (tv_tree w)) v) = [].
Proof.
  intros Ht Hv Hr Hleaf w'. pose proof (proj1 (tv_vertex_exists_not _ _) (it_null _ Ht)) as Hnull.
  pose proof (proj1 (tv_vertex_exists_iff _ _) (it_rootin _ Ht)) as Hroot.
  destruct (it_parent _ Ht v) as (p & Hp & Hpc); [by apply tv_vertex_exists_iff|done|].
  apply elem_of_dom in Hv as [rv Hrv].
  assert (Hpar : par w v = p).
  { apply get_parent_iff in Hp as (r & Hr' & <-); [|done]. unfold par, tv_rel. by rewrite Hr'. }
  assert (Hpv : p <> v) by (intros ->; by eapply Hleaf).
  destruct Hpc as (rp & Hrp & Hvc).
  assert (Hch : vr_children rv = []).
  { destruct (vr_children rv) as [|c l] eqn:Hc; [done|]. exfalso. apply (Hleaf c). exists rv. rewrite Hc. split; [done|by left]. }
  assert (Hlast : vr_children (tv_rel (<[par w v := VRel (vr_parent (tv_rel (tv_tree w) (par w v)))
     (set_erase v (vr_children (tv_rel (tv_tree w) (par w v))))]> (tv_tree w)) v) = []).
  { rewrite Hpar. unfold tv_rel at 1. rewrite lookup_insert_ne by done. by rewrite Hrv. }
  assert (Htree : tv_tree w' = delete v (<[p := VRel (vr_parent rp) (set_erase v (vr_children rp))]> (tv_tree w))).
  { unfold w', prune1. cbn. change (vr_parent (tv_rel (tv_tree w) v)) with (par w v). rewrite Hpar. unfold tv_rel. by rewrite Hrp. }
  assert (Hchild : forall a c, child w' a c <-> child w a c /\ c <> v).
  { intros a c. unfold w'. rewrite child_prune1 by exact Hlast. change (vr_parent (tv_rel (tv_tree w) v)) with (par w v).
    rewrite Hpar. split; intros [Hc Hn]; (split; [done|]).
    - intros ->. apply Hn. split; [|done]. apply (parent_unique w Ht a p v); [done|]. by exists rp.
    - by intros [-> ->]. }
  assert (Hdom : dom (tv_tree w') = dom (tv_tree w) ∖ {[v]}).
  { rewrite Htree, dom_delete_L, dom_insert_L. apply elem_of_dom_2 in Hrp. set_solver. }
  assert (Hgp : forall x, x <> v -> tv_get_parent w' x = tv_get_parent w x).
  { intros x Hx. unfold tv_get_parent. destruct (x =? null_vertex); [done|]. rewrite Htree, lookup_delete_ne by done.
    destruct (decide (p = x)) as [->|]; [rewrite lookup_insert, Hrp; done|by rewrite lookup_insert_ne]. }
  split; [|split; [done|split; [done|split; [done|split; [|done]]]]].
  2:{ exists p. split; [done|]. unfold w', prune1. cbn. change (vr_parent (tv_rel (tv_tree w) v)) with (par w v). by rewrite Hpar. }
  assert (Hex : forall x, tv_vertex_exists w' x = true <-> tv_vertex_exists w x = true /\ x <> v).
  { intros x. rewrite !tv_vertex_exists_iff, Hdom. set_solver. }
  change (tv_root w') with (tv_root w) in *.
  split; change (tv_root w') with (tv_root w).
  - apply tv_vertex_exists_not. rewrite Hdom. set_solver.
  - apply Hex. split; [apply (it_rootin _ Ht)|done].
  - rewrite Hgp by done. apply (it_root _ Ht).
  - intros x [Hx Hxv]%Hex Hxr. destruct (it_parent _ Ht x Hx Hxr) as (q & Hq & Hqc). exists q. rewrite Hgp by done.
    split; [done|]. by apply Hchild.
  - intros a c [Hc Hcv]%Hchild. rewrite Hgp by done. by apply (it_child _ Ht).
  - intros a r. rewrite Htree, lookup_delete_Some. intros [_ Ha]. apply lookup_insert_Some in Ha as [[<- <-]|[_ Ha]].
    + cbn. apply NoDup_filter. by eapply (it_nodup _ Ht).
    + by eapply (it_nodup _ Ht).
  - intros x [Hx Hxv]%Hex.
    assert (Hgen : forall y, linked (child w) (tv_root w) y -> y <> v -> linked (child w') (tv_root w) y).
    { apply (linked_ind_r (child w) (tv_root w) (fun y => y <> v -> linked (child w') (tv_root w) y)).
      - intros _. apply linked_refl.
      - intros a b _ IH Hab Hb. eapply linked_trans; [apply IH; intros ->; by eapply Hleaf|].
        apply linked_step, Hchild. done. }
    apply Hgen; [|done]. by apply (it_below _ Ht).
Qed.

Lemma elem_of_rev {A} (x : A) l : x ∈ rev l <-> x ∈ l.
Proof. by rewrite !elem_of_list_In, <- in_rev. Qed.

Lemma rev_reverse {A} (l : list A) : rev l = reverse l.
Proof. apply rev_alt. Qed.

Lemma prune_all vs : forall w, is_tree w -> NoDup vs -> tv_root w ∉ vs -> (forall v, v ∈ vs -> v ∈ dom (tv_tree w)) ->
  (forall k v c, vs !! k = Some v -> child w v c -> exists k', k < k' /\ vs !! k' = Some c) ->
  exists w', tv_remove_vertices (rev vs) w = (w', Ret tt) /\ is_tree w' /\
    dom (tv_tree w') = dom (tv_tree w) ∖ list_to_set vs /\
    (forall p c, child w' p c <-> child w p c /\ c ∉ vs) /\
    tv_root w' = tv_root w /\ tv_cross w' = tv_cross w /\ tv_pub w' = tv_pub w /\
    tv_log w' = tv_log w ++ ((fun v => SigRemoved (par w v) v) <$> rev vs).
Proof.
  induction vs as [|v vs IH] using rev_ind; intros w Ht Hnd Hroot Hdom Hcl.
  { exists w. cbn. split; [done|]. split; [done|]. split; [set_solver|]. rewrite app_nil_r.
    split; [|done]. intros p c. split; [|tauto]. intros ?. split; [done|]. by intros ?%elem_of_nil. }
  rewrite rev_app_distr. cbn [rev app tv_remove_vertices].
  apply NoDup_app in Hnd as (Hnd & Hdis & _).
  assert (Hvn : v ∉ vs) by (intros Hv; apply (Hdis v Hv); by left).
  assert (Hleaf : forall c, ~ child w v c).
  { intros c Hc. destruct (Hcl (length vs) v c) as (k' & Hk & Hk'); [|done|].
    - rewrite lookup_app_r, Nat.sub_diag by lia. done.
    - apply lookup_lt_Some in Hk'. rewrite app_length in Hk'. cbn in Hk'. lia. }
  destruct (prune1_tree w v) as (Ht' & Hd' & Hc' & Hg' & (p & Hp & Hl') & Hlast); [done|set_solver|set_solver|done|].
  unfold par in Hlast. rewrite bool_decide_true by exact Hlast. change (tv_emit _ _) with (prune1 v w).
  destruct (IH (prune1 v w)) as (w' & H1 & H2 & H3 & H4 & H5 & H6 & H7 & H8).
  - done.
  - done.
  - intros Hx. apply Hroot. apply elem_of_app. by left.
  - intros x Hx. rewrite Hd'. assert (x <> v) by (intros ->; done). set_solver.
  - intros k x c Hk [Hc Hcv]%Hc'. destruct (Hcl k x c) as (k' & Hk' & Hc2); [by apply lookup_app_l_Some|done|].
    exists k'. split; [done|]. apply lookup_app_Some in Hc2 as [?|[_ Hx]]; [done|].
    apply list_lookup_singleton_Some in Hx as [_ ->]. done.
  - exists w'. split; [done|]. split; [done|]. split; [rewrite H3, Hd'; set_solver|].
    split; [intros a c; rewrite H4, Hc'; set_solver|]. split; [done|]. split; [done|]. split; [done|].
    rewrite H8, Hl', <- app_assoc. f_equal. cbn.
    assert (Hpv : par w v = p).
    { apply get_parent_iff in Hp as (r & Hr & <-); [unfold par, tv_rel; by rewrite Hr|].
      apply tv_vertex_exists_not, (it_null _ Ht). }
    rewrite Hpv. f_equal. apply list_fmap_ext. intros k x Hx.
    assert (Hxv : x <> v). { intros ->. apply Hvn. apply elem_of_list_lookup_2 in Hx. by apply (proj1 (elem_of_rev _ _)) in Hx. }
    assert (Hxd : x ∈ dom (tv_tree w)). { apply Hdom. apply elem_of_app. left. apply elem_of_list_lookup_2 in Hx. by apply (proj1 (elem_of_rev _ _)) in Hx. }
    f_equal. specialize (Hg' x Hxv). pose proof (proj1 (tv_vertex_exists_not _ _) (it_null _ Ht)) as Hnull.
    assert (x <> null_vertex) by (intros ->; done).
    unfold tv_get_parent in Hg'. destruct (Nat.eqb_spec x null_vertex); [done|]. unfold par, tv_rel.
    apply elem_of_dom in Hxd as [r Hr]. rewrite Hr in Hg' |- *.
    destruct (tv_tree (prune1 v w) !! x) as [r'|]; [|done]. injection Hg' as Hg'. exact Hg'.
Qed.

(** *** The bookkeeping of cross edges *)

Lemma elem_xs_touching node l : forall k i, i ∈ xs_touching node l k <->
  exists j x, i = k + j /\ l !! j = Some x /\ (ce_origin x = node \/ ce_target x = node).
Proof.
  induction l as [|c l IH]; intros k i; cbn [xs_touching].
  - split; [by intros ?%elem_of_nil|]. intros (j & x & _ & Hx & _). by rewrite lookup_nil in Hx.
  - rewrite !elem_of_app, IH. split.
    + intros [H|[H|(j & x & -> & Hx & Ht)]].
      * destruct (Nat.eqb_spec (ce_origin c) node); [|by apply elem_of_nil in H]. apply elem_of_list_singleton in H as ->.
        exists 0, c. split; [lia|]. auto.
      * destruct (Nat.eqb_spec (ce_target c) node); [|by apply elem_of_nil in H]. apply elem_of_list_singleton in H as ->.
        exists 0, c. split; [lia|]. auto.
      * exists (S j), x. split; [lia|]. auto.
    + intros ([|j] & x & -> & Hx & Ht); cbn in Hx.
      * injection Hx as ->. destruct Ht as [Ht|Ht]; rewrite Ht, Nat.eqb_refl; rewrite ?elem_of_list_singleton; [left; lia|right; left; lia].
      * right. right. exists j, x. split; [lia|]. done.
Qed.

Lemma NoDup_xs_touching node l : (forall x, x ∈ l -> ~ (ce_origin x = node /\ ce_target x = node)) ->
  forall k, NoDup (xs_touching node l k).
Proof.
  induction l as [|c l IH]; intros Hn k; cbn [xs_touching]; [constructor|].
  assert (Hk : k ∉ xs_touching node l (S k)).
  { intros (j & x & ? & _)%elem_xs_touching. lia. }
  specialize (IH (fun x Hx => Hn x (elem_of_list_further _ _ _ Hx)) (S k)).
  pose proof (Hn c (elem_of_list_here _ _)) as Hc.
  destruct (Nat.eqb_spec (ce_origin c) node), (Nat.eqb_spec (ce_target c) node); cbn; try (by constructor); [exfalso; auto|done].
Qed.

Lemma xs_steps_fresh is : forall s, NoDup (xs_leaving s ++ is) ->
  (forall i, i ∈ xs_leaving s ++ is -> i < xs_limit s) ->
  xs_steps is s = Some (XState (xs_cross s) (xs_limit s) (xs_leaving s ++ is)).
Proof.
  induction is as [|i is IH]; intros [cr li le] Hnd Hlim; cbn [xs_steps xs_cross xs_limit xs_leaving] in *; [by rewrite app_nil_r|].
  unfold xs_step. cbn [xs_cross xs_limit xs_leaving].
  rewrite bool_decide_true by (apply Hlim; apply elem_of_app; right; by left).
  assert (Hf : forallb (fun j => j <? li) le = true).
  { apply forallb_forall. intros j Hj%elem_of_list_In. apply Nat.ltb_lt, Hlim, elem_of_app. by left. }
  rewrite Hf. cbn [andb]. rewrite bool_decide_false.
  2:{ intros Hi. apply NoDup_app in Hnd as (_ & Hdis & _). apply (Hdis i Hi). by left. }
  rewrite IH; cbn [xs_cross xs_limit xs_leaving]; rewrite <- ?app_assoc; done.
Qed.

Definition touch_all (w : tview) (vs : list vid) : list nat := mjoin ((fun v => xs_touching v (tv_cross w) 0) <$> vs).

Lemma elem_touch_all w vs i : i ∈ touch_all w vs <->
  exists v x, v ∈ vs /\ tv_cross w !! i = Some x /\ (ce_origin x = v \/ ce_target x = v).
Proof.
  unfold touch_all. rewrite elem_of_list_join. split.
  - intros (l & Hi & (v & -> & Hv)%elem_of_list_fmap). apply elem_xs_touching in Hi as (j & x & -> & Hx & Ht). eauto 10.
  - intros (v & x & Hv & Hx & Ht). exists (xs_touching v (tv_cross w) 0). split.
    + apply elem_xs_touching. exists i, x. done.
    + apply elem_of_list_fmap. eauto.
Qed.

(** No cross edge has both ends among [vs]. *)
Lemma NoDup_touch_all w vs : NoDup vs ->
  (forall x, x ∈ tv_cross w -> ~ (ce_origin x ∈ vs /\ ce_target x ∈ vs)) -> NoDup (touch_all w vs).
Proof.
  induction vs as [|v vs IH]; intros Hnd Hn; [constructor|]. apply NoDup_cons in Hnd as [Hv Hnd].
  change (touch_all w (v :: vs)) with (xs_touching v (tv_cross w) 0 ++ touch_all w vs).
  apply NoDup_app. split; [|split].
  - apply NoDup_xs_touching. intros x Hx [Ho Ht]. apply (Hn x Hx). rewrite Ho, Ht. split; by left.
  - intros i (j & x & -> & Hx & Ht)%elem_xs_touching (v' & x' & Hv' & Hx' & Ht')%elem_touch_all.
    cbn in Hx'. assert (x' = x) as -> by congruence. apply elem_of_list_lookup_2 in Hx as Hin. apply (Hn x Hin).
    destruct Ht as [<-|<-], Ht' as [<-|<-]; try done; (split; first [by left|by right]).
  - apply IH; [done|]. intros x Hx [Ho Ht]. apply (Hn x Hx). split; by right.
Qed.

(** *** TreeView::removeEdge on a tree *)

Lemma fst_touch (w : tview) (vis : list (vid * vid)) :
  mjoin ((fun vp => xs_touching (fst vp) (tv_cross w) 0) <$> vis) = touch_all w (vis.*1).
Proof. unfold touch_all. by rewrite <- list_fmap_compose. Qed.

Lemma is_tree_ext w w' : tv_tree w' = tv_tree w -> tv_root w' = tv_root w -> is_tree w -> is_tree w'.
Proof.
  intros H1 H2 [X1 X2 X3 X4 X5 X6 X7].
  assert (Hc : forall p c, child w' p c <-> child w p c) by (intros; unfold child; by rewrite H1).
  assert (Hl : forall a b, linked (child w) a b -> linked (child w') a b) by (intros a b; apply linked_mono; intros ??; apply Hc).
  unfold tv_vertex_exists, tv_get_parent in *. rewrite <- H1, <- H2 in *.
  split; try done.
  - intros v Hv Hr. destruct (X4 v Hv Hr) as (p & ? & ?%Hc). eauto.
  - intros p c Hc'%Hc. by apply X5.
  - intros v Hv. apply Hl. by apply X7.
Qed.

Lemma remove_edge_tree ord o t w p c : is_tree w -> ord_ok ord -> child w p c -> same_ends o t p c -> no_cross_inside w c ->
  exists w' r, tv_remove_edge ord o t w = (w', r) /\ is_tree w' /\ pruned w c w' /\
    (no_cross_below w c -> r = Ret tt) /\ (~ no_cross_below w c -> r = Throw XRuntime).
Proof.
  intros Ht Ho Hpc Hends Hin. pose proof (proj1 (tv_vertex_exists_not _ _) (it_null _ Ht)) as Hnull.
  destruct (child_dom w p c Ht Hpc) as [Hpd Hcd].
  assert (Hce : tv_vertex_exists w c = true) by by apply tv_vertex_exists_iff.
  destruct (it_child _ Ht _ _ Hpc) as [Hcr Hpar].
  assert (Hpn : p <> c). { intros ->. eapply (acyclic w Ht c c); [done|apply linked_refl|done]. }
  assert (Hreal : (if vr_parent (tv_rel (tv_tree w) t) =? o then Some t
                   else if vr_parent (tv_rel (tv_tree w) o) =? t then Some o else None) = Some c).
  { assert (Hvp : vr_parent (tv_rel (tv_tree w) c) = p).
    { apply get_parent_iff in Hpar as (r & Hr & <-); [|done]. unfold tv_rel. by rewrite Hr. }
    destruct Hends as [[<- <-]|[<- <-]]; rewrite Hvp, ?Nat.eqb_refl; [done|].
    destruct (Nat.eqb_spec (vr_parent (tv_rel (tv_tree w) p)) c) as [Hx|]; [|done]. exfalso.
    apply elem_of_dom in Hpd as [r Hr]. unfold tv_rel in Hx. rewrite Hr in Hx. cbn in Hx.
    assert (Hcp : child w c p).
    { rewrite <- Hx. apply (parent_child w p r); [done|done|]. rewrite Hx. intros ->. done. }
    eapply (acyclic w Ht c p); [done| |done]. by apply linked_step. }
  destruct (bfs_visits w Ht c Hce ord (S (size (tv_tree w)))) as (vis & Hvis & [Hnd Hall Hord]); [done|lia|].
  unfold tv_remove_edge. rewrite Hreal, Hvis, fst_touch.
  assert (Hvs : forall v, v ∈ vis.*1 <-> linked (child w) c v).
  { intros v. rewrite elem_of_list_fmap. split.
    - intros ([v' q] & -> & Hv%Hall). apply Hv.
    - intros Hl. assert (Hvd : v ∈ dom (tv_tree w)) by by apply (below_in w Ht c).
      assert (Hvr : v <> tv_root w).
      { intros ->. destruct Hl as [l Hl]. apply route_inv_snoc in Hl as [[_ ->]|(l' & b & _ & _ & Hb)]; [done|].
        by apply (it_child _ Ht) in Hb as [? _]. }
      destruct (it_parent _ Ht v) as (q & Hq & _); [by apply tv_vertex_exists_iff|done|].
      exists (v, q). split; [done|]. by apply Hall. }
  assert (Hlater : forall k v x, vis.*1 !! k = Some v -> child w v x -> exists k', k < k' /\ vis.*1 !! k' = Some x).
  { intros k v x Hk Hvx.
    assert (Hx : x ∈ vis.*1).
    { apply Hvs. eapply linked_trans; [|by apply linked_step]. apply Hvs. by apply elem_of_list_lookup_2 in Hk. }
    apply elem_of_list_lookup in Hx as [k' Hk']. exists k'. split; [|done].
    apply list_lookup_fmap_Some in Hk as ([v1 q1] & Hk & ->). apply list_lookup_fmap_Some in Hk' as ([x1 q2] & Hk' & ->).
    cbn in *. assert (Hq : q2 = v1).
    { apply elem_of_list_lookup_2, Hall in Hk' as [_ Hq]. destruct (it_child _ Ht _ _ Hvx) as [_ Hq']. congruence. }
    subst q2. destruct (Hord k' x1 v1 Hk') as (j & q & Hj & Hjk).
    { intros ->. apply (acyclic w Ht c v1); [done| |done]. apply Hvs. apply elem_of_list_fmap. exists (v1, q1).
      split; [done|]. by apply elem_of_list_lookup_2 in Hk. }
    assert (j = k) as ->; [|done]. eapply NoDup_lookup; [exact Hnd| |].
    - rewrite list_lookup_fmap, Hjk. done.
    - rewrite list_lookup_fmap, Hk. done. }
  rewrite xs_steps_fresh; cbn [xs_cross xs_limit xs_leaving app].
  2:{ apply NoDup_touch_all; [done|]. intros x Hx [H1 H2]. apply (Hin x Hx). split; by apply Hvs. }
  2:{ intros i (v & x & _ & Hx & _)%elem_touch_all. by apply lookup_lt_Some in Hx. }
  destruct (prune_all (vis.*1) (tv_set_cross (tv_cross w) w)) as (w2 & H1 & H2 & H3 & H4 & H5 & H6 & H7 & H8).
  - by apply (is_tree_ext w).
  - done.
  - cbn. intros [l Hl]%Hvs. apply route_inv_snoc in Hl as [[_ Hx]|(l' & b & _ & _ & Hb)]; [done|].
    by apply (it_child _ Ht) in Hb as [? _].
  - intros v Hv%Hvs. by apply (below_in w Ht c).
  - exact Hlater.
  - rewrite H1.
    assert (Hpr : pruned w c w2).
    { split; try done.
      - intros v. rewrite !tv_vertex_exists_iff, H3. cbn. rewrite elem_of_difference, elem_of_list_to_set, Hvs. done.
      - intros a b. rewrite H4, Hvs. done.
      - exists ((fun v => (par w v, v)) <$> rev (vis.*1)). split; [|split; [|split]].
        + rewrite H8. cbn. f_equal. rewrite <- list_fmap_compose. apply list_fmap_ext. done.
        + rewrite <- list_fmap_compose. rewrite (list_fmap_ext _ id (rev vis.*1)) by done. rewrite list_fmap_id.
          rewrite rev_reverse. by rewrite reverse_Permutation.
        + intros q v. rewrite elem_of_list_fmap. split.
          * intros (v' & [= -> ->] & Hv). apply (proj1 (elem_of_rev _ _)) in Hv. split; [by apply Hvs|].
            apply elem_of_list_fmap in Hv as ([v1 q1] & -> & Hv). apply Hall in Hv as [_ Hv]. cbn.
            apply get_parent_iff in Hv as Hv'; [|done]. destruct Hv' as (r & Hr & <-).
            unfold par, tv_rel. rewrite Hr. done.
          * intros [Hl Hq]. exists v. split; [|by apply elem_of_rev, Hvs]. f_equal.
            apply get_parent_iff in Hq as (r & Hr & <-); [|done]. unfold par, tv_rel. by rewrite Hr.
        + intros i j a v q Hi Hj.
          apply list_lookup_fmap_Some in Hi as (v1 & Hi & [= -> ->]).
          apply list_lookup_fmap_Some in Hj as (v2 & Hj & [= -> <-]).
          rewrite rev_reverse in Hi, Hj. apply reverse_lookup_Some in Hi as [Hi Hi'], Hj as [Hj Hj'].
          assert (Hv1 : v1 ∈ vis.*1) by by apply elem_of_list_lookup_2 in Hi.
          destruct (decide (v1 = c)) as [->|Hvc].
          * exfalso. assert (Hc2 : par w c = p).
            { apply get_parent_iff in Hpar as (r & Hr & <-); [|done]. unfold par, tv_rel. by rewrite Hr. }
            rewrite Hc2 in Hj. apply (acyclic w Ht c p); [done| |done]. apply Hvs. by apply elem_of_list_lookup_2 in Hj.
          * destruct (it_parent _ Ht v1) as (q & Hq & Hqc).
            { apply tv_vertex_exists_iff, (below_in w Ht c); [done|]. by apply Hvs. }
            { intros ->. apply Hvs in Hv1 as [l Hl]. apply route_inv_snoc in Hl as [[_ Hx]|(l' & b & _ & _ & Hb)]; [done|].
              by apply (it_child _ Ht) in Hb as [? _]. }
            assert (Hq' : par w v1 = q).
            { apply get_parent_iff in Hq as (r & Hr & <-); [|done]. unfold par, tv_rel. by rewrite Hr. }
            rewrite Hq' in Hj. destruct (Hlater _ _ _ Hj Hqc) as (k' & Hk' & Hk2).
            assert (k' = length vis.*1 - S i) as -> by by eapply NoDup_lookup. lia. }
    destruct (touch_all w vis.*1) as [|i l] eqn:Hta.
    + exists w2, (Ret tt). split; [done|]. split; [done|]. split; [done|]. split; [done|]. intros Hno. exfalso. apply Hno.
      intros x v Hx Hv. apply elem_of_list_lookup in Hx as [i Hx].
      split; intros He; (assert (Hi : i ∈ touch_all w vis.*1); [apply elem_touch_all; exists v, x; split; [by apply Hvs|]; auto|]);
        rewrite Hta in Hi; by apply elem_of_nil in Hi.
    + exists w2, (Throw XRuntime). split; [done|]. split; [done|]. split; [done|]. split; [|done]. intros Hno. exfalso.
      assert (Hi : i ∈ touch_all w vis.*1) by (rewrite Hta; by left).
      apply elem_touch_all in Hi as (v & x & Hv & Hx & Htch). apply elem_of_list_lookup_2 in Hx. apply Hvs in Hv.
      destruct (Hno x v Hx Hv). tauto.
Qed.
