(** Building a tree from the call-backs of a breadth first search. *)
From stdpp Require Import prelude strings gmap.
From Verif Require Import ListLib Outcome Digraph Bfs TreeView SpecWalk WalkThms BfsThms BfsFind SpecTree.

Lemma tv_vertex_exists_iff w v : tv_vertex_exists w v = true <-> v ∈ dom (tv_tree w).
Proof. unfold tv_vertex_exists. by rewrite bool_decide_eq_true, elem_of_dom. Qed.
Lemma tv_vertex_exists_not w v : tv_vertex_exists w v = false <-> v ∉ dom (tv_tree w).
Proof. unfold tv_vertex_exists. by rewrite bool_decide_eq_false, elem_of_dom. Qed.

Lemma get_parent_iff w v p : null_vertex ∉ dom (tv_tree w) ->
  tv_get_parent w v = Ret p <-> exists r, tv_tree w !! v = Some r /\ vr_parent r = p.
Proof.
  intros Hn. unfold tv_get_parent. destruct (Nat.eqb_spec v null_vertex) as [->|].
  - split; [done|]. intros (r & Hr & _). apply elem_of_dom_2 in Hr. done.
  - destruct (tv_tree w !! v) as [r|]; split; try done.
    + intros [= <-]. eauto.
    + intros (? & [= <-] & <-). done.
    + by intros (? & ? & _).
Qed.

Lemma child_dom w p c : is_tree w -> child w p c -> p ∈ dom (tv_tree w) /\ c ∈ dom (tv_tree w).
Proof.
  intros Ht Hc. split.
  - destruct Hc as (r & Hr & _). by apply elem_of_dom_2 in Hr.
  - apply (it_child _ Ht) in Hc as [_ Hc]. unfold tv_get_parent in Hc.
    destruct (c =? null_vertex); [done|]. destruct (tv_tree w !! c) eqn:Hc'; [|done].
    by apply elem_of_dom_2 in Hc'.
Qed.

Lemma elem_set_insert x v l : x ∈ set_insert v l <-> x = v \/ x ∈ l.
Proof. unfold set_insert. case_bool_decide; set_solver. Qed.
Lemma NoDup_set_insert v l : NoDup l -> NoDup (set_insert v l).
Proof.
  intros Hl. unfold set_insert. case_bool_decide as Hv; [done|].
  apply NoDup_app. split; [done|]. split; [set_solver|apply NoDup_singleton].
Qed.

Lemma tv_add_edge_tree o t w ro : o <> t -> tv_tree w !! o = Some ro -> tv_tree w !! t = None ->
  tv_tree (tv_add_edge o t w) =
  <[t := VRel o []]> (<[o := VRel (vr_parent ro) (set_insert t (vr_children ro))]> (tv_tree w)).
Proof.
  intros Hot Ho Ht. unfold tv_add_edge. cbn. unfold tv_rel. rewrite Ho. cbn.
  by rewrite lookup_insert_ne, Ht by done.
Qed.

Lemma add_edge_child o t w p c : o ∈ dom (tv_tree w) -> t ∉ dom (tv_tree w) -> o <> t ->
  child (tv_add_edge o t w) p c <-> child w p c \/ (p = o /\ c = t).
Proof.
  intros [ro Hro]%elem_of_dom Ht%not_elem_of_dom Hot. unfold child.
  rewrite (tv_add_edge_tree o t w ro) by done.
  destruct (decide (p = t)) as [->|Hpt].
  { rewrite lookup_insert. split.
    - intros (r & [= <-] & Hc). cbn in Hc. set_solver.
    - intros [(r & Hr & _)|[? _]]; congruence. }
  rewrite lookup_insert_ne by done. destruct (decide (p = o)) as [->|Hpo].
  - rewrite lookup_insert. split.
    + intros (r & [= <-] & Hc). cbn in Hc. apply elem_set_insert in Hc as [->|Hc]; [auto|left; eauto].
    + intros [(r & Hr & Hc)|[_ ->]]; (eexists; split; [done|]); cbn; apply elem_set_insert.
      * right. congruence.
      * by left.
  - rewrite lookup_insert_ne by done. naive_solver.
Qed.

Lemma add_edge_dom o t w : o ∈ dom (tv_tree w) -> o <> t -> t ∉ dom (tv_tree w) ->
  dom (tv_tree (tv_add_edge o t w)) = {[t]} ∪ dom (tv_tree w).
Proof.
  intros Ho Hot Ht. apply elem_of_dom in Ho as Ho2. destruct Ho2 as [ro Hro].
  apply not_elem_of_dom in Ht. rewrite (tv_add_edge_tree o t w ro) by done. rewrite !dom_insert_L. set_solver.
Qed.

Lemma linked_mono {A} (R R' : A -> A -> Prop) a b : (forall x y, R x y -> R' x y) -> linked R a b -> linked R' a b.
Proof.
  intros HR [l (H1 & H2 & H3)]. exists l. split; [done|]. split; [done|].
  eapply chain_impl; [|done]. intros x y _ _. apply HR.
Qed.

Lemma is_tree_add o t w : is_tree w -> o ∈ dom (tv_tree w) -> t ∉ dom (tv_tree w) -> t <> null_vertex ->
  is_tree (tv_add_edge o t w).
Proof.
  intros Ht Ho Hn Htn. assert (Hot : o <> t) by (intros ->; done).
  pose proof (proj1 (tv_vertex_exists_not _ _) (it_null _ Ht)) as Hnull.
  pose proof (proj1 (tv_vertex_exists_iff _ _) (it_rootin _ Ht)) as Hroot.
  assert (Hnull' : null_vertex ∉ dom (tv_tree (tv_add_edge o t w))).
  { rewrite add_edge_dom by done. set_solver. }
  apply elem_of_dom in Ho as Ho2. destruct Ho2 as [ro Hro].
  assert (Hgp : forall v p, v ∈ dom (tv_tree w) -> tv_get_parent w v = Ret p ->
                  tv_get_parent (tv_add_edge o t w) v = Ret p).
  { intros v p Hv. rewrite !get_parent_iff by done. intros (r & Hr & Hp).
    rewrite (tv_add_edge_tree o t w ro) by (try done; by apply not_elem_of_dom).
    rewrite lookup_insert_ne by (intros ->; done).
    destruct (decide (o = v)) as [->|]; [rewrite lookup_insert|rewrite lookup_insert_ne by done; eauto].
    eexists; split; [done|]. cbn. congruence. }
  split; change (tv_root (tv_add_edge o t w)) with (tv_root w).
  - by apply tv_vertex_exists_not.
  - apply tv_vertex_exists_iff. rewrite add_edge_dom by done. set_solver.
  - apply Hgp; [done|apply (it_root _ Ht)].
  - intros v. rewrite tv_vertex_exists_iff, add_edge_dom by done. rewrite elem_of_union, elem_of_singleton.
    intros [->|Hv] Hr.
    + exists o. split.
      * apply get_parent_iff; [done|]. rewrite (tv_add_edge_tree o t w ro) by (try done; by apply not_elem_of_dom).
        rewrite lookup_insert. eauto.
      * apply add_edge_child; auto.
    + destruct (it_parent _ Ht v) as (p & Hp & Hc); [by apply tv_vertex_exists_iff|done|].
      exists p. split; [by apply Hgp|]. apply add_edge_child; auto.
  - intros p c Hc. rewrite add_edge_child in Hc by done. destruct Hc as [Hc|[-> ->]].
    + destruct (child_dom w p c Ht Hc) as [_ Hcd]. destruct (it_child _ Ht p c Hc) as [? ?].
      split; [done|]. by apply Hgp.
    + split; [intros ->; done|]. apply get_parent_iff; [done|].
      rewrite (tv_add_edge_tree o t w ro) by (try done; by apply not_elem_of_dom).
      rewrite lookup_insert. eauto.
  - intros p r. rewrite (tv_add_edge_tree o t w ro) by (try done; by apply not_elem_of_dom).
    rewrite lookup_insert_Some, lookup_insert_Some. intros [[<- <-]|[_ [[<- <-]|[_ Hr]]]]; cbn.
    + constructor.
    + apply NoDup_set_insert. by eapply (it_nodup _ Ht).
    + by eapply (it_nodup _ Ht).
  - intros v. rewrite tv_vertex_exists_iff, add_edge_dom by done. rewrite elem_of_union, elem_of_singleton.
    assert (Hold : forall v, v ∈ dom (tv_tree w) -> linked (child (tv_add_edge o t w)) (tv_root w) v).
    { intros x Hx. eapply linked_mono; [|apply (it_below _ Ht), tv_vertex_exists_iff, Hx].
      intros a b Hab. apply add_edge_child; auto. }
    intros [->|Hv]; [|by apply Hold]. apply (linked_trans _ _ o); [by apply Hold|]. apply linked_step.
    apply add_edge_child; auto.
Qed.

Section build.
Context {E : Type}.
Implicit Types (tr : list (bev E)).

(** Edges to a gray vertex. *)
Definition ge tr : list (erec E) := omap (fun b => match b with BGray e => Some e | _ => None end) tr.
Lemma elem_ge e tr : e ∈ ge tr <-> BGray e ∈ tr.
Proof.
  unfold ge. rewrite elem_of_list_omap. split.
  - intros (b & Hb & Heq). destruct b; try done. by injection Heq as ->.
  - intros He. by exists (BGray e).
Qed.

Definition cross_of (e : erec E) : cross := Cross (e_src e) (e_tgt e) (e_id e).

Lemma tw_mono d d' tr : tw d tr -> dset tr ## d' -> tw (d' ∪ d) tr.
Proof.
  intros H. revert d'. induction H as [d|d e tr Hs Ht H IH|d e tr Hs Ht H IH|d e tr H IH|d v tr H IH]; intros d' Hd.
  - constructor.
  - unfold dset in Hd. cbn in Hd. constructor; [set_solver|set_solver|].
    replace ({[e_tgt e]} ∪ (d' ∪ d)) with (d' ∪ ({[e_tgt e]} ∪ d)) by set_solver. apply IH.
    unfold dset. set_solver.
  - constructor; [set_solver..|]. by apply IH.
  - constructor. by apply IH.
  - constructor. by apply IH.
Qed.

Lemma build_spec tr w : is_tree w -> tw (dom (tv_tree w)) tr -> null_vertex ∉ dset tr ->
  let w' := build_tree tr w in
  is_tree w' /\ tv_root w' = tv_root w /\ dom (tv_tree w') = dom (tv_tree w) ∪ dset tr /\
  (forall p c, child w' p c <-> child w p c \/ exists e, BTree e ∈ tr /\ e_src e = p /\ e_tgt e = c) /\
  tv_cross w' = tv_cross w ++ (cross_of <$> ge tr) /\
  tv_pub w' = tv_pub w.
Proof.
  intros Ht H Hn. remember (dom (tv_tree w)) as d eqn:Hd. revert w Ht Hd.
  induction H as [d|d e tr Hs Htg H IH|d e tr Hs Htg H IH|d e tr H IH|d v tr H IH]; intros w Ht ->.
  - cbn. split; [done|]. split; [done|]. split; [by rewrite (right_id_L _ _)|].
    split; [|split; [by rewrite app_nil_r|done]]. intros p c. split; [auto|].
    intros [?|(? & ?%elem_of_nil & _)]; done.
  - assert (Hnt : e_tgt e <> null_vertex /\ null_vertex ∉ dset tr).
    { unfold dset in Hn. cbn in Hn. unfold dset. set_solver. }
    destruct Hnt as [Hnt Hntr].
    assert (Hne : e_src e <> e_tgt e) by (intros Heq; rewrite Heq in Hs; done).
    destruct (IH Hntr (tv_add_edge (e_src e) (e_tgt e) w)) as (H1 & H2 & H3 & H4 & H5 & H6).
    { by apply is_tree_add. }
    { by rewrite add_edge_dom. }
    change (build_tree (BTree e :: BDiscover (e_tgt e) :: tr) w)
      with (build_tree tr (tv_add_edge (e_src e) (e_tgt e) w)).
    split; [done|]. split; [done|]. split; [rewrite H3; unfold dset; cbn; set_solver|].
    split; [|done]. intros p c. rewrite H4, add_edge_child by done. 
    split.
    + intros [[?|[-> ->]]|(e' & ? & ? & ?)]; [by left| |].
      * right. exists e. split; [|done]. left.
      * right. exists e'. split; [|done]. do 2 right. done.
    + intros [?|(e' & He' & ? & ?)]; [auto|].
      apply elem_of_cons in He' as [[= ->]|He']; [left; right; done|].
      apply elem_of_cons in He' as [?|He']; [done|]. right. eauto.
  - destruct (IH Hn (tv_add_cross (e_src e) (e_tgt e) (e_id e) w)) as (H1 & H2 & H3 & H4 & H5 & H6).
    { destruct Ht. by split. }
    { done. }
    change (build_tree (BGray e :: tr) w)
      with (build_tree tr (tv_add_cross (e_src e) (e_tgt e) (e_id e) w)).
    split; [done|]. split; [done|]. split; [done|]. split; [|split; [|done]].
    + intros p c. rewrite H4. change (child (tv_add_cross _ _ _ w) p c) with (child w p c).
      split; (intros [?|(e' & He' & ?)]; [by left|right]); exists e'; (split; [|done]).
      * by right.
      * by apply elem_of_cons in He' as [?|?].
    + rewrite H5. cbn. by rewrite <- app_assoc.
  - destruct (IH Hn w Ht eq_refl) as (H1 & H2 & H3 & H4 & H5 & H6).
    change (build_tree (BBlack e :: tr) w) with (build_tree tr w).
    split; [done|]. split; [done|]. split; [done|]. split; [|done].
    intros p c. rewrite H4.
    split; (intros [?|(e' & He' & ?)]; [by left|right]); exists e'; (split; [|done]).
    * by right.
    * by apply elem_of_cons in He' as [?|?].
  - destruct (IH Hn w Ht eq_refl) as (H1 & H2 & H3 & H4 & H5 & H6).
    change (build_tree (BFinish v :: tr) w) with (build_tree tr w).
    split; [done|]. split; [done|]. split; [done|]. split; [|done].
    intros p c. rewrite H4.
    split; (intros [?|(e' & He' & ?)]; [by left|right]); exists e'; (split; [|done]).
    * by right.
    * by apply elem_of_cons in He' as [?|?].
Qed.

(** Signals emitted while building. *)
Definition sigs_of (b : bev E) : list vsig :=
  match b with
  | BTree e => [SigAdded (e_src e) (e_tgt e)]
  | BGray e => [SigCross (cross_of e)]
  | _ => []
  end.
Lemma build_log tr w : tv_log (build_tree tr w) = tv_log w ++ mjoin (sigs_of <$> tr).
Proof.
  revert w. induction tr as [|b tr IH]; intros w; cbn; [by rewrite app_nil_r|].
  unfold build_tree in IH |- *. cbn. rewrite IH. destruct b; cbn; by rewrite <- ?app_assoc.
Qed.

End build.
