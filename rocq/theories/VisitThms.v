(** The visitors of a tree view (C22). *)
From stdpp Require Import prelude strings gmap.
From Verif Require Import ListLib Outcome Digraph Bfs TreeView SpecWalk WalkThms SpecTree SpecView BuildThms.

Section visit.
Variable w : tview.
Hypothesis Ht : is_tree w.

Lemma parent_unique p q c : child w p c -> child w q c -> p = q.
Proof. intros [_ H1]%(it_child _ Ht) [_ H2]%(it_child _ Ht). congruence. Qed.

Lemma route_unique l1 : forall v l2, route (child w) (tv_root w) v l1 -> route (child w) (tv_root w) v l2 -> l1 = l2.
Proof.
  induction l1 as [|x l1 IH] using rev_ind; intros v l2 H1 H2; [by apply route_nil in H1|].
  apply route_inv_snoc in H1 as [[Hl Hv]|(l' & b & Hl & Hr & Hb)].
  - apply route_inv_snoc in H2 as [[Hl2 _]|(l2' & b2 & -> & Hr2 & Hb2)]; [congruence|].
    apply (it_child _ Ht) in Hb2 as [Hb2 _]. congruence.
  - apply app_inj_tail in Hl as [-> ->].
    apply route_inv_snoc in H2 as [[Hl2 Hv]|(l2' & b2 & -> & Hr2 & Hb2)].
    + apply (it_child _ Ht) in Hb as [Hb _]. congruence.
    + rewrite (parent_unique _ _ _ Hb2 Hb) in Hr2. by rewrite (IH _ _ Hr Hr2).
Qed.

(** No vertex is below itself. *)
Lemma acyclic n v : tv_vertex_exists w n = true -> linked (child w) n v -> ~ child w v n.
Proof.
  intros Hn [l Hl] Hc. destruct (it_below _ Ht n Hn) as [l0 H0].
  pose proof (route_app _ _ _ _ _ _ H0 Hl) as H1. pose proof (route_snoc _ _ _ _ _ H1 Hc) as H2.
  pose proof (route_unique _ _ _ H0 H2) as Heq. apply (f_equal length) in Heq. rewrite !app_length in Heq. cbn in Heq. lia.
Qed.

Lemma below_in n v : tv_vertex_exists w n = true -> linked (child w) n v -> v ∈ dom (tv_tree w).
Proof.
  intros Hn. revert v. apply linked_ind_r; [by apply tv_vertex_exists_iff|].
  intros x y _ _ Hxy. by apply (child_dom w x y).
Qed.

Section from.
Variable n : vid.
Hypothesis Hn : tv_vertex_exists w n = true.

Record winv (pre q : list vid) : Prop := {
  wi_nodup : NoDup (pre ++ q);
  wi_below : forall v, v ∈ pre ++ q -> linked (child w) n v;
  wi_n : n ∈ pre ++ q;
  wi_child : forall v c, v ∈ pre -> child w v c -> c ∈ pre ++ q;
  wi_parent : forall v, v ∈ pre ++ q -> v <> n -> exists p, p ∈ pre /\ child w p v;
  wi_order : forall k v, pre !! k = Some v -> v <> n -> exists k' p, k' < k /\ pre !! k' = Some p /\ child w p v }.

Lemma winv_init : winv [] [n].
Proof.
  split; cbn.
  - apply NoDup_singleton.
  - intros v ->%elem_of_list_singleton. apply linked_refl.
  - by left.
  - by intros v c ?%elem_of_nil.
  - by intros v ->%elem_of_list_singleton ?.
  - done.
Qed.

Lemma winv_step pre cur q r q' : winv pre (cur :: q) -> tv_tree w !! cur = Some r -> q' ≡ₚ q ++ vr_children r ->
  winv (pre ++ [cur]) q'.
Proof.
  intros [H1 H2 H3 H4 H5 H6] Hr Hq.
  assert (Hch : forall c, c ∈ vr_children r <-> child w cur c).
  { intros c. split; [by exists r|]. intros (r' & Hr' & Hc). congruence. }
  assert (Hcur : linked (child w) n cur) by (apply H2; set_solver).
  assert (Hcp : cur ∉ pre).
  { apply NoDup_app in H1 as (_ & H1 & _). intros Hx. by apply (H1 cur Hx), elem_of_list_here. }
  assert (Hq' : forall v, v ∈ (pre ++ [cur]) ++ q' <-> v ∈ pre ++ cur :: q \/ child w cur v).
  { intros v. rewrite <- Hch, Hq. set_solver. }
  assert (Hnew : forall c, child w cur c -> c ∉ pre ++ cur :: q).
  { intros c Hc Hin. destruct (decide (c = n)) as [->|Hne]; [by eapply (acyclic n cur)|].
    destruct (H5 c Hin Hne) as (p & Hp & Hpc). by rewrite (parent_unique _ _ _ Hpc Hc) in Hp. }
  split.
  - rewrite <- app_assoc. rewrite Hq. cbn. rewrite app_comm_cons, app_assoc. apply NoDup_app. split; [done|]. split.
    + intros x Hx Hxc. apply Hch in Hxc. by eapply Hnew.
    + by eapply (it_nodup _ Ht).
  - intros v [Hv|Hv]%Hq'; [by apply H2|]. eapply linked_trans; [done|]. by apply linked_step.
  - apply Hq'. by left.
  - intros v c Hv Hc. apply Hq'. apply elem_of_app in Hv as [Hv| ->%elem_of_list_singleton]; [left; eauto|by right].
  - intros v [Hv|Hv]%Hq' Hne.
    + destruct (H5 v Hv Hne) as (p & Hp & Hpc). exists p. split; [set_solver|done].
    + exists cur. split; [set_solver|done].
  - intros k v Hk Hne. apply lookup_app_Some in Hk as [Hk|[Hle Hk]].
    + destruct (H6 k v Hk Hne) as (k' & p & ? & Hk' & ?). exists k', p. split; [done|].
      split; [by apply lookup_app_l_Some|done].
    + apply list_lookup_singleton_Some in Hk as [Hk <-].
      destruct (H5 cur) as (p & Hp & Hpc); [set_solver|done|].
      apply elem_of_list_lookup in Hp as [k' Hk']. exists k', p. split; [apply lookup_lt_Some in Hk'; lia|].
      split; [by apply lookup_app_l_Some|done].
Qed.

Lemma winv_size pre q : winv pre q -> length pre + length q <= size (tv_tree w).
Proof.
  intros H. rewrite <- app_length. rewrite <- size_dom. 
  rewrite <- (size_list_to_set (C := gset vid)) by apply (wi_nodup _ _ H). apply subseteq_size. intros v Hv.
  apply elem_of_list_to_set in Hv. apply (below_in n); [done|]. by apply (wi_below _ _ H).
Qed.

Definition par (v : vid) : vid := vr_parent (tv_rel (tv_tree w) v).

Lemma winv_final pre : winv pre [] -> visits w n ((fun v => (v, par v)) <$> pre).
Proof.
  intros [H1 H2 H3 H4 H5 H6]. rewrite app_nil_r in *.
  pose proof (proj1 (tv_vertex_exists_not _ _) (it_null _ Ht)) as Hnull.
  assert (Hall : forall v, v ∈ pre <-> linked (child w) n v).
  { intros v. split; [apply H2|]. revert v. apply linked_ind_r; [done|].
    intros x y _ Hx Hxy. by apply (H4 x y). }
  assert (Hpar : forall v p, v ∈ dom (tv_tree w) -> tv_get_parent w v = Ret p <-> p = par v).
  { intros v p [r Hr]%elem_of_dom. rewrite get_parent_iff by done. unfold par, tv_rel. rewrite Hr. cbn.
    split; [intros (r' & ? & <-); congruence|intros ->; eauto]. }
  assert (Hdom : forall v, v ∈ pre -> v ∈ dom (tv_tree w)).
  { intros v Hv. apply (below_in n); [done|]. by apply Hall. }
  split.
  - rewrite <- list_fmap_compose. rewrite (list_fmap_ext _ id) by done. by rewrite list_fmap_id.
  - intros v p. rewrite elem_of_list_fmap. split.
    + intros (x & [= -> ->] & Hx). split; [by apply Hall|]. apply Hpar; auto.
    + intros [Hl Hp]. apply Hall in Hl. exists v. split; [|done]. apply Hpar in Hp; [by subst|auto].
  - intros k v p. rewrite list_lookup_fmap, fmap_Some. intros (x & Hx & [= <- ->]) Hne.
    destruct (H6 k v Hx Hne) as (k' & p & Hk & Hp & Hc). exists k', (par p). split; [done|].
    rewrite list_lookup_fmap, fmap_Some. exists p. split; [done|]. f_equal. 
    apply (it_child _ Ht) in Hc as [_ Hc]. apply Hpar in Hc; [done|]. apply Hdom. by eapply elem_of_list_lookup_2.
Qed.

Lemma head_rec pre cur q : winv pre (cur :: q) -> exists r, tv_tree w !! cur = Some r /\
  tv_get_parent w cur = Ret (vr_parent r) /\ par cur = vr_parent r.
Proof.
  intros H. assert (Hd : cur ∈ dom (tv_tree w)).
  { apply (below_in n); [done|]. apply (wi_below _ _ H). set_solver. }
  apply elem_of_dom in Hd as [r Hr]. exists r. split; [done|]. split; [|unfold par, tv_rel; by rewrite Hr].
  apply get_parent_iff; [by apply tv_vertex_exists_not, (it_null _ Ht)|]. eauto.
Qed.

Lemma bfs_visits_gen ord fuel pre q : ord_ok ord -> winv pre q -> size (tv_tree w) <= fuel + length pre ->
  exists post, tv_visit_bfs fuel ord w q = ((fun v => (v, par v)) <$> post, Ret tt) /\ winv (pre ++ post) [].
Proof.
  intros Hord. revert pre q. induction fuel as [|fuel IH]; intros pre q Hw Hsz.
  - destruct q as [|cur q]; [exists []; by rewrite app_nil_r|].
    apply winv_size in Hw. cbn in Hw. lia.
  - destruct q as [|cur q]; [exists []; by rewrite app_nil_r|]. cbn [tv_visit_bfs].
    destruct (head_rec _ _ _ Hw) as (r & Hr & Hgp & Hpar). rewrite Hgp. unfold tv_rel. rewrite Hr. cbn [default].
    destruct (IH (pre ++ [cur]) (q ++ ord w cur (vr_children r))) as (post & Hv & Hf).
    { eapply winv_step; [done..|]. by rewrite (Hord w cur (vr_children r)). }
    { rewrite app_length. cbn. lia. }
    exists (cur :: post). cbn [default from_option id]. rewrite Hv. cbn. rewrite Hpar. split; [done|].
    by rewrite <- app_assoc in Hf.
Qed.

Lemma dfs_visits_gen ord fuel pre q : ord_ok ord -> winv pre q -> size (tv_tree w) <= fuel + length pre ->
  exists post, tv_visit_dfs fuel ord w q = ((fun v => (v, par v)) <$> post, Ret tt) /\ winv (pre ++ post) [].
Proof.
  intros Hord. revert pre q. induction fuel as [|fuel IH]; intros pre q Hw Hsz.
  - destruct q as [|cur q]; [exists []; by rewrite app_nil_r|].
    apply winv_size in Hw. cbn in Hw. lia.
  - destruct q as [|cur q]; [exists []; by rewrite app_nil_r|]. cbn [tv_visit_dfs].
    destruct (head_rec _ _ _ Hw) as (r & Hr & Hgp & Hpar). rewrite Hr.
    destruct (IH (pre ++ [cur]) (ord w cur (vr_children r) ++ q)) as (post & Hv & Hf).
    { eapply winv_step; [done..|]. rewrite (Hord w cur (vr_children r)). apply Permutation_app_comm. }
    { rewrite app_length. cbn. lia. }
    exists (cur :: post). rewrite Hv. cbn. rewrite Hpar. split; [done|].
    by rewrite <- app_assoc in Hf.
Qed.

Lemma bfs_visits ord fuel : ord_ok ord -> size (tv_tree w) <= fuel ->
  exists l, tv_visit_bfs fuel ord w [n] = (l, Ret tt) /\ visits w n l.
Proof.
  intros Hord Hf. destruct (bfs_visits_gen ord fuel [] [n] Hord winv_init) as (post & H1 & H2); [cbn; lia|].
  eexists. split; [done|]. by apply winv_final.
Qed.
Lemma dfs_visits ord fuel : ord_ok ord -> size (tv_tree w) <= fuel ->
  exists l, tv_visit_dfs fuel ord w [n] = (l, Ret tt) /\ visits w n l.
Proof.
  intros Hord Hf. destruct (dfs_visits_gen ord fuel [] [n] Hord winv_init) as (post & H1 & H2); [cbn; lia|].
  eexists. split; [done|]. by apply winv_final.
Qed.

End from.
End visit.
