(** Proofs about the order in which the visitors of a tree view go. *)
From stdpp Require Import prelude strings gmap.
From Coq Require Import Sorted.
From Verif Require Import ListLib Outcome Digraph Bfs TreeView GraphModel GraphOps GraphWf GraphStep SpecObs SpecView SpecWalk WalkThms SpecTree BuildThms VisitThms
  ViewLifeThms HandlerModel SpecHandler VisitModel SpecVisit VisitViewModel SpecVisitView VisitViewThms SpecVisitOrder.

Section order.
Variable w : tview.
Hypothesis Ht : is_tree w.
Variable n : vid.
Hypothesis Hn : tv_vertex_exists w n = true.
Variable ord : order.
Hypothesis Hord : ord_ok ord.

Lemma route_tail a b l : route (child w) a b l -> exists l', l = a :: l'.
Proof. intros [Ha _]. destruct l as [|x l]; cbn in Ha; [done|]. injection Ha as ->. by exists l. Qed.
Lemma level_unique v l1 l2 : route (child w) n v l1 -> route (child w) n v l2 -> length l1 = length l2.
Proof.
  intros H1 H2. destruct (it_below _ Ht n Hn) as [l0 H0].
  pose proof (route_unique w Ht _ _ _ (route_app _ _ _ _ _ _ H0 H1) (route_app _ _ _ _ _ _ H0 H2)) as Heq.
  destruct (route_tail _ _ _ H1) as [m1 ->], (route_tail _ _ _ H2) as [m2 ->]. cbn in *. apply app_inv_head in Heq. by rewrite Heq.
Qed.

(** *** Breadth first *)
Definition level (v : vid) (d : nat) : Prop := exists l, route (child w) n v l /\ length l = d.
Lemma level_child v c d : level v d -> child w v c -> level c (S d).
Proof. intros (l & Hl & <-) Hc. exists (l ++ [c]). split; [by eapply route_snoc|]. rewrite app_length. cbn. lia. Qed.

Lemma bfs_levels fuel : forall q1 q2 d l, (forall v, v ∈ q1 -> level v d) -> (forall v, v ∈ q2 -> level v (S d)) ->
  tv_visit_bfs fuel ord w (q1 ++ q2) = (l, Ret tt) -> exists ds, Forall2 (fun x e => level (fst x) e) l ds /\ StronglySorted le ds /\ Forall (le d) ds.
Proof.
  assert (Hgo : forall fuel, (forall q1 q2 d l, (forall v, v ∈ q1 -> level v d) -> (forall v, v ∈ q2 -> level v (S d)) ->
       tv_visit_bfs fuel ord w (q1 ++ q2) = (l, Ret tt) -> exists ds, Forall2 (fun x e => level (fst x) e) l ds /\ StronglySorted le ds /\ Forall (le d) ds) ->
     forall cur q1 q2 d l, (forall v, v ∈ cur :: q1 -> level v d) -> (forall v, v ∈ q2 -> level v (S d)) ->
       tv_visit_bfs (S fuel) ord w ((cur :: q1) ++ q2) = (l, Ret tt) -> exists ds, Forall2 (fun x e => level (fst x) e) l ds /\ StronglySorted le ds /\ Forall (le d) ds).
  { intros m IH cur q1 q2 d l H1 H2. cbn [tv_visit_bfs app]. destruct (tv_get_parent w cur) as [p| | |] eqn:Hp; [|done..].
    destruct (tv_visit_bfs m ord w _) as [l' r] eqn:Hv. intros [= <- ->]. rewrite <- app_assoc in Hv.
    assert (Hc : level cur d) by (apply H1; by left). destruct (IH q1 (q2 ++ ord w cur (vr_children (tv_rel (tv_tree w) cur))) d l') as (ds & Hds & Hs & Hall); [| |done|].
    - intros v Hvq. apply H1. by right.
    - intros v [Hvq|Hvc]%elem_of_app; [by apply H2|]. rewrite (Hord w cur _) in Hvc. eapply level_child; [exact Hc|].
      unfold tv_rel in Hvc. destruct (tv_tree w !! cur) as [rel|] eqn:Hrel; [|by apply elem_of_nil in Hvc]. by exists rel.
    - exists (d :: ds). split; [by constructor|]. split; [|by constructor]. constructor; [done|]. done. }
  induction fuel as [|m IH]; intros q1 q2 d l H1 H2 Hv.
  - destruct q1 as [|c q1]; [destruct q2 as [|c q2]|]; [|done..]. cbn in Hv. injection Hv as <-. exists []. split; [constructor|]. split; constructor.
  - destruct q1 as [|c q1]; [destruct q2 as [|c q2]|].
    + cbn in Hv. injection Hv as <-. exists []. split; [constructor|]. split; constructor.
    + rewrite <- (app_nil_r (c :: q2)) in Hv. change ([] ++ (c :: q2) ++ []) with ((c :: q2) ++ []) in Hv.
      destruct (Hgo m IH c q2 [] (S d) l) as (ds & Hds & Hs & Hall); [done|by intros v ?%elem_of_nil|done|]. exists ds. split; [done|]. split; [done|].
      eapply Forall_impl; [exact Hall|]. cbn. lia.
    + by eapply (Hgo m IH).
Qed.

Lemma sorted_lookup ds i j a b : StronglySorted le ds -> i <= j -> ds !! i = Some a -> ds !! j = Some b -> a <= b.
Proof.
  intros Hs. revert i j. induction Hs as [|x ds Hs IH Hall]; intros i j Hij Hi Hj; [done|].
  destruct i as [|i], j as [|j]; cbn in Hi, Hj; [pose proof (eq_trans (eq_sym Hi) Hj) as [= ->]; done| |lia|by eapply (IH i j); [lia|..]].
  injection Hi as <-. rewrite list.Forall_forall in Hall. apply Hall. by eapply elem_of_list_lookup_2.
Qed.

Theorem bfs_ordered fuel l : tv_visit_bfs fuel ord w [n] = (l, Ret tt) -> level_order w n (fst <$> l).
Proof.
  intros Hv. destruct (bfs_levels fuel [n] [] 1 l) as (ds & Hds & Hs & _); [|by intros v ?%elem_of_nil|done|].
  { intros v ->%elem_of_list_singleton. exists [n]. split; [apply route_refl|done]. }
  intros i j u v lu lv Hij Hi Hj Hu Hlv. apply list_lookup_fmap_inv in Hi as ([u' pu] & -> & Hi). apply list_lookup_fmap_inv in Hj as ([v' pv] & -> & Hj). cbn in *.
  destruct (Forall2_lookup_l _ _ _ _ _ Hds Hi) as (a & Ha & (la & Hla & <-)). destruct (Forall2_lookup_l _ _ _ _ _ Hds Hj) as (b & Hb & (lb & Hlb & <-)).
  rewrite (level_unique _ _ _ Hu Hla), (level_unique _ _ _ Hlv Hlb). by eapply (sorted_lookup ds i j).
Qed.

(** *** Depth first *)
Lemma linked_cases a x : linked (child w) a x <-> a = x \/ exists c, child w a c /\ linked (child w) c x.
Proof.
  split.
  - intros [l Hl]. destruct (route_tail _ _ _ Hl) as [l' ->]. destruct l' as [|c l'].
    + left. destruct Hl as (_ & Hl & _). cbn in Hl. congruence.
    + right. exists c. destruct Hl as (_ & Hlast & Hch). cbn in Hch. split; [apply Hch|]. exists (c :: l'). split; [done|]. split; [done|]. apply Hch.
  - intros [->|(c & Hc & Hx)]; [apply linked_refl|]. eapply linked_trans; [by apply linked_step|done].
Qed.
Lemma dfs_all fuel : forall todo l, tv_visit_dfs fuel ord w todo = (l, Ret tt) -> forall x, x ∈ fst <$> l <-> exists y, y ∈ todo /\ linked (child w) y x.
Proof.
  induction fuel as [|m IH]; intros [|cur rest] l Hv x; cbn [tv_visit_dfs] in Hv; try done.
  - injection Hv as <-. split; [by intros ?%elem_of_nil|]. by intros (y & ?%elem_of_nil & _).
  - injection Hv as <-. split; [by intros ?%elem_of_nil|]. by intros (y & ?%elem_of_nil & _).
  - destruct (tv_tree w !! cur) as [rel|] eqn:Hrel; [|done]. destruct (tv_visit_dfs m ord w _) as [l' r] eqn:Hl. injection Hv as <- ->.
    cbn [fmap list_fmap fst]. rewrite elem_of_cons, (IH _ _ Hl x). split.
    + intros [->|(y & [Hy|Hy]%elem_of_app & Hx)].
      * exists cur. split; [by left|apply linked_refl].
      * rewrite (Hord w cur _) in Hy. exists cur. split; [by left|]. apply linked_cases. right. exists y. split; [by exists rel|done].
      * exists y. split; [by right|done].
    + intros (y & [->|Hy]%elem_of_cons & Hx).
      * apply linked_cases in Hx as [->|(c & (rel' & Hrel' & Hc) & Hx)]; [by left|]. right. exists c. split; [|done]. apply elem_of_app. left.
        rewrite (Hord w cur _). congruence.
      * right. exists y. split; [apply elem_of_app; by right|done].
Qed.
Lemma dfs_split fuel : forall t1 t2 l, tv_visit_dfs fuel ord w (t1 ++ t2) = (l, Ret tt) -> exists l1 l2, l = l1 ++ l2 /\
  (forall x, x ∈ fst <$> l1 <-> exists y, y ∈ t1 /\ linked (child w) y x).
Proof.
  induction fuel as [|m IH]; intros [|cur t1] t2 l Hv; try (exists [], l; split; [done|]; intros x; split; [by intros ?%elem_of_nil|by intros (y & ?%elem_of_nil & _)]); [done|].
  pose proof Hv as Hv0. cbn [tv_visit_dfs app] in Hv. destruct (tv_tree w !! cur) as [rel|] eqn:Hrel; [|done]. destruct (tv_visit_dfs m ord w _) as [l' r] eqn:Hl. injection Hv as <- ->.
  rewrite app_assoc in Hl. destruct (IH _ _ _ Hl) as (l1 & l2 & -> & H1). exists ((cur, vr_parent rel) :: l1), l2. split; [done|]. intros x.
  cbn [fmap list_fmap fst]. rewrite elem_of_cons, H1. split.
  - intros [->|(y & [Hy|Hy]%elem_of_app & Hx)].
    + exists cur. split; [by left|apply linked_refl].
    + rewrite (Hord w cur _) in Hy. exists cur. split; [by left|]. apply linked_cases. right. exists y. split; [by exists rel|done].
    + exists y. split; [by right|done].
  - intros (y & [->|Hy]%elem_of_cons & Hx).
    + apply linked_cases in Hx as [->|(c & (rel' & Hrel' & Hc) & Hx)]; [by left|]. right. exists c. split; [|done]. apply elem_of_app. left.
      rewrite (Hord w cur _). congruence.
    + right. exists y. split; [apply elem_of_app; by right|done].
Qed.

Lemma dfs_blocks fuel : forall todo l, tv_visit_dfs fuel ord w todo = (l, Ret tt) -> NoDup (fst <$> l) -> subtree_order w (fst <$> l).
Proof.
  induction fuel as [|m IH]; intros [|cur rest] l Hv Hnd; cbn [tv_visit_dfs] in Hv; try done; [by injection Hv as <-..|].
  destruct (tv_tree w !! cur) as [rel|] eqn:Hrel; [|done]. destruct (tv_visit_dfs m ord w _) as [l' r] eqn:Hl. injection Hv as <- ->.
  cbn [fmap list_fmap fst] in *. apply list.NoDup_cons in Hnd as [Hnc Hnd]. pose proof (IH _ _ Hl Hnd) as Hsub.
  intros i j k u v x Hijk Hi Hj Hk Hux. destruct i as [|i]; cbn [lookup list_lookup] in Hi.
  - injection Hi as <-. destruct j as [|j]; cbn [lookup list_lookup] in Hj; [injection Hj as <-; apply linked_refl|].
    destruct k as [|k]; [lia|]. cbn [lookup list_lookup] in Hk. destruct (dfs_split _ _ _ _ Hl) as (l1 & l2 & -> & H1). rewrite fmap_app in Hnd, Hnc.
    assert (Hk2 : ((fst <$> l1) ++ (fst <$> l2)) !! k = Some x) by (rewrite <- fmap_app; exact Hk). clear Hk. rename Hk2 into Hk.
    assert (Hx1 : x ∈ fst <$> l1).
    { apply H1. apply linked_cases in Hux as [->|(c & (rel' & Hrel' & Hc) & Hx)].
      - exfalso. apply Hnc. by eapply elem_of_list_lookup_2.
      - exists c. split; [|done]. rewrite (Hord w cur _). congruence. }
    apply elem_of_list_lookup in Hx1 as [k' Hk']. assert (Hkk : k = k').
    { eapply NoDup_lookup; [exact Hnd|exact Hk|]. by apply lookup_app_l_Some. }
    subst k'. assert (Hjl : j < length (fst <$> l1)) by (apply lookup_lt_Some in Hk'; lia).
    assert (Hj2 : ((fst <$> l1) ++ (fst <$> l2)) !! j = Some v) by (rewrite <- fmap_app; exact Hj). clear Hj. rename Hj2 into Hj. rewrite lookup_app_l in Hj by done. assert (Hv1 : v ∈ fst <$> l1) by (by eapply elem_of_list_lookup_2).
    apply H1 in Hv1 as (y & Hy & Hyv). rewrite (Hord w cur _) in Hy. apply linked_cases. right. exists y. split; [by exists rel|done].
  - destruct j as [|j]; [lia|]. destruct k as [|k]; [lia|]. cbn [lookup list_lookup] in Hj, Hk. eapply (Hsub i j k); [lia|done..].
Qed.

Theorem bfs_exact fuel : size (tv_tree w) <= fuel -> exists l, tv_visit_bfs fuel ord w [n] = (l, Ret tt) /\ visits w n l /\ level_order w n (fst <$> l).
Proof. intros Hf. destruct (bfs_visits w Ht n Hn ord fuel Hord Hf) as (l & Hl & Hv). exists l. split; [done|]. split; [done|]. by eapply bfs_ordered. Qed.
Theorem dfs_exact fuel : size (tv_tree w) <= fuel -> exists l, tv_visit_dfs fuel ord w [n] = (l, Ret tt) /\ visits w n l /\ subtree_order w (fst <$> l).
Proof.
  intros Hf. destruct (dfs_visits w Ht n Hn ord fuel Hord Hf) as (l & Hl & Hv). exists l. split; [done|]. split; [done|].
  eapply dfs_blocks; [exact Hl|apply (vi_once _ _ _ Hv)].
Qed.
End order.

(** *** Functions that use the graph do not change the order *)
Section program.
Context {D E : Type} (d0 : D) (einv : E -> E) (i : viewid) {C : Type} (z : vfun D E C) (w : tview) (ord : order).
Hypothesis Hz : noself_fun z.
Hypothesis Hsp : spares_view i z.

Lemma bfs_same m : forall c q s pre s' seen ev, KF d0 einv i w s -> VisitViewModel.bfs_loop d0 einv i ord z m c q (s, pre) = ((s', seen), ev, Ret tt) ->
  exists l, seen = pre ++ l /\ tv_visit_bfs m ord w q = (l, Ret tt).
Proof.
  induction m as [|m IH]; intros c [|cur q] s pre s' seen ev HK Hr; cbn [VisitViewModel.bfs_loop fst snd] in Hr;
    try (injection Hr as _ <- _; exists []; by rewrite app_nil_r).
  destruct HK as [Hre [Hw Hi]]. rewrite Hw in Hr. cbn [tv_visit_bfs]. destruct (tv_get_parent w cur) as [p| | |] eqn:Hp; [|done..].
  destruct (body d0 einv (vf_do z c cur p s) s) as [[s1 ev1] r1] eqn:H1. destruct r1 as [[]|x| |]; [|done..].
  assert (HK1 : KF d0 einv i w s1) by (eapply (KF_run d0 einv i z Hz); [exact Hsp|by split|exact H1|left; by eexists]).
  destruct HK1 as [Hre1 [Hw1 Hi1]]. rewrite Hw1 in Hr. rewrite touch_id in Hr.
  2:{ unfold tv_get_parent in Hp. destruct (Nat.eqb _ _); [done|]. destruct (tv_tree w !! cur); [by eexists|done]. }
  rewrite set_view_id in Hr by done. destruct (VisitViewModel.bfs_loop _ _ _ _ _ _ _ _ _) as [[[s3 seen3] ev3] r3] eqn:H3. injection Hr as <- <- <- ->.
  destruct (IH _ _ _ _ _ _ _ (conj Hre1 (conj Hw1 Hi1)) H3) as (l & -> & Hl). exists ((cur, p) :: l). rewrite Hl. split; [by rewrite <- app_assoc|done].
Qed.
Lemma dfs_same m : forall c todo s pre s' seen ev, KF d0 einv i w s -> VisitViewModel.dfs_loop d0 einv i ord z m c todo (s, pre) = ((s', seen), ev, Ret tt) ->
  exists l, seen = pre ++ l /\ tv_visit_dfs m ord w (fst <$> todo) = (l, Ret tt).
Proof.
  induction m as [|m IH]; intros c [|[cur [above old]] q] s pre s' seen ev HK Hr; cbn [VisitViewModel.dfs_loop fst snd] in Hr;
    try (injection Hr as _ <- _; exists []; by rewrite app_nil_r).
  destruct HK as [Hre [Hw Hi]]. rewrite Hw in Hr. cbn [tv_visit_dfs fmap list_fmap fst]. destruct (tv_tree w !! cur) as [rel|] eqn:Hp; [|done].
  destruct (body d0 einv (vf_do z (vf_copy z old c) cur (vr_parent rel) s) s) as [[s1 ev1] r1] eqn:H1. destruct r1 as [[]|x| |]; [|done..].
  assert (HK1 : KF d0 einv i w s1) by (eapply (KF_run d0 einv i z Hz); [exact Hsp|by split|exact H1|left; by eexists]).
  destruct HK1 as [Hre1 [Hw1 Hi1]]. rewrite Hw1 in Hr. destruct (forallb _ _); [|done].
  destruct (VisitViewModel.dfs_loop _ _ _ _ _ _ _ _ _) as [[[s3 seen3] ev3] r3] eqn:H3. injection Hr as <- <- <- ->.
  destruct (IH _ _ _ _ _ _ _ (conj Hre1 (conj Hw1 Hi1)) H3) as (l & -> & Hl). exists ((cur, vr_parent rel) :: l). split; [by rewrite <- app_assoc|].
  rewrite fmap_app, <- list_fmap_compose in Hl. unfold tv_rel in Hl. rewrite Hp in Hl. cbn [default] in Hl.
  match type of Hl with tv_visit_dfs _ _ _ ((?f <$> ?a) ++ _) = _ => replace (f <$> a) with a in Hl by (symmetry; apply list_fmap_id) end. unfold id in Hl. by rewrite Hl.
Qed.

Theorem bfs_program m c n s s' seen ev : reachable d0 einv s -> gs_views s !! i = Some w -> i ∉ gs_subs s ->
  view_bfs d0 einv i ord z m c n (s, []) = ((s', seen), ev, Ret tt) -> tv_visit_bfs m ord w [n] = (seen, Ret tt).
Proof. intros Hs Hw Hi Hr. destruct (bfs_same m c [n] s [] s' seen ev) as (l & -> & Hl); [by split|exact Hr|done]. Qed.
Theorem dfs_program m c n s s' seen ev : reachable d0 einv s -> gs_views s !! i = Some w -> i ∉ gs_subs s ->
  view_dfs d0 einv i ord z m c n (s, []) = ((s', seen), ev, Ret tt) -> tv_visit_dfs m ord w [n] = (seen, Ret tt).
Proof. intros Hs Hw Hi Hr. destruct (dfs_same m c [(n, ([], c))] s [] s' seen ev) as (l & -> & Hl); [by split|exact Hr|done]. Qed.
End program.
