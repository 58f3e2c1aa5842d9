(** getTree and the update of a view after an edge was added: the view is in step with the graph. *)
From stdpp Require Import prelude strings gmap.
From Verif Require Import ListLib Outcome Digraph Bfs TreeView GraphModel GraphWf GraphStep GraphRefine
  SpecWalk WalkThms BfsThms BfsFind SpecSearch GraphSearch SpecTree BuildThms.

Lemma omap_NoDup_inj {A B} (f : A -> option B) l x y b :
  NoDup (omap f l) -> x ∈ l -> y ∈ l -> f x = Some b -> f y = Some b -> x = y.
Proof.
  induction l as [|a l IH]; [by intros _ ?%elem_of_nil|].
  cbn. intros Hnd Hx Hy Hfx Hfy.
  destruct (f a) as [c|] eqn:Ha.
  - apply NoDup_cons in Hnd as [Hc Hnd].
    apply elem_of_cons in Hx as [->|Hx]; apply elem_of_cons in Hy as [->|Hy]; [done| | |by apply IH].
    + exfalso. apply Hc, elem_of_list_omap. exists y. split; congruence.
    + exfalso. apply Hc, elem_of_list_omap. exists x. split; congruence.
  - apply elem_of_cons in Hx as [->|Hx]; [congruence|]. apply elem_of_cons in Hy as [->|Hy]; [congruence|].
    by apply IH.
Qed.

Lemma NoDup_parts {A B} (f : A -> B) `{EqDecision B} (l : list A) :
  (forall v, NoDup (filter (fun x => f x = v) l)) -> NoDup l.
Proof.
  induction l as [|a l IH]; intros H; [constructor|]. constructor.
  - intros Ha. specialize (H (f a)). rewrite filter_cons_True in H by done.
    apply NoDup_cons in H as [H _]. apply H. by apply elem_of_list_filter.
  - apply IH. intros v. specialize (H v). rewrite filter_cons in H. case_decide; [|done].
    by apply NoDup_cons in H as [_ H].
Qed.

Lemma NoDup_one {A} (l : list A) a : NoDup l -> (forall x, x ∈ l <-> x = a) -> l = [a].
Proof.
  intros Hnd H. destruct l as [|x l]; [exfalso; eapply elem_of_nil, (H a); done|].
  assert (x = a) as -> by (apply H; left). f_equal. destruct l as [|y l]; [done|]. exfalso.
  assert (y = a) as -> by (apply H; right; left). apply NoDup_cons in Hnd as [Hnd _]. apply Hnd. left.
Qed.

Section sync.
Context {D E : Type} (einv : E -> E).
Local Notation dg_wf := (dg_wf einv).
Implicit Types (g : digraph D E) (s : gst D E).

Lemma vnext_adjacent g u v : vnext g u v <-> adjacent g u v.
Proof. apply vnext_iff. Qed.

Lemma linked_iff {A} (R R' : A -> A -> Prop) a b : (forall x y, R x y <-> R' x y) -> linked R a b <-> linked R' a b.
Proof. intros H. split; apply linked_mono; intros x y; by apply H. Qed.

Lemma adjacent_sym g u v : dg_wf g -> adjacent g u v -> adjacent g v u.
Proof. intros Hwf. rewrite <- !vnext_adjacent. by apply (vnext_sym einv). Qed.

Lemma edge_by_ends g e e' : dg_wf g -> e ∈ dg_edges g -> e' ∈ dg_edges g ->
  e_src e = e_src e' -> e_tgt e = e_tgt e' -> e = e'.
Proof.
  intros Hwf He He' Hs Ht. apply (NoDup_fmap_inj (fun e => (e_src e, e_tgt e)) (dg_edges g)); try done.
  - apply (wf_pair einv _ Hwf).
  - congruence.
Qed.

Lemma ex_NoDup g flt root tr : dg_wf g -> bfs_result (fout g flt) root tr -> NoDup (ex tr).
Proof.
  intros Hwf Hres. apply (NoDup_parts e_src). intros v. rewrite (br_ex _ _ _ Hres).
  case_decide; [by apply (fout_NoDup einv)|constructor].
Qed.

Lemma ge_NoDup (tr : list (bev E)) : NoDup (ex tr) -> NoDup (ge tr).
Proof.
  induction tr as [|b tr IH]; [done|]. unfold ex, ge. cbn. fold (ex tr) (ge tr).
  destruct b; cbn; try done; try (intros [_ H]%NoDup_cons; by apply IH).
  intros [Hn H]%NoDup_cons. constructor; [|by apply IH]. intros He. apply Hn.
  apply elem_ex. right. left. by apply elem_ge.
Qed.

(** Each pair of adjacent vertices found by the search is one tree edge or one gray edge. *)
Lemma pair_once g flt root tr e e' : dg_wf g -> bfs_result (fout g flt) root tr ->
  e ∈ dg_edges g -> e' ∈ dg_edges g -> e_src e' = e_tgt e -> e_tgt e' = e_src e ->
  flt e = true -> flt e' = true -> is_Some (tdep root tr !! e_src e) ->
  ((BTree e ∈ tr \/ BTree e' ∈ tr) /\ filter (between (e_src e) (e_tgt e)) (cross_of <$> ge tr) = []) \/
  (~ (BTree e ∈ tr \/ BTree e' ∈ tr) /\
     length (filter (between (e_src e) (e_tgt e)) (cross_of <$> ge tr)) = 1).
Proof.
  intros Hwf Hres He He' Hs Ht Hf Hf' Hd.
  pose proof (ex_NoDup _ _ _ _ Hwf Hres) as Hnd.
  assert (Hd' : is_Some (tdep root tr !! e_tgt e)).
  { apply (br_disc _ _ _ Hres) in Hd. apply (br_disc _ _ _ Hres).
    eapply linked_trans; [done|]. apply linked_step. exists e. by rewrite elem_fout. }
  assert (Hex : e ∈ ex tr).
  { cut (e ∈ filter (fun x => e_src x = e_src e) (ex tr)); [by intros [_ ?]%elem_of_list_filter|].
    rewrite (br_ex _ _ _ Hres), decide_True by done. by apply elem_fout. }
  assert (Hex' : e' ∈ ex tr).
  { cut (e' ∈ filter (fun x => e_src x = e_src e') (ex tr)); [by intros [_ ?]%elem_of_list_filter|].
    rewrite (br_ex _ _ _ Hres), decide_True by by rewrite Hs. by apply elem_fout. }
  assert (Hns : e_src e <> e_tgt e) by by apply (wf_noself einv _ Hwf).
  destruct (br_pair _ _ _ Hres e e' Hex Hex' Hns Hs Ht) as [P1 P2].
  destruct (br_pair _ _ _ Hres e' e Hex' Hex) as [P3 P4]; [congruence..|].
  assert (Htg : forall x, BTree x ∈ tr -> BGray x ∈ tr -> False).
  { intros x H1 H2. assert (BTree x = BGray x) by by eapply (omap_NoDup_inj _ tr _ _ x Hnd H1 H2). done. }
  assert (Htb : forall x, BTree x ∈ tr -> BBlack x ∈ tr -> False).
  { intros x H1 H2. assert (BTree x = BBlack x) by by eapply (omap_NoDup_inj _ tr _ _ x Hnd H1 H2). done. }
  assert (Hgb : forall x, BGray x ∈ tr -> BBlack x ∈ tr -> False).
  { intros x H1 H2. assert (BGray x = BBlack x) by by eapply (omap_NoDup_inj _ tr _ _ x Hnd H1 H2). done. }
  assert (Hg : forall x, x ∈ ge tr -> x ∈ dg_edges g).
  { intros x Hx%elem_ge. assert (Hxe : x ∈ ex tr) by (apply elem_ex; auto).
    assert (Hxf : x ∈ filter (fun y => e_src y = e_src x) (ex tr)) by by apply elem_of_list_filter.
    rewrite (br_ex _ _ _ Hres) in Hxf. case_decide; [|by apply elem_of_nil in Hxf].
    by apply elem_fout in Hxf as (_ & _ & ?). }
  assert (Hfil : filter (between (e_src e) (e_tgt e)) (cross_of <$> ge tr) =
                 cross_of <$> filter (fun x => between (e_src e) (e_tgt e) (cross_of x)) (ge tr)).
  { clear. induction (ge tr) as [|x l IH]; [done|]. cbn [fmap list_fmap].
    rewrite !filter_cons. case_decide; [cbn; by rewrite <- IH|done]. }
  assert (HP : forall x, x ∈ ge tr -> between (e_src e) (e_tgt e) (cross_of x) <-> x = e \/ x = e').
  { intros x Hx%Hg. split.
    - intros [[H1 H2]|[H1 H2]]; cbn in *; [left|right]; (eapply edge_by_ends; [done..| |]; congruence).
    - intros [->| ->]; [left|right]; cbn; auto. }
  rewrite Hfil. rewrite fmap_length.
  assert (Hone : forall x, BGray x ∈ tr -> (x = e \/ x = e') -> (BGray e ∉ tr \/ BGray e' ∉ tr) ->
             length (filter (fun x => between (e_src e) (e_tgt e) (cross_of x)) (ge tr)) = 1).
  { intros x Hx Hxe Hno. rewrite (NoDup_one _ x); [done|by apply NoDup_filter, ge_NoDup|].
    intros y. rewrite elem_of_list_filter. split.
    - intros [Hb Hy]. apply HP in Hb; [|done]. apply elem_ge in Hy.
      destruct Hb as [->| ->]; destruct Hxe as [->| ->]; destruct Hno; done.
    - intros ->. apply elem_ge in Hx. split; [by apply HP|done]. }
  assert (Hnone : BGray e ∉ tr -> BGray e' ∉ tr ->
             filter (fun x => between (e_src e) (e_tgt e) (cross_of x)) (ge tr) = []).
  { intros H1 H2. apply filter_none. intros x Hx Hb%HP; [|done]. apply elem_ge in Hx. by destruct Hb as [->| ->]. }
  apply elem_ex in Hex as [HT|[HG|HB]].
  - left. split; [by left|]. rewrite Hnone; [done|intros H; by eapply Htg|]. intros H. eapply Hgb; [exact H|auto].
  - right. split; [|apply (Hone e); auto]; [|right; intros H; eapply Hgb; [exact H|auto]].
    intros [H|H]; [by eapply Htg|]. eapply Htb; [exact H|auto].
  - apply elem_ex in Hex' as [HT|[HG|HB']]; [| |by destruct (P1 HB)].
    + left. split; [by right|]. rewrite Hnone; [done| |intros H; by eapply Htg]. intros H. by eapply Hgb.
    + right. split; [|apply (Hone e'); auto]; [|left; intros H; by eapply Hgb].
      intros [H|H]; [by eapply Htb|]. by eapply Htg.
Qed.

(** *** A view filled by getTree *)

Lemma add_root_tree root w : tv_tree w = ∅ -> root <> null_vertex -> is_tree (tv_add_root root w) /\
  dom (tv_tree (tv_add_root root w)) = {[root]} /\ (forall p c, ~ child (tv_add_root root w) p c).
Proof.
  intros Hw Hr.
  assert (Ht : tv_tree (tv_add_root root w) = {[root := vrel0]}).
  { unfold tv_add_root. cbn. rewrite Hw. unfold tv_rel. by rewrite lookup_empty. }
  assert (Hc : forall p c, ~ child (tv_add_root root w) p c).
  { intros p c (r & Hp & Hc). rewrite Ht in Hp. apply lookup_singleton_Some in Hp as [_ <-].
    by apply elem_of_nil in Hc. }
  assert (Hd : dom (tv_tree (tv_add_root root w)) = ({[root]} : gset vid)).
  { rewrite Ht. apply dom_singleton_L. }
  split; [|done]. split; change (tv_root (tv_add_root root w)) with root.
  - apply tv_vertex_exists_not. rewrite Hd. set_solver.
  - apply tv_vertex_exists_iff. rewrite Hd. set_solver.
  - apply get_parent_iff; [rewrite Hd; set_solver|]. rewrite Ht, lookup_singleton. eauto.
  - intros v. rewrite tv_vertex_exists_iff, Hd. set_solver.
  - intros p c H. by destruct (Hc p c).
  - intros p r. rewrite Ht. intros [_ <-]%lookup_singleton_Some. constructor.
  - intros v. rewrite tv_vertex_exists_iff, Hd. intros ->%elem_of_singleton. apply linked_refl.
Qed.

Lemma tree_dset_alive g flt root tr v : dg_wf g -> bfs_result (fout g flt) root tr ->
  v ∈ dset tr -> bg_alive g v = true.
Proof.
  intros Hwf Hres Hv. unfold dset in Hv. apply elem_of_list_to_set, elem_of_list_fmap in Hv as (e & -> & He).
  apply elem_te in He. destruct (br_tree _ _ _ Hres e He) as (_ & Hin & _).
  apply elem_fout in Hin as (_ & _ & Hin). by apply (wf_tgt_alive einv).
Qed.

Lemma null_not_dset g flt root tr : dg_wf g -> bfs_result (fout g flt) root tr -> null_vertex ∉ dset tr.
Proof.
  intros Hwf Hres Hn. eapply tree_dset_alive in Hn; [|done..]. by apply (alive_null einv) in Hn.
Qed.

Lemma tree_edge_iff g flt root tr e u v : dg_wf g -> bfs_result (fout g flt) root tr ->
  e ∈ dg_edges g -> e_src e = u -> e_tgt e = v ->
  (exists e', BTree e' ∈ tr /\ e_src e' = u /\ e_tgt e' = v) <-> BTree e ∈ tr.
Proof.
  intros Hwf Hres He Hs Ht. split; [|eauto]. intros (e' & He' & Hs' & Ht').
  destruct (br_tree _ _ _ Hres e' He') as (_ & Hin & _). apply elem_fout in Hin as (_ & _ & Hin).
  by rewrite (edge_by_ends g e e') by (try done; congruence).
Qed.

Lemma get_tree_sync s root w : dg_wf (gs_dg s) -> bg_alive (gs_dg s) root = true ->
  tv_tree w = ∅ -> tv_cross w = [] ->
  exists w', get_tree_into s root w = Ret w' /\ in_sync (gs_dg s) w' /\ tv_root w' = root /\
    tv_pub w' = tv_pub w /\
    forall v, tv_vertex_exists w' v = true ->
      exists l, route (child w') root v l /\ shortest (adjacent (gs_dg s)) root v l.
Proof.
  intros Hwf Hal Hw Hc. set (g := gs_dg s) in *.
  destruct (bfs_trace_spec einv g (fun _ => true) root Hwf Hal) as (tr & Htr & Htw & Hres).
  set (ftr := BDiscover root :: tr) in *.
  unfold get_tree_into. fold g. rewrite Htr. cbn [obind].
  destruct (add_root_tree root w Hw (alive_null einv g root Hwf Hal)) as (Hit & Hdom & Hnoc).
  assert (Hnull : null_vertex ∉ dset tr) by apply (null_not_dset g _ root ftr Hwf Hres).
  destruct (build_spec tr (tv_add_root root w) Hit) as (H1 & H2 & H3 & H4 & H5 & H6); [by rewrite Hdom|done|].
  change (build_tree ftr (tv_add_root root w)) with (build_tree tr (tv_add_root root w)).
  set (w' := build_tree tr (tv_add_root root w)) in *.
  change (tv_root (tv_add_root root w)) with root in H2.
  change (tv_cross (tv_add_root root w)) with (tv_cross w) in H5. rewrite Hc in H5. cbn [app] in H5.
  rewrite Hdom in H3.
  assert (Hch : forall p c, child w' p c <-> exists e, BTree e ∈ ftr /\ e_src e = p /\ e_tgt e = c).
  { intros p c. rewrite H4. split.
    - intros [?|(e & ? & ?)]; [by destruct (Hnoc p c)|]. exists e. split; [by right|done].
    - intros (e & He & ?). right. exists e. split; [|done]. by apply elem_of_cons in He as [?|?]. }
  assert (Hin : forall v, tv_vertex_exists w' v = true <-> is_Some (tdep root ftr !! v)).
  { intros v. rewrite tv_vertex_exists_iff, H3. unfold ftr. rewrite dset_disc by done.
    by rewrite elem_of_union, elem_of_singleton. }
  assert (Hge : ge tr = ge ftr) by done.
  exists w'. split; [done|]. split; [|split; [done|split; [done|]]].
  - split; [done|by rewrite H2|..]; rewrite ?H2.
    + intros v. rewrite Hin, (br_disc _ _ _ Hres). apply linked_iff. apply vnext_adjacent.
    + intros p c (e & He & <- & <-)%Hch. apply vnext_adjacent.
      destruct (br_tree _ _ _ Hres e He) as (_ & Hx & _). by exists e.
    + intros c Hcr. rewrite H5, Hge in Hcr. apply elem_of_list_fmap in Hcr as (e & -> & He%elem_ge).
      assert (Hxe : e ∈ ex ftr) by (apply elem_ex; auto).
      assert (Hxf : e ∈ filter (fun y => e_src y = e_src e) (ex ftr)) by by apply elem_of_list_filter.
      rewrite (br_ex _ _ _ Hres) in Hxf. case_decide as Hd; [|by apply elem_of_nil in Hxf].
      cbn. split; [by apply Hin|]. apply elem_fout in Hxf as (_ & _ & ?). eauto.
    + intros u v (e & He & <- & <-) Hu%Hin.
      destruct (wf_inv einv g Hwf e He) as (e' & He' & Hs & Ht & _).
      rewrite !Hch, H5, Hge.
      rewrite (tree_edge_iff g _ root ftr e), (tree_edge_iff g _ root ftr e') by done.
      by apply (pair_once g (fun _ => true) root ftr e e').
  - intros v Hv. destruct (it_below _ H1 v Hv) as [l Hl]. rewrite H2 in Hl. exists l. split; [done|].
    assert (Hlen : length l = S (dp root ftr v)).
    { clear -Hl Hch Hres. revert v Hl. induction l as [|x l IH] using rev_ind; intros v Hl; [by apply route_nil in Hl|].
      destruct (route_inv_snoc _ _ _ _ Hl) as [[Heq <-]|(l' & b & Heq & Hr & Hb)].
      - rewrite Heq. cbn. by rewrite (proj2 (br_root _ _ _ Hres)).
      - apply app_inj_tail in Heq as [-> ->]. rewrite app_length, (IH _ Hr). cbn.
        apply Hch in Hb as (e & He & <- & <-). destruct (br_tree _ _ _ Hres e He) as (_ & _ & _ & _ & ->). lia. }
    split.
    + destruct Hl as (Ha & Hb & Hcn). split; [done|]. split; [done|]. eapply chain_impl; [|done].
      intros x y _ _ (e & He & <- & <-)%Hch. apply vnext_adjacent.
      destruct (br_tree _ _ _ Hres e He) as (_ & Hx & _). by exists e.
    + intros l' (Ha & Hb & Hcn). rewrite Hlen. apply (br_dist _ _ _ Hres). split; [done|]. split; [done|].
      eapply chain_impl; [|done]. intros x y _ _ Hxy. by apply vnext_adjacent.
Qed.

(** *** A pair of edges was added *)

Section added.
Variables (g g' : digraph D E) (e1 e2 : erec E).
Hypothesis Hwf : dg_wf g.
Hypothesis Hwf' : dg_wf g'.
Hypothesis Hedges : forall e, e ∈ dg_edges g' <-> e ∈ dg_edges g \/ e = e1 \/ e = e2.
Hypothesis Hends : e_src e2 = e_tgt e1 /\ e_tgt e2 = e_src e1.
Hypothesis Hnew : ~ adjacent g (e_src e1) (e_tgt e1).
Hypothesis Hsame : forall v, bg_alive g' v = bg_alive g v.

Lemma adj_added u v : adjacent g' u v <->
  adjacent g u v \/ (u = e_src e1 /\ v = e_tgt e1) \/ (u = e_tgt e1 /\ v = e_src e1).
Proof.
  destruct Hends as [Hs Ht]. split.
  - intros (e & He & <- & <-). apply Hedges in He as [He|[->| ->]].
    + left. by exists e.
    + auto.
    + right. right. done.
  - intros [(e & He & ? & ?)|[[-> ->]|[-> ->]]].
    + exists e. rewrite Hedges. auto.
    + exists e1. rewrite Hedges. auto.
    + exists e2. rewrite Hedges. auto.
Qed.

Lemma new_ends : e_src e1 <> e_tgt e1.
Proof. apply (wf_noself einv _ Hwf'). apply Hedges. auto. Qed.

Lemma new_rev : ~ adjacent g (e_tgt e1) (e_src e1).
Proof. intros H. apply Hnew. by apply adjacent_sym. Qed.

Lemma linked_adj_mono u v : linked (adjacent g) u v -> linked (adjacent g') u v.
Proof. apply linked_mono. intros x y ?. apply adj_added. auto. Qed.

Lemma no_cross_between w u v : in_sync g w -> ~ adjacent g u v -> filter (between u v) (tv_cross w) = [].
Proof.
  intros Hs Hn. apply filter_none. intros c Hc Hb.
  destruct (sy_real _ _ Hs c Hc) as (_ & e & He & H1 & H2 & _). apply Hn.
  destruct Hb as [[<- <-]|[<- <-]].
  - exists e. auto.
  - apply adjacent_sym; [done|]. exists e. auto.
Qed.

Lemma sync_neither w : in_sync g w -> tv_vertex_exists w (e_src e1) = false ->
  tv_vertex_exists w (e_tgt e1) = false -> in_sync g' w.
Proof.
  intros Hs Hn1 Hn2.
  assert (Hadj : forall u v, tv_vertex_exists w u = true -> adjacent g' u v -> adjacent g u v).
  { intros u v Hu. rewrite adj_added. intros [?|[[-> ->]|[-> ->]]]; [done|congruence..]. }
  split.
  - apply (sy_tree _ _ Hs).
  - rewrite Hsame. apply (sy_alive _ _ Hs).
  - intros v. rewrite (sy_span _ _ Hs). split; [apply linked_adj_mono|].
    revert v. apply linked_ind_r; [apply linked_refl|]. intros x y _ Hx Hxy.
    eapply linked_trans; [done|]. apply linked_step, Hadj; [|done]. by apply (sy_span _ _ Hs).
  - intros p c Hc. apply adj_added. left. by apply (sy_edge _ _ Hs).
  - intros c Hc. destruct (sy_real _ _ Hs c Hc) as (? & e & ? & ?). split; [done|].
    exists e. rewrite Hedges. auto.
  - intros u v Huv Hu. apply (sy_once _ _ Hs); auto.
Qed.

Lemma not_tree_edge w : in_sync g w -> ~ (child w (e_src e1) (e_tgt e1) \/ child w (e_tgt e1) (e_src e1)).
Proof.
  intros Hs [H|H]; apply (sy_edge _ _ Hs) in H; [done|]. by apply new_rev.
Qed.

Lemma parent_child w v r : is_tree w -> tv_tree w !! v = Some r -> vr_parent r <> null_vertex ->
  child w (vr_parent r) v.
Proof.
  intros Ht Hv Hp. pose proof (proj1 (tv_vertex_exists_not _ _) (it_null _ Ht)) as Hnull.
  assert (Hgp : tv_get_parent w v = Ret (vr_parent r)) by (apply get_parent_iff; eauto).
  destruct (decide (v = tv_root w)) as [->|Hne].
  { rewrite (it_root _ Ht) in Hgp. congruence. }
  destruct (it_parent _ Ht v) as (p & Hp' & Hc); [apply tv_vertex_exists_iff; by apply elem_of_dom_2 in Hv|done|].
  congruence.
Qed.

Lemma edge_exists_spec w a b : is_tree w -> a ∈ dom (tv_tree w) -> b ∈ dom (tv_tree w) ->
  exists r, tv_edge_exists w a b = Ret r /\ (r = true <-> child w a b \/ child w b a).
Proof.
  intros Ht Ha Hb. pose proof (proj1 (tv_vertex_exists_not _ _) (it_null _ Ht)) as Hnull.
  assert (Ha0 : a <> null_vertex) by (intros ->; done). assert (Hb0 : b <> null_vertex) by (intros ->; done).
  apply elem_of_dom in Ha as [ra Ha], Hb as [rb Hb]. unfold tv_edge_exists. rewrite Ha, Hb.
  destruct (Nat.eqb_spec (vr_parent ra) b) as [Hp|Hp].
  - assert (Hc : child w b a) by (rewrite <- Hp; apply parent_child; [done|done|congruence]).
    destruct Hc as (r & Hr & Hin). replace r with rb in * by congruence.
    rewrite bool_decide_true by done. exists true. split; [done|]. split; [|done]. intros _. right. by exists rb.
  - destruct (Nat.eqb_spec (vr_parent rb) a) as [Hp'|Hp'].
    + assert (Hc : child w a b) by (rewrite <- Hp'; apply parent_child; [done|done|congruence]).
      destruct Hc as (r & Hr & Hin). replace r with ra in * by congruence.
      rewrite bool_decide_true by done. exists true. split; [done|]. split; [|done]. intros _. left. by exists ra.
    + exists false. split; [done|]. split; [done|]. intros [Hc|Hc]; apply (it_child _ Ht) in Hc as [_ Hc];
        apply get_parent_iff in Hc as (r & Hr & Hc); try done; congruence.
Qed.

Lemma sync_both w : in_sync g w -> tv_vertex_exists w (e_src e1) = true ->
  tv_vertex_exists w (e_tgt e1) = true ->
  in_sync g' (tv_add_cross (e_src e1) (e_tgt e1) (e_id e1) w).
Proof.
  intros Hs H1 H2. set (w' := tv_add_cross _ _ _ w).
  assert (Hsp : forall v, linked (adjacent g') (tv_root w) v -> linked (adjacent g) (tv_root w) v).
  { apply linked_ind_r; [apply linked_refl|]. intros x y _ Hx [Hxy|[[_ ->]|[_ ->]]]%adj_added.
    - eapply linked_trans; [done|]. by apply linked_step.
    - by apply (sy_span _ _ Hs).
    - by apply (sy_span _ _ Hs). }
  split.
  - destruct (sy_tree _ _ Hs). by split.
  - rewrite Hsame. apply (sy_alive _ _ Hs).
  - intros v. change (tv_vertex_exists w' v) with (tv_vertex_exists w v).
    change (tv_root w') with (tv_root w). rewrite (sy_span _ _ Hs). split; [apply linked_adj_mono|apply Hsp].
  - intros p c Hc. apply adj_added. left. by apply (sy_edge _ _ Hs).
  - intros c. change (tv_cross w') with (tv_cross w ++ [Cross (e_src e1) (e_tgt e1) (e_id e1)]).
    intros [Hc|Hc]%elem_of_app.
    + destruct (sy_real _ _ Hs c Hc) as (? & e & ? & ?). split; [done|]. exists e. rewrite Hedges. auto.
    + apply elem_of_list_singleton in Hc as ->. cbn. split; [done|]. exists e1. rewrite Hedges. auto.
  - intros u v Huv Hu. change (tv_cross w') with (tv_cross w ++ [Cross (e_src e1) (e_tgt e1) (e_id e1)]).
    change (child w') with (child w). rewrite filter_app, filter_cons, filter_nil.
    apply adj_added in Huv as [Huv|Hnewp].
    + rewrite decide_False.
      { rewrite app_nil_r. by apply (sy_once _ _ Hs). }
      intros [[<- <-]|[<- <-]]; [done|]. by apply new_rev.
    + right. rewrite decide_True.
      2:{ destruct Hnewp as [[-> ->]|[-> ->]]; [left|right]; done. }
      rewrite no_cross_between; [|done|].
      * split; [|done]. pose proof (not_tree_edge w Hs). destruct Hnewp as [[-> ->]|[-> ->]]; tauto.
      * destruct Hnewp as [[-> ->]|[-> ->]]; [done|by apply new_rev].
Qed.

(** One end is in the view: what hangs on the other end joins the tree. *)
Lemma sync_join w inv notinv flt tr :
  (inv = e_src e1 /\ notinv = e_tgt e1) \/ (inv = e_tgt e1 /\ notinv = e_src e1) ->
  in_sync g w -> tv_vertex_exists w inv = true -> tv_vertex_exists w notinv = false ->
  bg_alive g notinv = true ->
  (forall e, e ∈ dg_edges g' -> flt e = true <-> e ∈ dg_edges g) ->
  bfs_trace g' flt notinv = Ret tr ->
  in_sync g' (build_tree tr (tv_add_edge inv notinv w)) /\
  tv_root (build_tree tr (tv_add_edge inv notinv w)) = tv_root w /\
  tv_pub (build_tree tr (tv_add_edge inv notinv w)) = tv_pub w.
Proof.
  intros Hio Hs Hinv Hnot Hal Hflt Htr.
  destruct (bfs_trace_spec einv g' flt notinv Hwf') as (tr0 & Htr0 & Htw & Hres); [by rewrite Hsame|].
  rewrite Htr in Htr0. injection Htr0 as ->. rename tr0 into tr. set (ftr := BDiscover notinv :: tr) in *.
  pose proof (sy_tree _ _ Hs) as Hit.
  apply tv_vertex_exists_iff in Hinv as Hinvd. apply tv_vertex_exists_not in Hnot as Hnotd.
  assert (Hne : inv <> notinv) by congruence.
  assert (Hnn : notinv <> null_vertex) by by apply (alive_null einv g).
  assert (Hnx : forall u v, next (fout g' flt) u v <-> adjacent g u v).
  { intros u v. split.
    - intros (e & (Hf & <- & He)%elem_fout & <-). exists e. split; [|done]. by apply Hflt.
    - intros (e & He & <- & <-). assert (He' : e ∈ dg_edges g') by (apply Hedges; auto).
      exists e. rewrite elem_fout. split; [|done]. split; [by apply Hflt|done]. }
  assert (Hdisc : forall v, v = notinv \/ v ∈ dset tr <-> linked (adjacent g) notinv v).
  { intros v. rewrite <- dset_disc by done. fold ftr. rewrite (br_disc _ _ _ Hres). by apply linked_iff. }
  assert (Hdisj : forall v, linked (adjacent g) notinv v -> tv_vertex_exists w v = true -> False).
  { intros v Hl Hv. apply (sy_span _ _ Hs) in Hv. apply tv_vertex_exists_not in Hnotd.
    assert (tv_vertex_exists w notinv = true); [|congruence]. apply (sy_span _ _ Hs).
    eapply linked_trans; [done|]. apply linked_sym; [|done]. intros x y. by apply adjacent_sym. }
  pose proof (is_tree_add inv notinv w Hit Hinvd Hnotd Hnn) as Hit1.
  pose proof (null_not_dset g' flt notinv ftr Hwf' Hres : null_vertex ∉ dset tr) as Hnull.
  destruct (build_spec tr (tv_add_edge inv notinv w) Hit1) as (H1 & H2 & H3 & H4 & H5 & H6); [|done|].
  { rewrite add_edge_dom by done. rewrite (union_comm_L {[notinv]}). apply tw_mono; [done|].
    intros v Hv Hvw. eapply Hdisj; [apply Hdisc; by right|by apply tv_vertex_exists_iff]. }
  change (build_tree ftr (tv_add_edge inv notinv w)) with (build_tree tr (tv_add_edge inv notinv w)).
  set (w' := build_tree tr (tv_add_edge inv notinv w)) in *.
  change (tv_root (tv_add_edge inv notinv w)) with (tv_root w) in H2.
  change (tv_cross (tv_add_edge inv notinv w)) with (tv_cross w) in H5.
  rewrite add_edge_dom in H3 by done.
  assert (Hin : forall v, tv_vertex_exists w' v = true <->
            tv_vertex_exists w v = true \/ linked (adjacent g) notinv v).
  { intros v. rewrite tv_vertex_exists_iff, H3, <- Hdisc, tv_vertex_exists_iff. set_solver. }
  assert (Hch : forall p c, child w' p c <-> child w p c \/ (p = inv /\ c = notinv) \/
            exists e, BTree e ∈ ftr /\ e_src e = p /\ e_tgt e = c).
  { intros p c. rewrite H4, add_edge_child by done. split.
    - intros [[?|?]|(e & ? & ?)]; [auto|auto|]. right. right. exists e. split; [by right|done].
    - intros [?|[?|(e & He & ?)]]; [auto|auto|]. right. exists e. split; [|done].
      by apply elem_of_cons in He as [?|?]. }
  assert (Htree : forall e, BTree e ∈ ftr -> e ∈ dg_edges g /\
            linked (adjacent g) notinv (e_src e) /\ linked (adjacent g) notinv (e_tgt e)).
  { intros e He. destruct (br_tree _ _ _ Hres e He) as (_ & Hx & Hy & Hz & _).
    apply (br_disc _ _ _ Hres) in Hy, Hz. rewrite linked_iff in Hy, Hz by done.
    apply elem_fout in Hx as (? & _ & ?). split; [by apply Hflt|done]. }
  assert (Hgray : forall e, e ∈ ge tr -> e ∈ dg_edges g /\ linked (adjacent g) notinv (e_src e)).
  { intros e He. change (ge tr) with (ge ftr) in He. apply elem_ge in He.
    assert (Hxe : e ∈ ex ftr) by (apply elem_ex; auto).
    assert (Hxf : e ∈ filter (fun y => e_src y = e_src e) (ex ftr)) by by apply elem_of_list_filter.
    rewrite (br_ex _ _ _ Hres) in Hxf. case_decide as Hd; [|by apply elem_of_nil in Hxf].
    apply (br_disc _ _ _ Hres) in Hd. rewrite linked_iff in Hd by done.
    apply elem_fout in Hxf as (? & _ & ?). split; [by apply Hflt|done]. }
  assert (Hgray2 : forall e, e ∈ ge tr -> linked (adjacent g) notinv (e_tgt e)).
  { intros e He. destruct (Hgray e He) as [Hg Hl]. eapply linked_trans; [done|]. apply linked_step. by exists e. }
  assert (Hadj : forall u v, adjacent g' u v <->
            adjacent g u v \/ (u = inv /\ v = notinv) \/ (u = notinv /\ v = inv)).
  { intros u v. rewrite adj_added. destruct Hio as [[-> ->]|[-> ->]]; tauto. }
  assert (Hnadj : ~ adjacent g inv notinv /\ ~ adjacent g notinv inv).
  { pose proof new_rev. destruct Hio as [[-> ->]|[-> ->]]; done. }
  (* no gray edge touches the old part of the view *)
  assert (Hgfil : forall u v, tv_vertex_exists w u = true \/ tv_vertex_exists w v = true ->
            filter (between u v) (cross_of <$> ge tr) = []).
  { intros u v Huv. apply filter_none. intros c (e & -> & He)%elem_of_list_fmap [[Ha Hb]|[Ha Hb]]; cbn in Ha, Hb;
      destruct Huv as [Huv|Huv]; subst u v; (eapply Hdisj; [|exact Huv]); first [by apply Hgray2|by apply Hgray]. }
  split; [|split; [done|done]]. split.
  - done.
  - rewrite H2, Hsame. apply (sy_alive _ _ Hs).
  - intros v. rewrite Hin, H2. split.
    + assert (Hri : linked (adjacent g') (tv_root w) inv) by by apply linked_adj_mono, (sy_span _ _ Hs).
      intros [Hv|Hv]; [by apply linked_adj_mono, (sy_span _ _ Hs)|].
      eapply linked_trans; [done|]. eapply linked_trans; [apply linked_step, Hadj; eauto|].
      by apply linked_adj_mono.
    + revert v. apply linked_ind_r; [left; apply (it_rootin _ Hit)|].
      intros x y _ [Hx|Hx] Hxy%Hadj.
      * destruct Hxy as [Hxy|[[-> ->]|[-> ->]]]; [|right; apply linked_refl|by left].
        left. apply (sy_span _ _ Hs). apply (sy_span _ _ Hs) in Hx. eapply linked_trans; [done|]. by apply linked_step.
      * destruct Hxy as [Hxy|[[-> ->]|[-> ->]]]; [|right; apply linked_refl|by left].
        right. eapply linked_trans; [done|]. by apply linked_step.
  - intros p c [Hc|[[-> ->]|(e & He & <- & <-)]]%Hch; apply Hadj.
    + left. by apply (sy_edge _ _ Hs).
    + auto.
    + left. exists e. by destruct (Htree e He).
  - intros c. rewrite H5. intros [Hc|(e & -> & He)%elem_of_list_fmap]%elem_of_app.
    + destruct (sy_real _ _ Hs c Hc) as (? & e & ? & ?). rewrite Hin. split; [auto|]. exists e. rewrite Hedges. auto.
    + destruct (Hgray e He). cbn. rewrite Hin. split; [auto|]. exists e. rewrite Hedges. auto.
  - intros u v Huv Hu. rewrite H5, filter_app, !Hch.
    assert (Hcw : forall a b, linked (adjacent g) notinv a \/ linked (adjacent g) notinv b -> ~ child w a b).
    { intros a b Hab Hc. destruct (child_dom w a b Hit Hc) as [Hx Hy].
      apply tv_vertex_exists_iff in Hx, Hy. destruct Hab as [Hab|Hab]; by eapply Hdisj. }
    assert (Hcr : forall a b, linked (adjacent g) notinv a \/ linked (adjacent g) notinv b ->
              filter (between a b) (tv_cross w) = []).
    { intros a b Hab. apply filter_none. intros c Hc Hb.
      destruct (sy_real _ _ Hs c Hc) as (Ho & e & He & Hes & Het & _).
      assert (Ht : tv_vertex_exists w (ce_target c) = true).
      { apply (sy_span _ _ Hs) in Ho. apply (sy_span _ _ Hs). eapply linked_trans; [done|]. apply linked_step. by exists e. }
      destruct Hb as [[<- <-]|[<- <-]]; destruct Hab as [Hab|Hab]; by eapply Hdisj. }
    apply Hadj in Huv as [Huv|Hnp].
    + apply Hin in Hu as [Hu|Hu].
      * assert (Hv : tv_vertex_exists w v = true).
        { apply (sy_span _ _ Hs) in Hu. apply (sy_span _ _ Hs). eapply linked_trans; [done|]. by apply linked_step. }
        rewrite Hgfil, app_nil_r by auto.
        assert (Hn : forall a b, tv_vertex_exists w a = true -> tv_vertex_exists w b = true ->
                  ~ ((a = inv /\ b = notinv) \/ exists e, BTree e ∈ ftr /\ e_src e = a /\ e_tgt e = b)).
        { intros a b Ha Hb [[-> ->]|(e & He & <- & <-)]; [congruence|].
          destruct (Htree e He) as (_ & Hx & _). by eapply Hdisj. }
        pose proof (Hn u v Hu Hv). pose proof (Hn v u Hv Hu).
        destruct (sy_once _ _ Hs u v Huv Hu) as [[? ?]|[? ?]]; [left|right]; (split; [tauto|done]).
      * assert (Hv : linked (adjacent g) notinv v) by (eapply linked_trans; [done|]; by apply linked_step).
        rewrite Hcr by auto. cbn [app]. destruct Huv as (e & He & <- & <-).
        assert (He' : e ∈ dg_edges g') by (apply Hedges; auto).
        destruct (wf_inv einv g Hwf e He) as (er & Her & Hes & Het & _).
        assert (Her' : er ∈ dg_edges g') by (apply Hedges; auto).
        rewrite (tree_edge_iff g' flt notinv ftr e), (tree_edge_iff g' flt notinv ftr er) by done.
        assert (Hx1 : ~ child w (e_src e) (e_tgt e)) by auto.
        assert (Hx2 : ~ child w (e_tgt e) (e_src e)) by auto.
        assert (Hx3 : ~ (e_src e = inv /\ e_tgt e = notinv)).
        { intros [Hi _]. rewrite Hi in Hu. exact (Hdisj inv Hu Hinv). }
        assert (Hx4 : ~ (e_tgt e = inv /\ e_src e = notinv)).
        { intros [Hi _]. rewrite Hi in Hv. exact (Hdisj inv Hv Hinv). }
        change (ge tr) with (ge ftr).
        destruct (pair_once g' flt notinv ftr e er) as [[? ?]|[? ?]]; try done.
        -- by apply Hflt.
        -- by apply Hflt.
        -- apply (br_disc _ _ _ Hres). by apply (linked_iff _ _ _ _ Hnx).
        -- left. split; [tauto|done].
        -- right. split; [tauto|done].
    + left. rewrite Hgfil by (destruct Hnp as [[-> ->]|[-> ->]]; auto).
      rewrite app_nil_r. split; [destruct Hnp as [[-> ->]|[-> ->]]; auto|].
      apply Hcr. destruct Hnp as [[-> ->]|[-> ->]]; [right|left]; apply linked_refl.
Qed.

End added.

End sync.
