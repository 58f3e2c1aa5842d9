(** Proofs about visiting a tree view with functions that use the graph. *)
From stdpp Require Import prelude strings gmap.
From Verif Require Import ListLib Outcome Digraph Bfs TreeView GraphModel GraphOps GraphWf GraphStep
  SpecObs SpecView GraphStore GraphRefine GraphThms SpecWalk WalkThms BfsThms BfsFind SpecTree BuildThms SyncThms
  SpecSearch GraphSearch ViewStep ViewSync ViewRun ViewFollow ViewObjModel SpecViewObj ViewObjThms ViewLifeThms VisitThms RemoveThms
  HandlerModel SpecHandler VisitModel SpecVisit VisitLoop VisitViewModel SpecVisitView.

Section thms.
Context {D E : Type} (d0 : D) (einv : E -> E) (i : viewid).
Implicit Types s : gst D E.
Local Notation reachable := (reachable d0 einv).
Local Notation body := (body d0 einv).

Lemma set_view_id s w : gs_views s !! i = Some w -> gs_set_view i w s = s.
Proof. intros H. unfold gs_set_view. rewrite insert_id by done. by destruct s. Qed.
Lemma touch_id v w : is_Some (tv_tree w !! v) -> tv_touch v w = w.
Proof. intros [r Hr]. unfold tv_touch. by rewrite Hr. Qed.

(** *** The tree stays *)
Section still.
Context {C : Type} (z : vfun D E C) (w : tview) (n : vid) (ord : order).
Hypothesis Ht : is_tree w.
Hypothesis Hn : tv_vertex_exists w n = true.
Hypothesis Hord : ord_ok ord.
Variable K : gst D E -> Prop.
Hypothesis K_view : forall s, K s -> exists w', gs_views s !! i = Some w' /\ tv_tree w' = tv_tree w /\ tv_log w' = tv_log w.
Hypothesis K_run : forall c v p s s' ev r, K s -> body (vf_do z c v p s) s = (s', ev, r) -> ended r -> K s'.
Hypothesis K_reach : forall s, K s -> reachable s.
Local Notation winv := (winv w n).
Local Notation pairs := (fmap (M := list) (fun v => (v, vr_parent (tv_rel (tv_tree w) v)))).

Lemma pair_parent pre q v : winv pre q -> v ∈ pre ++ q -> exists r, tv_tree w !! v = Some r /\ tv_get_parent w v = Ret (vr_parent r) /\ vr_parent (tv_rel (tv_tree w) v) = vr_parent r.
Proof.
  intros Hw Hv. assert (Hd : v ∈ dom (tv_tree w)) by (eapply (below_in w); [done|exact Hn|by eapply (wi_below _ _ _ _ Hw)]).
  apply elem_of_dom in Hd as [r Hr]. exists r. split; [done|]. unfold tv_rel, tv_get_parent. rewrite Hr. split; [|done].
  destruct (Nat.eqb_spec v null_vertex) as [->|]; [|done]. pose proof (it_null _ Ht) as Hnull. unfold tv_vertex_exists in Hnull. rewrite Hr in Hnull. by apply bool_decide_eq_false in Hnull; destruct Hnull.
Qed.

Lemma winv_begins pre q : winv pre q -> begins_visit w n (pairs pre).
Proof.
  intros Hw. pose proof Hw as [H1 H2 H3 H4 H5 H6]. split.
  - rewrite <- list_fmap_compose. change (NoDup (id <$> pre)). rewrite list_fmap_id. by apply NoDup_app in H1 as [? _].
  - intros v p (x & [= -> ->] & Hx)%elem_of_list_fmap. assert (Hxq : x ∈ pre ++ q) by (apply elem_of_app; auto). split; [by apply H2|].
    destruct (pair_parent pre q x Hw Hxq) as (r & _ & -> & ->). done.
  - intros k v p Hk Hne. apply list_lookup_fmap_inv in Hk as (x & [= -> ->] & Hk). destruct (H6 k x Hk Hne) as (k' & p & Hlt & Hk' & Hc).
    exists k', (vr_parent (tv_rel (tv_tree w) p)). split; [done|]. rewrite list_lookup_fmap, Hk'. cbn.
    assert (Hxq : x ∈ pre ++ q) by (apply elem_of_app; left; by eapply elem_of_list_lookup_2).
    destruct (pair_parent pre q x Hw Hxq) as (r & Hr & Hg & Hp). destruct (it_child _ Ht p x Hc) as [_ Hg']. rewrite Hp. do 3 f_equal. congruence.
Qed.
Lemma winv_visits pre : winv pre [] -> visits w n (pairs pre).
Proof.
  intros Hw. pose proof (winv_begins pre [] Hw) as [B1 B2 B3]. pose proof Hw as [H1 H2 H3 H4 H5 H6]. rewrite app_nil_r in *. split; [done| |done].
  intros v p. split; [apply B2|]. intros [Hl Hg]. assert (Hv : v ∈ pre).
  { clear Hg. revert v Hl. apply linked_ind_r; [done|]. intros x y _ Hx Hxy. by apply (H4 x y). }
  apply elem_of_list_fmap. exists v. split; [|done]. destruct (pair_parent pre [] v Hw) as (r & _ & Hg' & Hp); [by rewrite app_nil_r|]. rewrite Hp. congruence.
Qed.

Lemma bfs_still m : forall c q s pre s' seen ev r, K s -> winv pre q -> size (tv_tree w) <= m + length pre ->
  bfs_loop d0 einv i ord z m c q (s, pairs pre) = ((s', seen), ev, r) -> (K s' /\ whole_visit d0 einv z w n seen r) \/ run_fails d0 einv z r.
Proof.
  induction m as [|m IH]; intros c q s pre s' seen ev r HK Hw Hsz Hr.
  - destruct q as [|cur q]; cbn [bfs_loop] in Hr.
    + injection Hr as <- <- <- <-. left. split; [done|]. left. split; [done|]. by apply winv_visits.
    + exfalso. pose proof (winv_size w Ht n Hn pre (cur :: q) Hw) as Hz. cbn in Hz, Hsz. lia.
  - destruct q as [|cur q]; cbn [bfs_loop fst snd] in Hr.
    + injection Hr as <- <- <- <-. left. split; [done|]. left. split; [done|]. by apply winv_visits.
    + destruct (K_view s HK) as (w0 & Hw0 & Ht0 & Hl0). rewrite Hw0 in Hr.
      destruct (pair_parent pre (cur :: q) cur Hw) as (rel & Hrel & Hg & Hp); [apply elem_of_app; right; by left|].
      assert (Hg0 : tv_get_parent w0 cur = Ret (vr_parent rel)) by (rewrite <- Hg; unfold tv_get_parent; by rewrite Ht0). rewrite Hg0 in Hr.
      destruct (body (vf_do z c cur (vr_parent rel) s) s) as [[s1 ev1] r1] eqn:H1. pose proof (K_run _ _ _ _ _ _ _ HK H1) as HK1.
      assert (Hseen : pairs pre ++ [(cur, vr_parent rel)] = pairs (pre ++ [cur])) by (rewrite fmap_app; cbn; by rewrite Hp).
      destruct r1 as [[]|x| |]; [| |(injection Hr as <- <- <- <-; right; split; [by intros [[??]|[??]]|]; eexists _, _, _, s, _, _; split; [by apply K_reach|exact H1])..].
      * assert (HK2 : K s1) by (apply HK1; left; by eexists). clear HK1. rename HK2 into HK1. destruct (K_view s1 HK1) as (w1 & Hw1 & Ht1 & Hl1). rewrite Hw1, touch_id, set_view_id in Hr by (rewrite ?Ht1, ?Hrel; done).
        rewrite Hseen in Hr. destruct (bfs_loop _ _ _ _ _ _ _ _ _) as [[[s3 seen3] ev3] r3] eqn:H3. injection Hr as <- <- <- <-.
        eapply IH; [exact HK1| | |exact H3]; [|rewrite app_length; cbn; lia].
        eapply (winv_step w); try done. rewrite Ht1. unfold tv_rel. rewrite Hrel. cbn. by rewrite (Hord w1 cur _).
      * injection Hr as <- <- <- <-. left. split; [apply HK1; right; by eexists|]. right. exists x. split; [done|]. rewrite Hseen. split; [by destruct pre|].
        split; [eapply winv_begins; eapply (winv_step w); try done|]. eexists _, cur, _, s, _, _. split; [by apply K_reach|]. split; [|exact H1].
        rewrite <- Hseen. by rewrite last_snoc.
Qed.

Lemma refs_good w1 w2 v : tv_tree w1 = tv_tree w -> tv_tree w2 = tv_tree w -> tv_log w1 = tv_log w -> tv_log w2 = tv_log w -> v ∈ dom (tv_tree w) ->
  reference_good w1 w2 v = true.
Proof.
  intros T1 T2 L1 L2 [r Hr]%elem_of_dom. unfold reference_good. rewrite T1, T2, L1, L2, Hr, drop_all. by rewrite bool_decide_eq_true_2.
Qed.

Lemma dfs_still m : forall c todo s pre s' seen ev r, K s -> winv pre (fst <$> todo) -> size (tv_tree w) <= m + length pre ->
  Forall (fun x => Forall (fun v => v ∈ dom (tv_tree w)) (fst (snd x))) todo ->
  dfs_loop d0 einv i ord z m c todo (s, pairs pre) = ((s', seen), ev, r) -> (K s' /\ whole_visit d0 einv z w n seen r) \/ run_fails d0 einv z r.
Proof.
  induction m as [|m IH]; intros c q s pre s' seen ev r HK Hw Hsz Hall Hr.
  - destruct q as [|[cur [above old]] q]; cbn [dfs_loop] in Hr.
    + injection Hr as <- <- <- <-. left. split; [done|]. left. split; [done|]. by apply winv_visits.
    + exfalso. pose proof (winv_size w Ht n Hn pre _ Hw) as Hz. cbn in Hz, Hsz. lia.
  - destruct q as [|[cur [above old]] q]; cbn [dfs_loop fst snd] in Hr.
    + injection Hr as <- <- <- <-. left. split; [done|]. left. split; [done|]. by apply winv_visits.
    + destruct (K_view s HK) as (w0 & Hw0 & Ht0 & Hl0). rewrite Hw0 in Hr. cbn [fmap list_fmap fst] in Hw. apply list.Forall_cons in Hall as [Hab Hall]. cbn in Hab.
      destruct (pair_parent pre (cur :: (fst <$> q)) cur Hw) as (rel & Hrel & Hg & Hp); [apply elem_of_app; right; by left|].
      rewrite Ht0, Hrel in Hr.
      destruct (body (vf_do z (vf_copy z old c) cur (vr_parent rel) s) s) as [[s1 ev1] r1] eqn:H1. pose proof (K_run _ _ _ _ _ _ _ HK H1) as HK1.
      assert (Hseen : pairs pre ++ [(cur, vr_parent rel)] = pairs (pre ++ [cur])) by (rewrite fmap_app; cbn; by rewrite Hp).
      assert (Hdom : Forall (fun v => v ∈ dom (tv_tree w)) (cur :: above)) by (apply list.Forall_cons; split; [by apply elem_of_dom|done]).
      destruct r1 as [[]|x| |]; [| |(injection Hr as <- <- <- <-; right; split; [by intros [[??]|[??]]|]; eexists _, _, _, s, _, _; split; [by apply K_reach|exact H1])..].
      * assert (HK2 : K s1) by (apply HK1; left; by eexists). clear HK1. rename HK2 into HK1. destruct (K_view s1 HK1) as (w1 & Hw1 & Ht1 & Hl1). rewrite Hw1 in Hr.
        assert (Hgood : forallb (reference_good w0 w1) (cur :: above) = true).
        { apply forallb_forall. intros v Hv%elem_of_list_In. rewrite list.Forall_forall in Hdom. apply refs_good; try done. by apply Hdom. }
        rewrite Hgood, Hseen in Hr. destruct (dfs_loop _ _ _ _ _ _ _ _ _) as [[[s3 seen3] ev3] r3] eqn:H3. injection Hr as <- <- <- <-.
        eapply IH; [exact HK1| | | |exact H3]; [|rewrite app_length; cbn; lia|].
        -- eapply (winv_step w); try done. rewrite Ht1. unfold tv_rel. rewrite Hrel. cbn. rewrite fmap_app, <- list_fmap_compose.
           change (fst ∘ (fun v : vid => (v, (cur :: above, vf_memory z (vf_copy z old c) cur (vr_parent rel) s)))) with (fun v : vid => v). rewrite list_fmap_id, (Hord w1 cur _). apply Permutation_app_comm.
        -- apply list.Forall_app. split; [|done]. apply list.Forall_fmap. apply list.Forall_true. done.
      * injection Hr as <- <- <- <-. left. split; [apply HK1; right; by eexists|]. right. exists x. split; [done|]. rewrite Hseen. split; [by destruct pre|].
        split; [eapply (winv_begins _ ((fst <$> q) ++ vr_children rel)); eapply (winv_step w); try done|]. eexists _, cur, _, s, _, _.
        split; [by apply K_reach|]. split; [|exact H1]. rewrite <- Hseen. by rewrite last_snoc.
Qed.

Lemma bfs_whole m c s s' seen ev r : K s -> size (tv_tree w) <= m -> view_bfs d0 einv i ord z m c n (s, []) = ((s', seen), ev, r) -> (K s' /\ whole_visit d0 einv z w n seen r) \/ run_fails d0 einv z r.
Proof. intros HK Hm Hr. eapply (bfs_still m c [n] s []); [done|by apply winv_init|cbn; lia|exact Hr]. Qed.
Lemma dfs_whole m c s s' seen ev r : K s -> size (tv_tree w) <= m -> view_dfs d0 einv i ord z m c n (s, []) = ((s', seen), ev, r) -> (K s' /\ whole_visit d0 einv z w n seen r) \/ run_fails d0 einv z r.
Proof. intros HK Hm Hr. eapply (dfs_still m c [(n, ([], c))] s []); [done|by apply winv_init|cbn; lia| |exact Hr]. apply list.Forall_singleton. apply list.Forall_nil. done. Qed.
End still.

Lemma body_frozen sc s s' ev r w : calls_only (fun op => op_not i op /\ op_no_slot i op) sc -> frozen i s w -> body sc s = (s', ev, r) -> frozen i s' w.
Proof.
  intros Hc. revert s s' ev r. induction Hc as [|x|ord op k [Hn Hs] Hk IH]; intros s s' ev r Hf Hb; cbn [VisitModel.body] in Hb; [by injection Hb as <- _ _..|].
  destruct (gstep d0 einv ord op s) as [[s1 ev1] r1] eqn:H1. pose proof (gstep_frozen d0 einv i ord op s s1 ev1 r1 w Hn Hs Hf H1) as Hf1.
  destruct r1; try (by injection Hb as <- _ _); destruct (body (k s1 _) s1) as [[s2 ev2] r2] eqn:H2; injection Hb as <- _ _; by eapply IH.
Qed.
Lemma ended_ok (r : outcome unit) : ended r -> ok r.
Proof. by intros [[? ->]|[? ->]]. Qed.

Section instances.
Context {C : Type} (z : vfun D E C).
Hypothesis Hz : noself_fun z.
Definition KF w s : Prop := reachable s /\ frozen i s w.
Definition KS w s : Prop := reachable s /\ exists w', gs_views s !! i = Some w' /\ tv_tree w' = tv_tree w /\ tv_log w' = tv_log w.
Lemma body_reach c v p s s' ev r : reachable s -> body (vf_do z c v p s) s = (s', ev, r) -> ended r -> reachable s'.
Proof. intros Hs Hb Hr. eapply (body_evolves d0 einv); [exact Hs|apply Hz|exact Hb|by apply ended_ok]. Qed.

Lemma KF_run w c v p s s' ev r : spares_view i z -> KF w s -> body (vf_do z c v p s) s = (s', ev, r) -> ended r -> KF w s'.
Proof. intros Hsp [Hs Hf] Hb Hr. split; [by eapply body_reach|]. eapply body_frozen; [apply Hsp|done|done]. Qed.
Lemma KS_run w c v p s s' ev r : each_vrun d0 einv z (view_still i) -> KS w s -> body (vf_do z c v p s) s = (s', ev, r) -> ended r -> KS w s'.
Proof.
  intros He [Hs (w1 & Hw1 & Ht1 & Hl1)] Hb Hr. split; [by eapply body_reach|]. destruct (He _ _ _ _ _ _ _ Hs Hb w1 Hw1) as (w2 & Hw2 & Ht2 & Hl2).
  exists w2. split; [done|]. split; congruence.
Qed.

Theorem frozen_bfs w n ord m c s s' seen ev r : is_tree w -> tv_vertex_exists w n = true -> ord_ok ord -> size (tv_tree w) <= m ->
  spares_view i z -> reachable s -> gs_views s !! i = Some w -> i ∉ gs_subs s ->
  view_bfs d0 einv i ord z m c n (s, []) = ((s', seen), ev, r) ->
  (gs_views s' !! i = Some w /\ whole_visit d0 einv z w n seen r) \/ run_fails d0 einv z r.
Proof.
  intros Ht Hn Ho Hm Hsp Hs Hw Hi Hr. destruct (bfs_whole z w n ord Ht Hn Ho (KF w)) with (m := m) (c := c) (s := s) (s' := s') (seen := seen) (ev := ev) (r := r)
    as [[[_ [HK _]] Hv]|Hf]; try done; [|by intros ?????????; eapply KF_run|by intros ? []|by left|by right].
  intros s1 [_ [Hw1 _]]. by exists w.
Qed.
Theorem frozen_dfs w n ord m c s s' seen ev r : is_tree w -> tv_vertex_exists w n = true -> ord_ok ord -> size (tv_tree w) <= m ->
  spares_view i z -> reachable s -> gs_views s !! i = Some w -> i ∉ gs_subs s ->
  view_dfs d0 einv i ord z m c n (s, []) = ((s', seen), ev, r) ->
  (gs_views s' !! i = Some w /\ whole_visit d0 einv z w n seen r) \/ run_fails d0 einv z r.
Proof.
  intros Ht Hn Ho Hm Hsp Hs Hw Hi Hr. destruct (dfs_whole z w n ord Ht Hn Ho (KF w)) with (m := m) (c := c) (s := s) (s' := s') (seen := seen) (ev := ev) (r := r)
    as [[[_ [HK _]] Hv]|Hf]; try done; [|by intros ?????????; eapply KF_run|by intros ? []|by left|by right].
  intros s1 [_ [Hw1 _]]. by exists w.
Qed.
Theorem still_bfs w n ord m c s s' seen ev r : is_tree w -> tv_vertex_exists w n = true -> ord_ok ord -> size (tv_tree w) <= m ->
  each_vrun d0 einv z (view_still i) -> reachable s -> gs_views s !! i = Some w ->
  view_bfs d0 einv i ord z m c n (s, []) = ((s', seen), ev, r) ->
  (view_still i s s' ev r /\ whole_visit d0 einv z w n seen r) \/ run_fails d0 einv z r.
Proof.
  intros Ht Hn Ho Hm Hsp Hs Hw Hr. destruct (bfs_whole z w n ord Ht Hn Ho (KS w)) with (m := m) (c := c) (s := s) (s' := s') (seen := seen) (ev := ev) (r := r)
    as [[[_ HK] Hv]|Hf]; try done; [by intros ? []|by intros ?????????; eapply KS_run|by intros ? []|by split; [|exists w]| |by right].
  left. split; [|done]. intros w0 Hw0. rewrite Hw in Hw0. by injection Hw0 as <-.
Qed.
Theorem still_dfs w n ord m c s s' seen ev r : is_tree w -> tv_vertex_exists w n = true -> ord_ok ord -> size (tv_tree w) <= m ->
  each_vrun d0 einv z (view_still i) -> reachable s -> gs_views s !! i = Some w ->
  view_dfs d0 einv i ord z m c n (s, []) = ((s', seen), ev, r) ->
  (view_still i s s' ev r /\ whole_visit d0 einv z w n seen r) \/ run_fails d0 einv z r.
Proof.
  intros Ht Hn Ho Hm Hsp Hs Hw Hr. destruct (dfs_whole z w n ord Ht Hn Ho (KS w)) with (m := m) (c := c) (s := s) (s' := s') (seen := seen) (ev := ev) (r := r)
    as [[[_ HK] Hv]|Hf]; try done; [by intros ? []|by intros ?????????; eapply KS_run|by intros ? []|by split; [|exists w]| |by right].
  left. split; [|done]. intros w0 Hw0. rewrite Hw in Hw0. by injection Hw0 as <-.
Qed.
End instances.

(** *** The tree grows *)
Definition grows (w w' : tview) : Prop := tv_root w' = tv_root w /\ forall p c, child w p c -> child w' p c.
Lemma grows_refl w : grows w w.
Proof. done. Qed.
Lemma grows_trans w1 w2 w3 : grows w1 w2 -> grows w2 w3 -> grows w1 w3.
Proof. intros [R1 C1] [R2 C2]. split; [congruence|auto]. Qed.
Lemma grows_add a b w : grows w (tv_add_edge a b w).
Proof. split; [done|]. intros p c Hc. rewrite child_add_edge. by left. Qed.
Lemma grows_build (tr : list (bev E)) w : grows w (build_tree tr w).
Proof.
  unfold build_tree. revert w. induction tr as [|b tr IH]; intros w; [done|]. cbn. eapply grows_trans; [|apply IH].
  destruct b as [v|e|e|e|v]; cbn [build_step]; try done. apply grows_add.
Qed.
Lemma grows_view s1 ne w w' r : add_edge_to_tree_view s1 ne w = (w', r) -> grows w w'.
Proof.
  assert (H2 : forall (tr : list (bev E)) a b, grows w (build_tree tr (tv_add_edge a b w))) by (intros; eapply grows_trans; [apply grows_add|apply grows_build]).
  unfold add_edge_to_tree_view. destruct (tv_vertex_exists _ _), (tv_vertex_exists _ _).
  - destruct (tv_edge_exists _ _ _) as [[]| | |]; intros [= <- _]; done.
  - destruct (bg_alive _ _); [|intros [= <- _]; apply grows_add]. case_bool_decide; [|intros [= <- _]; apply grows_add].
    destruct (obind _ _); intros [= <- _]; [apply H2|apply grows_add..].
  - destruct (bg_alive _ _); [|intros [= <- _]; apply grows_add]. case_bool_decide; [|intros [= <- _]; apply grows_add].
    destruct (obind _ _); intros [= <- _]; [apply H2|apply grows_add..].
  - by intros [= <- _].
Qed.
Lemma vsteps_grows (x y : digraph D E * tview) ev rf : vsteps einv x ev y -> growing rf ev -> grows (snd x) (snd y).
Proof.
  induction 1 as [x|x ev1 y ev2 z H1 H2 IH|g w k on c ev z H IH]; [done| |by destruct k].
  intros [Hg1 Hg2]%growing_app. apply (grows_trans _ (snd y)); [|by apply IH]. destruct Hg1 as [_ Hg1].
  destruct H1 as [|? ? ? ? ? ? ? ? ? ? ? ? ? ? Hadd|? fo ft|? fo ft]; cbn; [done|by eapply grows_view|exfalso; eapply (Hg1 fo ft); by left..].
Qed.

Lemma body_vsteps sc s s' ev r w : script_noself sc -> calls_only (fun op => op_not i op /\ op_no_slot i op) sc -> reachable s -> hasview i s w ->
  body sc s = (s', ev, r) -> ok r -> exists w', hasview i s' w' /\ vsteps einv (gs_dg s, w) ev (gs_dg s', w').
Proof.
  intros Hns Hc. revert s s' ev r w. induction Hc as [|x|ord op k [Hn Hs] Hk IH]; intros s s' ev r w Hre Hw Hb Hok; cbn [VisitModel.body] in Hb.
  - injection Hb as <- <- <-. exists w. split; [done|constructor].
  - injection Hb as <- <- <-. exists w. split; [done|constructor].
  - inversion Hns as [| |? ? ? Hno Hkn]; subst. destruct (gstep d0 einv ord op s) as [[s1 e1] r1] eqn:Hst.
    assert (Hok1 : ok r1). { destruct r1; try done; by injection Hb as <- <- <-. }
    assert (Hr1 : reachable s1) by by eapply reachable_step.
    destruct (gstep_vsteps d0 einv i ord op s s1 e1 r1 w) as (w1 & Hw1 & Hv1); try done; [by apply (reachable_wf d0)|by apply (reachable_subs_ok d0 einv)|].
    assert (exists e2, body (k s1 r1) s1 = (s', e2, r) /\ ev = e1 ++ e2) as (e2 & Hb2 & ->).
    { destruct r1; try done; destruct (body _ _) as [[s2 e2] r2]; injection Hb as <- <- <-; by exists e2. }
    destruct (IH s1 r1 (Hkn s1 r1) s1 s' e2 r w1 Hr1 Hw1 Hb2 Hok) as (w2 & Hw2 & Hv2). exists w2. split; [done|]. by eapply vsteps_app.
Qed.

Lemma parent_grows w w' v p : is_tree w -> is_tree w' -> grows w w' -> tv_get_parent w v = Ret p -> tv_get_parent w' v = Ret p.
Proof.
  intros Ht Ht' [Hr Hc] Hg. destruct (decide (v = tv_root w)) as [->|Hne].
  - rewrite (it_root _ Ht) in Hg. injection Hg as <-. rewrite <- Hr. apply (it_root _ Ht').
  - assert (Hv : tv_vertex_exists w v = true).
    { unfold tv_get_parent in Hg. destruct (_ =? _); [done|]. unfold tv_vertex_exists. destruct (tv_tree w !! v); [by apply bool_decide_eq_true|done]. }
    destruct (it_parent _ Ht v Hv Hne) as (p' & Hg' & Hch). rewrite Hg in Hg'. injection Hg' as <-. apply Hc in Hch. by destruct (it_child _ Ht' _ _ Hch).
Qed.

Section growth.
Context {C : Type} (z : vfun D E C) (w0 : tview) (n : vid) (ord : order) (rf : frameid).
Hypothesis Hz : noself_fun z.
Hypothesis Hsp : spares_view i z.
Hypothesis Hord : ord_ok ord.

Record ginv (w : tview) (l : list (vid * vid)) (q : list vid) : Prop := {
  gi_tree : is_tree w;
  gi_grow : grows w0 w;
  gi_there : tv_vertex_exists w n = true;
  gi_nodup : NoDup ((fst <$> l) ++ q);
  gi_below : forall v, v ∈ (fst <$> l) ++ q -> linked (child w) n v;
  gi_n : n ∈ (fst <$> l) ++ q;
  gi_par : forall v p, (v, p) ∈ l -> tv_get_parent w v = Ret p;
  gi_up : forall v, v ∈ (fst <$> l) ++ q -> v <> n -> exists p, p ∈ fst <$> l /\ child w p v;
  gi_old : forall v c, v ∈ fst <$> l -> child w0 v c -> c ∈ (fst <$> l) ++ q;
  gi_order : forall k v p, l !! k = Some (v, p) -> v <> n -> exists k' p', k' < k /\ l !! k' = Some (p, p') }.

Lemma grows_exists w w' v : is_tree w -> is_tree w' -> grows w w' -> tv_vertex_exists w v = true -> tv_vertex_exists w' v = true.
Proof.
  intros Ht Ht' Hg Hv. destruct (it_below _ Ht v Hv) as [l Hl]. apply tv_vertex_exists_iff. eapply (below_in w' Ht' (tv_root w')); [apply (it_rootin _ Ht')|].
  destruct Hg as [-> Hc]. eapply linked_mono; [exact Hc|]. by exists l.
Qed.
Lemma ginv_grow w w' l q : ginv w l q -> is_tree w' -> grows w w' -> ginv w' l q.
Proof.
  intros [H1 H2 H3 H4 H5 H6 H7 H8 H9 H10] Ht Hg. split; try done.
  - by eapply grows_trans.
  - by apply (grows_exists w).
  - intros v Hv. destruct Hg as [_ Hc]. eapply linked_mono; [exact Hc|]. by apply H5.
  - intros v p Hv. apply (parent_grows w); try done. by apply H7.
  - intros v Hv Hne. destruct (H8 v Hv Hne) as (p & Hp & Hc). exists p. split; [done|]. by apply Hg.
Qed.
Lemma ginv_step w l cur p q q' r : ginv w l (cur :: q) -> tv_get_parent w cur = Ret p -> tv_tree w !! cur = Some r -> q' ≡ₚ q ++ vr_children r ->
  ginv w (l ++ [(cur, p)]) q'.
Proof.
  intros Hi Hp Hr Hq. pose proof Hi as [H1 H2 H3 H4 H5 H6 H7 H8 H9 H10].
  assert (Hch : forall c, c ∈ vr_children r <-> child w cur c).
  { intros c. unfold child. rewrite Hr. split; [intros; by eexists|by intros (? & [= <-] & ?)]. }
  assert (Hcur : cur ∉ fst <$> l). { intros Hc. apply NoDup_app in H4 as (_ & Hd & _). apply (Hd cur Hc). by left. }
  assert (Hbel : linked (child w) n cur) by (apply H5, elem_of_app; right; by left).
  assert (Hnew : forall c, child w cur c -> c ∉ (fst <$> l) ++ cur :: q).
  { intros c Hc Hin. destruct (decide (c = n)) as [->|Hne]; [by apply (acyclic w H1 n cur H3 Hbel)|].
    destruct (H8 c Hin Hne) as (p' & Hp' & Hc'). by rewrite (parent_unique w H1 cur p' c Hc Hc') in Hcur. }
  assert (Hperm : (fst <$> l ++ [(cur, p)]) ++ q' ≡ₚ ((fst <$> l) ++ cur :: q) ++ vr_children r).
  { rewrite fmap_app, Hq. cbn. by rewrite <- !app_assoc. }
  assert (Helem : forall v, v ∈ (fst <$> l ++ [(cur, p)]) ++ q' <-> v ∈ (fst <$> l) ++ cur :: q \/ child w cur v).
  { intros v. rewrite Hperm, elem_of_app, Hch. done. }
  split; try done.
  - rewrite Hperm. apply NoDup_app. split; [done|]. split; [intros c Hc Hc'%Hch; by apply (Hnew c)|by apply (it_nodup _ H1 cur)].
  - intros v [Hv|Hv]%Helem; [by apply H5|]. destruct Hbel as [l1 Hl1]. eexists. by eapply route_snoc.
  - apply Helem. by left.
  - intros v p' [Hv|[= -> ->]%elem_of_list_singleton]%elem_of_app; [by apply H7|done].
  - intros v Hv Hne. apply Helem in Hv as [Hv|Hv].
    + destruct (H8 v Hv Hne) as (p' & Hp' & Hc). exists p'. split; [|done]. rewrite fmap_app. apply elem_of_app. by left.
    + exists cur. split; [|done]. rewrite fmap_app. apply elem_of_app. right. by left.
  - intros v c Hv Hc. apply Helem. rewrite fmap_app in Hv. apply elem_of_app in Hv as [Hv|Hv].
    + left. by apply (H9 v).
    + apply elem_of_list_singleton in Hv. cbn in Hv. subst v. right. by apply H2.
  - intros k v p' Hk Hne. apply lookup_app_Some in Hk as [Hk|[Hle Hk]].
    + destruct (H10 k v p' Hk Hne) as (k' & p'' & Hlt & Hk'). exists k', p''. split; [done|]. by apply lookup_app_l_Some.
    + apply list_lookup_singleton_Some in Hk as [Hk0 [= <- <-]].
      destruct (H8 cur) as (p' & Hp' & Hc); [apply elem_of_app; right; by left|done|]. destruct (it_child _ H1 _ _ Hc) as [_ Hg]. rewrite Hp in Hg. injection Hg as <-.
      apply elem_of_list_fmap in Hp' as ([p1 p2] & -> & Hin). apply elem_of_list_lookup in Hin as [k' Hk']. exists k', p2. split; [|by apply lookup_app_l_Some].
      apply lookup_lt_Some in Hk'. lia.
Qed.

Definition KG s w : Prop := reachable s /\ hasview i s w /\ in_sync (gs_dg s) w /\ dg_map (gs_dg s) !! rf = Some (tv_root w).

Lemma KG_run c v p s s' ev r w : KG s w -> body (vf_do z c v p s) s = (s', ev, r) -> ok r -> growing rf ev -> exists w', KG s' w' /\ grows w w'.
Proof.
  intros (Hs & Hw & Hsy & Hrf) Hb Hok Hg. destruct (body_vsteps (vf_do z c v p s) s s' ev r w) as (w' & Hw' & Hv); [apply Hz|apply Hsp|done..|].
  destruct (vsteps_sync einv (gs_dg s, w) (gs_dg s', w') ev rf) as [H1 H2]; [done|by apply (reachable_wf d0)|done..|]. exists w'.
  split; [|by apply (vsteps_grows (gs_dg s, w) (gs_dg s', w') ev rf)]. split; [|done]. eapply (body_evolves d0 einv); [exact Hs|apply Hz|exact Hb|done].
Qed.

Lemma bfs_grow m : forall c q s w l s' seen ev, KG s w -> ginv w l q -> bfs_loop d0 einv i ord z m c q (s, l) = ((s', seen), ev, Ret tt) -> growing rf ev ->
  exists w', KG s' w' /\ ginv w' seen [].
Proof.
  induction m as [|m IH]; intros c q s w l s' seen ev HK Hi Hr Hg; destruct q as [|cur q]; cbn [bfs_loop fst snd] in Hr;
    [by injection Hr as <- <- <-; exists w|done|by injection Hr as <- <- <-; exists w|].
  pose proof HK as (_ & (_ & _ & Hw) & _). rewrite Hw in Hr. destruct (tv_get_parent w cur) as [p|x| |] eqn:Hp; [|done..].
  destruct (body (vf_do z c cur p s) s) as [[s1 ev1] r1] eqn:H1. destruct r1 as [[]|x| |]; [|done..].
  destruct (gs_views s1 !! i) as [w1|] eqn:Hw1; [|done]. destruct (bfs_loop _ _ _ _ _ _ _ _ _) as [[[s3 seen3] ev3] r3] eqn:H3. injection Hr as <- <- <- ->.
  apply growing_app in Hg as [Hg1 Hg3]. destruct (KG_run _ _ _ _ _ _ _ _ HK H1) as (w2 & HK2 & Hgr); [done..|].
  pose proof HK2 as (_ & (_ & _ & Hw2) & Hsy2 & _). rewrite Hw1 in Hw2. injection Hw2 as <-.
  pose proof (sy_tree _ _ Hsy2) as Ht1. pose proof (ginv_grow w w1 l (cur :: q) Hi Ht1 Hgr) as Hi1.
  assert (Hcur : cur ∈ dom (tv_tree w1)). { apply (below_in w1 Ht1 n); [apply (gi_there _ _ _ Hi1)|apply (gi_below _ _ _ Hi1), elem_of_app; right; by left]. }
  apply elem_of_dom in Hcur as [rel Hrel]. rewrite touch_id, set_view_id in H3 by (rewrite ?Hrel; done).
  eapply IH; [exact HK2| |exact H3|done]. eapply ginv_step; [exact Hi1| |exact Hrel|].
  - apply (parent_grows w); [apply (gi_tree _ _ _ Hi)|done..].
  - unfold tv_rel. rewrite Hrel. cbn. by rewrite (Hord w1 cur _).
Qed.

Theorem growing_bfs m c s s' seen ev root : reachable s -> i ∈ gs_subs s -> gs_views s !! i = Some w0 -> in_sync (gs_dg s) w0 ->
  get_vertex s rf = Ret root -> root = tv_root w0 -> tv_vertex_exists w0 n = true ->
  view_bfs d0 einv i ord z m c n (s, []) = ((s', seen), ev, Ret tt) -> growing rf ev ->
  exists w', gs_views s' !! i = Some w' /\ in_sync (gs_dg s') w' /\ begins_visit w' n seen /\ forall v, linked (child w0) n v -> v ∈ fst <$> seen.
Proof.
  intros Hs Hi Hw Hsy Hrf -> Hn Hr Hg.
  assert (HK : KG s w0).
  { split; [done|]. split; [split; [by destruct (reachable_subs_ok d0 einv s Hs)|done]|]. split; [done|].
    destruct (dg_map (gs_dg s) !! rf) as [u|] eqn:Hu; [|by rewrite get_vertex_none in Hrf].
    rewrite (get_vertex_some einv s rf u) in Hrf; [congruence|by apply (reachable_wf d0)|done]. }
  destruct (bfs_grow m c [n] s w0 [] s' seen ev HK) as (w' & HK' & Hi'); [|exact Hr|done|].
  { split; cbn; try done.
    - apply (sy_tree _ _ Hsy).
    - apply NoDup_singleton.
    - intros v ->%elem_of_list_singleton. apply linked_refl.
    - by left.
    - by intros v p ?%elem_of_nil.
    - by intros v ->%elem_of_list_singleton ?.
    - by intros v c' ?%elem_of_nil. }
  destruct HK' as (_ & (_ & _ & Hw') & Hsy' & _). exists w'. split; [done|]. split; [done|]. destruct Hi' as [G1 G2 G3 G4 G5 G6 G7 G8 G9 G10]. rewrite app_nil_r in *. split.
  - split; [done| |done]. intros v p Hv. split; [|by apply G7]. apply G5. apply elem_of_list_fmap. by exists (v, p).
  - apply linked_ind_r; [done|]. intros x y _ Hx Hxy. by apply (G9 x y).
Qed.
End growth.

(** *** What goes wrong *)
Theorem bfs_stray {C : Type} (z : vfun D E C) ord m c n p s w s1 w1 ev : ord_ok ord -> gs_views s !! i = Some w -> tv_get_parent w n = Ret p ->
  body (vf_do z c n p s) s = (s1, ev, Ret tt) -> gs_views s1 !! i = Some w1 -> is_tree w1 -> tv_vertex_exists w1 n = false ->
  exists s' w', view_bfs d0 einv i ord z (S m) c n (s, []) = ((s', [(n, p)]), ev, Ret tt) /\ gs_views s' !! i = Some w' /\
    tv_vertex_exists w' n = true /\ ~ is_tree w'.
Proof.
  intros Ho Hw Hp Hb Hw1 Ht Hn. unfold view_bfs. cbn [bfs_loop fst snd]. rewrite Hw, Hp, Hb, Hw1.
  assert (Hnone : tv_tree w1 !! n = None). { unfold tv_vertex_exists in Hn. apply bool_decide_eq_false in Hn. by apply eq_None_not_Some. }
  unfold tv_rel. rewrite Hnone. cbn [default vr_children vrel0]. assert (Hnil : ord w1 n [] = []) by (apply Permutation_nil_r, Ho).
  assert (Hloop : forall k (t : gst D E * list (vid * vid)) c', bfs_loop d0 einv i ord z k c' [] t = (t, [], Ret tt)) by by intros [].
  change (vr_children (id vrel0)) with (@nil vid). rewrite Hnil. cbn [app]. rewrite Hloop, app_nil_r.
  eexists _, (tv_touch n w1). split; [done|]. cbn. rewrite lookup_insert. split; [done|].
  assert (Hl : tv_tree (tv_touch n w1) !! n = Some vrel0). { unfold tv_touch. rewrite Hnone. cbn. by rewrite lookup_insert. }
  assert (Hex : tv_vertex_exists (tv_touch n w1) n = true). { unfold tv_vertex_exists. rewrite Hl. by apply bool_decide_eq_true. }
  split; [done|]. intros Ht'.
  assert (Hroot : tv_root (tv_touch n w1) = tv_root w1) by (unfold tv_touch; by rewrite Hnone).
  assert (Hne : n <> tv_root (tv_touch n w1)). { rewrite Hroot. intros ->. by rewrite (it_rootin _ Ht) in Hn. }
  destruct (it_parent _ Ht' n Hex Hne) as (q & Hq & Hc). unfold tv_get_parent in Hq. rewrite Hl in Hq. destruct (_ =? _); [done|]. injection Hq as <-.
  unfold child in Hc. destruct Hc as (r & Hr & _). pose proof (it_null _ Ht') as Hnull. unfold tv_vertex_exists in Hnull. cbn in Hr. rewrite Hr in Hnull.
  apply bool_decide_eq_false in Hnull. by destruct Hnull.
Qed.
Theorem dfs_dangling {C : Type} (z : vfun D E C) ord m c n rel s w s1 w1 ev : gs_views s !! i = Some w -> tv_tree w !! n = Some rel ->
  body (vf_do z (vf_copy z c c) n (vr_parent rel) s) s = (s1, ev, Ret tt) -> gs_views s1 !! i = Some w1 -> tv_vertex_exists w1 n = false ->
  view_dfs d0 einv i ord z (S m) c n (s, []) = ((s1, [(n, vr_parent rel)]), ev, UB).
Proof.
  intros Hw Hr Hb Hw1 Hn. unfold view_dfs. cbn [dfs_loop fst snd]. rewrite Hw, Hr, Hb, Hw1.
  assert (Hnone : tv_tree w1 !! n = None). { unfold tv_vertex_exists in Hn. apply bool_decide_eq_false in Hn. by apply eq_None_not_Some. }
  cbn [forallb]. unfold reference_good at 1. by rewrite Hr, Hnone.
Qed.
(** *** Vertices that are not in the view *)
Lemma visit_unknown {C : Type} (z : vfun D E C) ord m c n s w : gs_views s !! i = Some w -> tv_vertex_exists w n = false ->
  view_bfs d0 einv i ord z (S m) c n (s, []) = ((s, []), [], Throw XRuntime) /\ view_dfs d0 einv i ord z (S m) c n (s, []) = ((s, []), [], Throw XOutOfRange).
Proof.
  intros Hw Hn. unfold tv_vertex_exists in Hn. apply bool_decide_eq_false in Hn.
  assert (Hnone : tv_tree w !! n = None) by (by destruct (tv_tree w !! n); [destruct Hn|]).
  unfold view_bfs, view_dfs. cbn [bfs_loop dfs_loop fst]. rewrite Hw. unfold tv_get_parent. rewrite Hnone. by destruct (Nat.eqb n null_vertex).
Qed.
End thms.
