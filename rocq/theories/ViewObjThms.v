(** Views as values: proofs. *)
From stdpp Require Import prelude strings gmap.
From Verif Require Import ListLib Outcome Digraph Bfs TreeView GraphModel GraphOps GraphWf GraphStep
  SpecObs SpecView GraphStore GraphRefine GraphThms SpecWalk WalkThms BfsThms BfsFind SpecTree BuildThms SyncThms
  ViewStep ViewSync ViewRun ViewFollow ViewObjModel SpecViewObj.

Lemma build_slots {E} (tr : list (bev E)) w :
  tv_slots_cross (build_tree tr w) = tv_slots_cross w /\ tv_slots_added (build_tree tr w) = tv_slots_added w /\
  tv_slots_removed (build_tree tr w) = tv_slots_removed w.
Proof.
  unfold build_tree. revert w. induction tr as [|b tr IH]; intros w; [done|]. cbn.
  destruct (IH (build_step b w)) as (-> & -> & ->). by destruct b.
Qed.

Section viewobj.
Context {D E : Type} (d0 : D) (einv : E -> E).
Local Notation dg_wf := (dg_wf einv).
Implicit Types (s : gst D E) (g : digraph D E) (w : tview).

Lemma same_view_sync g w w' : same_view w w' -> in_sync g w -> in_sync g w'.
Proof.
  destruct w, w'. unfold same_view. cbn. intros (-> & -> & ->) [[] ?]. split; [split|..]; done.
Qed.

(** *** getTree by value *)

Lemma get_tree_into_slots s root w w' : get_tree_into s root w = Ret w' ->
  tv_slots_cross w' = tv_slots_cross w /\ tv_slots_added w' = tv_slots_added w /\
  tv_slots_removed w' = tv_slots_removed w.
Proof.
  unfold get_tree_into. destruct (bfs_trace _ _ _); cbn; try done. intros [= <-].
  by edestruct @build_slots as (-> & -> & ->).
Qed.

Lemma get_tree_value_ok s rf root tmp j :
  reachable d0 einv s -> get_vertex s rf = Ret root ->
  gs_views s !! tmp = None -> gs_views s !! j = None -> tmp <> j ->
  exists s' w', get_tree_value rf tmp j s = (s', [], Ret tt) /\ gs_dg s' = gs_dg s /\ gs_subs s' = gs_subs s /\
    gs_views s' !! j = Some w' /\ (forall k, k <> j -> gs_views s' !! k = gs_views s !! k) /\
    in_sync (gs_dg s) w' /\ tv_root w' = root /\ tv_pub w' = false /\
    tv_slots_cross w' = [] /\ tv_slots_added w' = [] /\ tv_slots_removed w' = [] /\
    forall v, tv_vertex_exists w' v = true ->
      exists l, route (child w') root v l /\ shortest (adjacent (gs_dg s)) root v l.
Proof.
  intros Hre Hv Ht Hj Hne. pose proof (reachable_wf d0 einv s Hre) as Hwf.
  unfold get_tree_value. erewrite cbind_read_ret by exact Hv. apply get_vertex_inv in Hv.
  unfold get_tree_value_v. erewrite cbind_ret by (unfold new_view_at; by rewrite Ht).
  set (s0 := gs_set_view tmp _ s).
  destruct (get_tree_sync einv s0 root (tv_set_root root tv_new)) as (w' & Hg & Hs & Hr & Hp & Hd); try done.
  { cbn. eapply wf_map_alive; eauto. }
  pose proof (get_tree_into_slots _ _ _ _ Hg) as (Hs1 & Hs2 & Hs3).
  assert (Hgv : get_tree_v root false tmp s0 = (gs_set_view tmp w' s0, [], Ret tt)).
  { unfold get_tree_v. subst s0. cbn. by rewrite lookup_insert, Hg. }
  unfold with_local. erewrite cbind_ret by exact Hgv.
  rewrite (move_view_eq tmp j w').
  2:{ cbn. by rewrite lookup_insert. }
  2:{ cbn. by rewrite !lookup_insert_ne by done. }
  unfold destroy_view. unfold moved. rewrite Hp. cbn. rewrite lookup_insert. cbn. unfold cbind, cmodify. cbn.
  eexists _, _. split; [done|]. cbn. split; [done|]. split; [done|].
  rewrite lookup_delete_ne, lookup_insert_ne, lookup_insert by done. split; [done|]. split.
  { intros k Hk. destruct (decide (k = tmp)) as [->|Hkt]; [by rewrite lookup_delete, Ht|].
    by rewrite lookup_delete_ne, !lookup_insert_ne by done. }
  split; [by apply (same_view_sync _ w')|]. cbn. split; [done|]. split; [done|]. split; [done|]. split; [done|]. split; [done|].
  exact Hd.
Qed.

Lemma get_tree_value_unknown s rf tmp j : reachable d0 einv s -> contains_frame s rf = false ->
  get_tree_value rf tmp j s = (s, [], Throw (XUnknownFrame rf)).
Proof.
  intros Hre Hc. pose proof (reachable_wf d0 einv s Hre) as Hwf.
  rewrite (contains_frame_map einv) in Hc by done. apply bool_decide_eq_false in Hc.
  unfold get_tree_value. erewrite cbind_read_throw; [done|].
  destruct (get_vertex_cases einv s rf Hwf) as [(v & Hv & _)|[_ H]]; [destruct Hc; eauto|done].
Qed.

(** *** Assignment *)

Definition assigned w1 w2 : tview :=
  TView (tv_root w2) (tv_tree w2) (tv_cross w2) (tv_pub w2) (tv_log w1)
        (tv_slots_cross w1) (tv_slots_added w1) (tv_slots_removed w1).

Lemma assign_view_eq s i j wi wj : gs_views s !! i = Some wi -> gs_views s !! j = Some wj ->
  assign_view i j s = (gs_set_view i (assigned wi wj) s, [], Ret tt).
Proof. intros Hi Hj. unfold assign_view. by rewrite Hi, Hj. Qed.

Lemma assign_view_content s i j wi wj : gs_views s !! i = Some wi -> gs_views s !! j = Some wj ->
  exists s' w', assign_view i j s = (s', [], Ret tt) /\ gs_dg s' = gs_dg s /\ gs_subs s' = gs_subs s /\
    gs_views s' !! i = Some w' /\ (forall k, k <> i -> gs_views s' !! k = gs_views s !! k) /\
    same_view wj w' /\ tv_pub w' = tv_pub wj /\ tv_log w' = tv_log wi /\ tv_slots_cross w' = tv_slots_cross wi /\
    tv_slots_added w' = tv_slots_added wi /\ tv_slots_removed w' = tv_slots_removed wi.
Proof.
  intros Hi Hj. rewrite (assign_view_eq s i j wi wj) by done. eexists _, _. split; [done|]. cbn.
  rewrite lookup_insert. do 3 (split; [done|]). split; [|done]. intros k Hk. by rewrite lookup_insert_ne.
Qed.

Lemma assign_subs_ok s i j wi wj : subs_ok s -> gs_views s !! i = Some wi -> gs_views s !! j = Some wj ->
  (i ∈ gs_subs s -> tv_pub wj = true) -> subs_ok (gs_set_view i (assigned wi wj) s).
Proof.
  intros [Hnd H] Hi Hj Hp. split; [done|]. intros k Hk. cbn in *.
  destruct (decide (k = i)) as [->|Hki]; [rewrite lookup_insert; eauto|].
  rewrite lookup_insert_ne by done. by apply H.
Qed.

Lemma assign_valid s i j wi wj s' : reachable d0 einv s ->
  gs_views s !! i = Some wi -> gs_views s !! j = Some wj -> assign_view i j s = (s', [], Ret tt) ->
  (stays_valid d0 einv s' <-> (i ∈ gs_subs s -> tv_pub wj = true)).
Proof.
  intros Hre Hi Hj. rewrite (assign_view_eq s i j wi wj) by done. intros [= <-].
  pose proof (reachable_subs_ok d0 einv s Hre) as Hso. split.
  - intros Hv Hin. destruct (tv_pub wj) eqn:Hp; [done|exfalso].
    specialize (Hv [(fun _ _ _ l => l, ODestroyView i)]). cbn [run gstep] in Hv. unfold destroy_view in Hv.
    cbn in Hv. rewrite lookup_insert in Hv. cbn in Hv. rewrite Hp in Hv. cbn in Hv.
    destruct (Hv _ _ _ eq_refl ltac:(done) ltac:(done) i Hin) as [x Hx]. cbn in Hx. by rewrite lookup_delete in Hx.
  - intros Hp h s2 ev r Hrun H1 H2 k Hk.
    assert (Hso2 : subs_ok s2).
    { eapply run_subs_ok; [|exact Hrun|by destruct r]. by apply (assign_subs_ok s i j). }
    destruct (proj2 Hso2 k Hk) as (w & Hw & _). eauto.
Qed.

(** Adding an edge with a dangling pointer among the subscribed views. *)
Lemma for_views_dangling f l s k : k ∈ l -> gs_views s !! k = None ->
  forall s' ev r, for_views (D := D) (E := E) f l s = (s', ev, r) -> (forall x, r <> Ret x) /\
    ((forall j, j ∈ l -> j = k) -> r = UB).
Proof.
  revert s. induction l as [|j l IH]; intros s Hk Hs s' ev r; [by apply elem_of_nil in Hk|]. cbn [for_views].
  destruct (gs_views s !! j) as [w|] eqn:Hj.
  2:{ intros [= _ _ <-]. done. }
  assert (Hjk : j <> k) by congruence.
  destruct (f j w) as [w' r1]. destruct r1 as [a|x| |].
  2-4: intros [= _ _ <-]; split; [done|]; intros Ha; destruct Hjk; apply Ha; by left.
  intros Hf. apply elem_of_cons in Hk as [->|Hk]; [done|].
  apply IH in Hf as [H1 H2]; [|done|cbn; by rewrite lookup_insert_ne].
  split; [done|]. intros Ha. destruct Hjk. apply Ha. by left.
Qed.

Lemma assign_dangling s i j wi wj s1 a b o t p : reachable d0 einv s ->
  gs_views s !! i = Some wi -> gs_views s !! j = Some wj -> i ∈ gs_subs s -> tv_pub wj = false ->
  assign_view i j s = (s1, [], Ret tt) ->
  get_vertex s a = Ret o -> get_vertex s b = Ret t -> find_edge s o t = Ret None ->
  exists s2 s3 ev r, destroy_view i s1 = (s2, [], Ret tt) /\ add_edge d0 einv a b p s2 = (s3, ev, r) /\
    (forall x, r <> Ret x) /\ (gs_subs s = [i] -> r = UB).
Proof.
  intros Hre Hi Hj Hin Hp. rewrite (assign_view_eq s i j wi wj) by done. intros [= <-] Ha Hb He.
  pose proof (reachable_wf d0 einv s Hre) as Hwf.
  unfold destroy_view. cbn. rewrite lookup_insert. cbn. rewrite Hp. cbn.
  set (s2 := GSt _ _ _).
  destruct (add_edge d0 einv a b p s2) as [[s3 ev] r] eqn:Hadd. exists s2, s3, ev, r. split; [done|]. split; [done|].
  apply get_vertex_inv in Ha, Hb.
  assert (Ho : bg_alive (gs_dg s) o = true) by (eapply wf_map_alive; eauto).
  assert (Ht : bg_alive (gs_dg s) t = true) by (eapply wf_map_alive; eauto).
  unfold add_edge in Hadd. cbn in Hadd.
  rewrite (bg_vertex_some _ _ _ Ha) in Hadd.
  rewrite (bg_vertex_some _ _ _ Hb) in Hadd.
  assert (Hon : o <> null_vertex) by (eapply alive_null; eauto).
  assert (Htn : t <> null_vertex) by (eapply alive_null; eauto).
  apply Nat.eqb_neq in Hon, Htn. rewrite Hon, Htn in Hadd.
  erewrite cbind_ret in Hadd by done. erewrite cbind_ret in Hadd by done.
  unfold add_edge_v in Hadd. erewrite cbind_read_ret in Hadd by exact He.
  cbv beta iota in Hadd.
  erewrite cbind_read_ret in Hadd by (cbn; by rewrite Ht).
  erewrite cbind_ret in Hadd by done. erewrite cbind_ret in Hadd by done.
  unfold cbind at 1 in Hadd. unfold add_edge_to_tree_views in Hadd at 1. 
  match type of Hadd with context [for_views ?f ?l ?x] => destruct (for_views f l x) as [[s4 ev4] r4] eqn:Hf end.
  apply (for_views_dangling _ _ _ i) in Hf as [H1 H2]; [|done|cbn; by rewrite lookup_delete].
  destruct r4 as [u|x| |]; [by destruct (H1 u)|..]; cbn in Hadd; injection Hadd as _ _ <-; (split; [done|]); try done.
  all: intros Hs; apply H2; cbn; rewrite Hs; intros k ?%elem_of_list_singleton; done.
Qed.

Lemma assigned_follows s rf i j wi wj s1 h s2 ev r :
  reachable d0 einv s -> i ∈ gs_subs s -> j ∈ gs_subs s ->
  gs_views s !! i = Some wi -> gs_views s !! j = Some wj ->
  in_sync (gs_dg s) wj -> get_vertex s rf = Ret (tv_root wj) ->
  assign_view i j s = (s1, [], Ret tt) ->
  hist_noself h -> Forall (fun x => op_not i (snd x)) h ->
  run d0 einv h s1 = (s2, ev, r) -> r <> UB -> r <> Fuel -> growing rf ev ->
  exists w', gs_views s2 !! i = Some w' /\ in_sync (gs_dg s2) w' /\ get_vertex s2 rf = Ret (tv_root w').
Proof.
  intros Hre Hi Hj Hwi Hwj Hsy Hrf. rewrite (assign_view_eq s i j wi wj) by done. intros [= <-] Hns Hnot Hrun H1 H2 Hgr.
  assert (Hok : ok r) by by destruct r.
  pose proof (reachable_wf d0 einv s Hre) as Hwf. pose proof (reachable_subs_ok d0 einv s Hre) as Hso.
  set (s1 := gs_set_view i (assigned wi wj) s) in *.
  assert (Hso1 : subs_ok s1).
  { apply (assign_subs_ok s i j); [done..|]. intros _. destruct (proj2 Hso j Hj) as (w & Hw & Hp). congruence. }
  destruct (run_vsteps d0 einv i h s1 s2 ev r (assigned wi wj)) as (w2 & (_ & _ & Hw2) & Hv); try done.
  { split; [apply Hso1|]. split; [done|]. cbn. by rewrite lookup_insert. }
  apply get_vertex_inv in Hrf.
  apply (vsteps_sync einv _ _ _ rf) in Hv as [Hy1 Hy2]; cbn in *; try done.
  - exists w2. split; [done|]. split; [done|]. apply (get_vertex_some einv); [|done].
    eapply lsteps_wf; [|eapply run_lsteps; [|done..]]; done.
  - by apply (same_view_sync _ wj).
Qed.

Lemma assign_not_followed s i j wi wj s1 root : reachable d0 einv s ->
  gs_views s !! i = Some wi -> gs_views s !! j = Some wj -> i ∉ gs_subs s -> j ∈ gs_subs s ->
  bg_alive (gs_dg s) root = true ->
  assign_view i j s = (s1, [], Ret tt) ->
  i ∉ gs_subs s1 /\ (exists s2 ev, get_tree_v root true i s1 = (s2, ev, UB)).
Proof.
  intros Hre Hi Hj Hin Hjn Hal. rewrite (assign_view_eq s i j wi wj) by done. intros [= <-]. split; [done|].
  pose proof (reachable_subs_ok d0 einv s Hre) as Hso. pose proof (reachable_wf d0 einv s Hre) as Hwf.
  destruct (proj2 Hso j Hjn) as (w & Hw & Hp). assert (w = wj) as -> by congruence.
  unfold get_tree_v. cbn. rewrite lookup_insert. unfold get_tree_into. cbn.
  destruct (bfs_trace_spec einv (gs_dg s) (fun _ => true) root Hwf Hal) as (tr & -> & _). cbn [obind].
  unfold subscribe_tree_view. cbn [gs_views gs_set_view]. rewrite lookup_insert.
  assert (Hpx : forall tr, tv_pub (build_tree (BDiscover root :: tr) (tv_add_root root (assigned wi wj))) = true
    /\ tv_pub (build_tree (E := E) tr (tv_add_root root (assigned wi wj))) = true).
  { intros tr'. split; edestruct @build_pub as [-> _]; done. }
  edestruct (Hpx tr) as [H1 H2]. first [rewrite H1|rewrite H2]; eauto.
Qed.

(** *** Clearing and rebuilding *)

Lemma clear_get_tree s rf root i w : reachable d0 einv s -> get_vertex s rf = Ret root -> gs_views s !! i = Some w ->
  exists s' w', (clear_view i ;;; get_tree rf false i) s = (s', [], Ret tt) /\ gs_dg s' = gs_dg s /\
    gs_subs s' = gs_subs s /\ gs_views s' !! i = Some w' /\ (forall k, k <> i -> gs_views s' !! k = gs_views s !! k) /\
    in_sync (gs_dg s) w' /\ tv_root w' = root /\ tv_pub w' = tv_pub w.
Proof.
  intros Hre Hv Hw. pose proof (reachable_wf d0 einv s Hre) as Hwf. apply get_vertex_inv in Hv.
  erewrite cbind_ret by (unfold clear_view; by rewrite Hw).
  destruct (get_tree_ok einv (gs_set_view i (tv_clear w) s) rf root false i (tv_clear w))
    as (s' & w' & H1 & H2 & H3 & H4 & H5 & H6 & H7 & H8 & _); try done.
  { cbn. by rewrite lookup_insert. }
  rewrite H1. exists s', w'. split; [done|]. split; [done|]. split; [by rewrite H3, app_nil_r|]. split; [done|].
  split; [|done]. intros k Hk. rewrite H5 by done. cbn. by rewrite lookup_insert_ne.
Qed.

Lemma has_root s rf root i w : reachable d0 einv s -> get_vertex s rf = Ret root -> gs_views s !! i = Some w ->
  (exists s1 w1, clear_view i s = (s1, [], Ret tt) /\ gs_views s1 !! i = Some w1 /\ tv_has_root w1 = false) /\
  (exists s2 w2, (clear_view i ;;; get_tree rf false i) s = (s2, [], Ret tt) /\ gs_views s2 !! i = Some w2 /\ tv_has_root w2 = true).
Proof.
  intros Hre Hv Hw. split.
  - unfold clear_view. rewrite Hw. eexists _, _. split; [done|]. cbn. split; [apply lookup_insert|done].
  - destruct (clear_get_tree s rf root i w Hre Hv Hw) as (s' & w' & H1 & _ & _ & H4 & _ & _ & H7 & _).
    exists s', w'. split; [done|]. split; [done|]. unfold tv_has_root. rewrite H7.
    destruct (Nat.eqb_spec root null_vertex) as [->|]; [|done].
    pose proof (reachable_wf d0 einv s Hre) as Hwf. apply get_vertex_inv in Hv.
    assert (Hal : bg_alive (gs_dg s) null_vertex = true) by (eapply wf_map_alive; eauto).
    by apply (alive_null einv) in Hal.
Qed.

Lemma build_keeps (tr : list (bev E)) w v : tv_vertex_exists w v = true -> tv_vertex_exists (build_tree tr w) v = true.
Proof.
  unfold build_tree. revert w. induction tr as [|b tr IH]; intros w Hw; [done|]. cbn. apply IH.
  destruct b; cbn; try done. all: unfold tv_vertex_exists in *; apply bool_decide_eq_true in Hw;
    apply bool_decide_eq_true; cbn; try done.
  destruct Hw as [x Hx].
  match goal with |- is_Some (<[?a := _]> (<[?b := _]> _) !! _) =>
    destruct (decide (v = a)) as [->|]; [rewrite lookup_insert; eauto|rewrite lookup_insert_ne by done];
    destruct (decide (v = b)) as [->|]; [rewrite lookup_insert; eauto|rewrite lookup_insert_ne by done]; eauto end.
Qed.

Lemma reuse_keeps s rf root i w v : reachable d0 einv s -> get_vertex s rf = Ret root -> gs_views s !! i = Some w ->
  tv_vertex_exists w v = true -> ~ linked (adjacent (gs_dg s)) root v ->
  exists s' w', get_tree rf false i s = (s', [], Ret tt) /\ gs_views s' !! i = Some w' /\ tv_root w' = root /\
    tv_vertex_exists w' v = true /\ ~ in_sync (gs_dg s) w'.
Proof.
  intros Hre Hv Hw Hvx Hnl. pose proof (reachable_wf d0 einv s Hre) as Hwf.
  unfold get_tree. erewrite cbind_read_ret by exact Hv. apply get_vertex_inv in Hv.
  assert (Hal : bg_alive (gs_dg s) root = true) by (eapply wf_map_alive; eauto).
  destruct (bfs_trace_spec einv (gs_dg s) (fun _ => true) root Hwf Hal) as (tr & Htr & _).
  unfold get_tree_v. rewrite Hw. unfold get_tree_into. rewrite Htr. cbn [obind].
  set (w' := build_tree _ _). exists (gs_set_view i w' s), w'. split; [done|]. split; [cbn; by rewrite lookup_insert|].
  assert (Hr : tv_root w' = root) by (subst w'; by edestruct @build_pub as [_ ->]).
  assert (Hx : tv_vertex_exists w' v = true).
  { apply build_keeps. unfold tv_vertex_exists in *. apply bool_decide_eq_true in Hvx. apply bool_decide_eq_true. cbn.
    destruct (decide (v = root)) as [->|]; [rewrite lookup_insert; eauto|by rewrite lookup_insert_ne]. }
  split; [done|]. split; [done|]. intros Hs. apply Hnl. rewrite <- Hr. by apply (sy_span _ _ Hs).
Qed.

Lemma rebuild_none s : gs_subs s = [] -> rebuild_tree_views s = (s, [], Ret tt).
Proof. intros H. unfold rebuild_tree_views. by rewrite H. Qed.

Lemma rebuild_ub s : reachable d0 einv s -> gs_subs s <> [] -> exists s' ev, rebuild_tree_views s = (s', ev, UB).
Proof.
  intros Hre Hs. pose proof (reachable_wf d0 einv s Hre) as Hwf. pose proof (reachable_subs_ok d0 einv s Hre) as [_ Hso].
  unfold rebuild_tree_views. destruct (gs_subs s) as [|i l]; [done|].
  destruct (Hso i) as (w & Hw & _); [by left|]. cbn [rebuild_loop].
  erewrite cbind_ret by (unfold clear_view; by rewrite Hw).
  erewrite cbind_read_ret by (cbn; by rewrite lookup_insert).
  unfold get_tree_v. unfold cbind. cbn. rewrite lookup_insert. unfold get_tree_into, bfs_trace. cbn.
  destruct (bg_alive (gs_dg s) null_vertex) eqn:Hn; [|cbn; eauto].
  by apply (alive_null einv _ _ Hwf) in Hn.
Qed.

(** *** Destruction *)

Definition without (l : list viewid) (m : gmap viewid tview) : gmap viewid tview := foldl (fun m i => delete i m) m l.

Lemma without_lookup l m i : without l m !! i = if decide (i ∈ l) then None else m !! i.
Proof.
  revert m. induction l as [|j l IH]; intros m; [cbn; by rewrite decide_False by apply not_elem_of_nil|].
  change (without (j :: l) m) with (without l (delete j m)). rewrite IH.
  repeat case_decide; try done; rewrite elem_of_cons in *; try tauto.
  - assert (i = j) as -> by tauto. by rewrite lookup_delete.
  - rewrite lookup_delete_ne; [done|]. intros ->. tauto.
Qed.

Lemma teardown_app {D' E'} l1 l2 (w : world D' E') : teardown (l1 ++ l2) w = obind (teardown l1 w) (teardown l2).
Proof.
  revert w. induction l1 as [|x l1 IH]; intros w; cbn; [done|]. destruct (die x w); cbn; done || apply IH.
Qed.

Lemma teardown_views_first l s : NoDup l -> (forall i, i ∈ l -> is_Some (gs_views s !! i)) ->
  exists s', teardown (DeadView <$> l) (world_of s) = Ret (World (Some s') (without l (gs_views s))) /\
    gs_views s' = without l (gs_views s).
Proof.
  revert s. induction l as [|i l IH]; intros s Hnd Hl; [cbn; eauto|].
  apply NoDup_cons in Hnd as [Hi Hnd]. destruct (Hl i) as [w Hw]; [by left|].
  cbn [fmap list_fmap teardown]. unfold die at 1. cbn [wd_views wd_graph world_of]. rewrite Hw.
  assert (Hd : exists s1, destroy_view i s = (s1, [], Ret tt) /\ gs_views s1 = delete i (gs_views s)).
  { unfold destroy_view. rewrite Hw. destruct (tv_pub w); cbn; eauto. }
  destruct Hd as (s1 & -> & Hv1). cbn [obind]. rewrite <- Hv1. change (World (Some s1) (gs_views s1)) with (world_of s1).
  destruct (IH s1) as (s' & -> & Hv'); [done| |].
  { intros k Hk. rewrite Hv1, lookup_delete_ne by (intros ->; done). apply Hl. by right. }
  rewrite Hv1 in *. cbn. eauto.
Qed.

Lemma teardown_views_last l (m : gmap viewid tview) : NoDup l -> (forall i, i ∈ l -> is_Some (m !! i)) ->
  ((forall i w, i ∈ l -> m !! i = Some w -> tv_pub w = false) ->
     teardown (DeadView <$> l) (World (D := D) (E := E) None m) = Ret (World None (without l m))) /\
  ((exists i w, i ∈ l /\ m !! i = Some w /\ tv_pub w = true) ->
     teardown (DeadView <$> l) (World (D := D) (E := E) None m) = UB).
Proof.
  revert m. induction l as [|i l IH]; intros m Hnd Hl.
  { split; [done|]. by intros (? & ? & ?%elem_of_nil & _). }
  apply NoDup_cons in Hnd as [Hi Hnd]. destruct (Hl i) as [w Hw]; [by left|].
  cbn [fmap list_fmap teardown]. unfold die. cbn [wd_views wd_graph]. rewrite Hw.
  destruct (IH (delete i m)) as [H1 H2]; [done| |].
  { intros k Hk. rewrite lookup_delete_ne by (intros ->; done). apply Hl. by right. }
  split.
  - intros Hp. rewrite (Hp i w) by (done || by left). cbn [obind]. rewrite H1; [done|].
    intros k w' Hk. rewrite lookup_delete_ne by (intros ->; done). apply Hp. by right.
  - intros (k & w' & Hk & Hw' & Hp). destruct (tv_pub w) eqn:Hpw; [done|]. cbn [obind]. apply H2.
    apply elem_of_cons in Hk as [->|Hk]; [congruence|]. exists k, w'. split; [done|].
    rewrite lookup_delete_ne by (intros ->; done). done.
Qed.

Lemma teardown_order s l1 l2 : NoDup (l1 ++ l2) -> (forall i, i ∈ l1 ++ l2 <-> is_Some (gs_views s !! i)) ->
  let r := teardown ((DeadView <$> l1) ++ DeadGraph :: (DeadView <$> l2)) (world_of s) in
  ((forall i w, i ∈ l2 -> gs_views s !! i = Some w -> tv_pub w = false) -> r = Ret (World None ∅)) /\
  ((exists i w, i ∈ l2 /\ gs_views s !! i = Some w /\ tv_pub w = true) -> r = UB).
Proof.
  intros Hnd Hl. cbv zeta. pose proof (proj1 (NoDup_app _ _) Hnd) as (Hn1 & Hd & Hn2).
  destruct (teardown_views_first l1 s) as (s' & H1 & Hv); [done| |].
  { intros i Hi. apply Hl, elem_of_app. by left. }
  rewrite teardown_app, H1. cbn [obind teardown die wd_graph wd_views].
  assert (Hlk : forall i, i ∈ l2 -> without l1 (gs_views s) !! i = gs_views s !! i).
  { intros i Hi. rewrite without_lookup, decide_False; [done|]. intros Hi'. by apply (Hd i). }
  destruct (teardown_views_last l2 (without l1 (gs_views s))) as [H2 H3]; [done| |].
  { intros i Hi. rewrite Hlk by done. apply Hl, elem_of_app. by right. }
  split.
  - intros Hp. rewrite H2; [|intros i w Hi; rewrite Hlk by done; by apply Hp]. do 2 f_equal.
    apply map_eq. intros i. rewrite lookup_empty, !without_lookup.
    destruct (decide (i ∈ l2)); [done|]. destruct (decide (i ∈ l1)); [done|].
    destruct (gs_views s !! i) as [w|] eqn:Hw; [|done].
    assert (Hin : i ∈ l1 ++ l2) by (apply Hl; eauto). by apply elem_of_app in Hin as [|].
  - intros (i & w & Hi & Hw & Hp). apply H3. exists i, w. by rewrite Hlk.
Qed.

End viewobj.
