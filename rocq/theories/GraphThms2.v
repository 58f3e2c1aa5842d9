(** More lemmas behind the properties of the plain graph: exceptions, disconnectFrame, handles,
    self edges. *)
From stdpp Require Import prelude strings gmap.
From Verif Require Import ListLib Outcome Digraph Bfs TreeView GraphModel GraphOps GraphWf GraphStep
  SpecStore SpecObs GraphStore GraphRefine GraphThms.

Section thms.
Context {D E : Type} (d0 : D) (einv : E -> E).
Local Notation gst := (gst D E).
Local Notation dg_wf := (dg_wf einv).
Implicit Types s : gst.
Implicit Types g : digraph D E.

(** C03 *)
Lemma documented_spec s st op x : reachable d0 einv s -> observes s st ->
  documented s op x <-> snd (spec_step d0 einv op st) = Throw x.
Proof.
  intros Hre Ho.
  pose proof (ob_contains _ _ Ho) as Hc. pose proof (ob_contains_edge _ _ Ho) as He.
  pose proof (ob_closed _ _ Ho) as Hcl.
  assert (Hct : forall f, contains_frame s f = true <-> known st f).
  { intros f. rewrite Hc. apply bool_decide_eq_true. }
  assert (Hcf : forall f, contains_frame s f = false <-> ~ known st f).
  { intros f. rewrite Hc. apply bool_decide_eq_false. }
  assert (Het : forall a b, contains_edge s a b = Ret true <-> is_Some (st_edges st !! (a, b))).
  { intros a b. rewrite He. split.
    - repeat case_decide; try done. by intros [= ?%bool_decide_eq_true].
    - intros Hs. destruct (Hcl a b Hs). rewrite !decide_True by done.
      by rewrite bool_decide_eq_true_2. }
  assert (Hef : forall a b, contains_edge s a b = Ret false <->
            known st a /\ known st b /\ st_edges st !! (a, b) = None).
  { intros a b. rewrite He. split.
    - repeat case_decide; try done. intros [= Hb%bool_decide_eq_false].
      split; [done|]. split; [done|]. by apply eq_None_not_Some.
    - intros (Ha & Hb & Hn). rewrite !decide_True by done. rewrite Hn. done. }
  assert (Hex : forall f, (exists n, contains_edge s f n = Ret true) <->
                map_Exists (fun k (_ : E) => fst k = f \/ snd k = f) (st_edges st)).
  { intros f. split.
    - intros [n [p Hp]%Het]. exists (f, n), p. cbn. auto.
    - intros ([a b] & p & Hp & Hab). cbn in Hab.
      destruct (edges_inverse_pairs d0 einv s Hre) as (Hsym & _).
      destruct Hab as [-> | ->]; [exists b; apply Het; eauto|].
      exists a. apply Hsym, Het. eauto. }
  assert (Hkn : forall f, map_Exists (fun k (_ : E) => fst k = f \/ snd k = f) (st_edges st) -> known st f).
  { intros f ([a b] & p & Hp & Hab). destruct (Hcl a b ltac:(eauto)).
    cbn in Hab. destruct Hab as [<- | <-]; done. }
  destruct op as [f d|o t p|o t|o t p|f|f]; cbn [documented spec_step].
  - destruct x; rewrite ?Hct; clear; destruct (decide (known st f)); cbn; naive_solver.
  - destruct x; rewrite ?Het; clear; destruct (st_edges st !! (o, t)) as [q|]; cbn;
      (split; [|by intros [=]]); try done.
    + intros (-> & -> & _). done.
    + intros (_ & _ & [? ?]). done.
  - destruct x; rewrite ?Hcf, ?Hct, ?Hef; clear; destruct (decide (known st o)), (decide (known st t));
      try destruct (st_edges st !! (o, t)) as [q|]; cbn; naive_solver.
  - destruct x; rewrite ?Hcf, ?Hct, ?Hef; clear; destruct (decide (known st o)), (decide (known st t));
      try destruct (st_edges st !! (o, t)) as [q|]; cbn; naive_solver.
  - destruct x; rewrite ?Hcf; clear; destruct (decide (known st f)); cbn; naive_solver.
  - specialize (Hkn f). destruct x; rewrite ?Hcf, ?Hex; revert Hkn; clear;
      destruct (decide (known st f)) as [Hk|Hk];
      try destruct (decide (map_Exists (fun k (_ : E) => fst k = f \/ snd k = f) (st_edges st))) as [Hm|Hm];
      cbn; naive_solver.
Qed.

Lemma throw_changes_nothing ord op s s' ev r :
  reachable d0 einv s -> sop_noself op -> gstep d0 einv ord (call_of op) s = (s', ev, r) ->
  (forall x, r = Throw x -> x <> XRuntime -> documented s op x /\ s' = s /\ ev = []) /\
  (forall x, documented s op x -> ok r -> r <> Throw XRuntime -> r = Throw x) /\
  (gs_subs s = [] -> r = Ret tt \/ exists x, documented s op x /\ r = Throw x).
Proof.
  intros Hre Hns Hs. destruct (store_exists einv s) as [st Ho]; [by eapply reachable_wf|].
  pose proof (documented_spec s st op) as Hdoc.
  pose proof (observes_step d0 einv ord op s st s' ev r Hre Ho Hns Hs) as H.
  split_and!.
  - intros x -> Hx. destruct H as [(H1 & H2 & H3)|[? _]]; [|done].
    split; [|done]. by apply Hdoc.
  - intros x Hd%Hdoc Hok Hnr; [|done..]. destruct r as [[]|y| |]; try done.
    + destruct H as [H _]. congruence.
    + destruct H as [(H1 & _)|[-> _]]; [congruence|done].
  - intros Hsub. destruct r as [[]|x| |]; try done; [by left|].
    destruct H as [(H1 & _)|[_ ?]]; [|done]. right. exists x. split; [|done]. by apply Hdoc.
Qed.

(** C06 *)
Lemma disconnect_thm ord f s s' ev r : reachable d0 einv s ->
  contains_frame s f = true ->
  gstep d0 einv ord (ODisconnect f) s = (s', ev, r) ->
  (gs_subs s = [] -> r = Ret tt) /\
  (r = Ret tt ->
  (forall a b, contains_edge s' a b = Ret true <->
               contains_edge s a b = Ret true /\ a <> f /\ b <> f) /\
  (forall a b, a <> f -> b <> f -> get_edge_property s' a b = get_edge_property s a b) /\
  (forall n, contains_frame s' n = contains_frame s n) /\
  (forall n, get_frame_property s' n = get_frame_property s n) /\
  exists ns, NoDup ns /\ (forall n, n ∈ ns <-> contains_edge s f n = Ret true) /\
             ev = EvEdgeRemoved f <$> ns).
Proof.
  intros Hre Hf Hs. pose proof (reachable_wf d0 einv s Hre) as Hwf.
  rewrite (contains_frame_map einv) in Hf by done. apply bool_decide_eq_true in Hf as [v Hv].
  cbn [gstep] in Hs. unfold disconnect_frame in Hs.
  erewrite cbind_read_ret in Hs by by apply (get_vertex_some einv).
  pose proof Hs as Hl. apply (disconnect_loop_lsteps einv) in Hl; [|done].
  apply lsteps_wf in Hl as Hwf'; [|done].
  eapply (disconnect_loop_run einv _ _ f) in Hs as (_ & Hnil & _ & Hret); [|done|done|apply filter_length].
  split; [intros Hsub; by apply Hnil|]. intros Hrt.
  destruct (Hret Hrt) as [(H1 & H2 & _ & _ & _ & H6) ->].
  assert (Hedge : forall a b va vb, dg_map (gs_dg s) !! a = Some va -> dg_map (gs_dg s) !! b = Some vb ->
    bg_edge (gs_dg s') va vb = if decide (a <> f /\ b <> f) then bg_edge (gs_dg s) va vb else None).
  { intros a b va vb Ha Hb. 
    assert (Hfv : forall x u, dg_map (gs_dg s) !! x = Some u -> x <> f <-> u <> v).
    { intros x u Hx. split; intros Hn Heq; apply Hn; [|congruence].
      eapply (wf_map_inj einv (gs_dg s)); [done| |done]. congruence. }
    apply option_eq. intros e. rewrite (bg_edge_iff einv) by done. rewrite H6, elem_of_list_filter.
    destruct (decide (a <> f /\ b <> f)) as [[Hna Hnb]|Hn].
    - rewrite (bg_edge_iff einv) by done. rewrite (Hfv a va), (Hfv b vb) in * by done.
      split; [naive_solver|]. intros (? & <- & <-). done.
    - split; [|done]. intros ([[Hs1 Ht1] He] & <- & <-). exfalso. apply Hn.
      by rewrite (Hfv a _ Ha), (Hfv b _ Hb). }
  split_and!.
  - intros a b. rewrite !contains_edge_eq with (einv := einv) by done. rewrite H2.
    destruct (dg_map (gs_dg s) !! a) as [va|] eqn:Ha; [|naive_solver].
    destruct (dg_map (gs_dg s) !! b) as [vb|] eqn:Hb; [|naive_solver].
    rewrite (Hedge a b va vb) by done. split.
    + case_decide as Hab; [|done]. by intros ->.
    + intros [Heq Hab]. by rewrite decide_True.
  - intros a b Hna Hnb. rewrite !get_edge_property_eq with (einv := einv) by done. rewrite H2.
    destruct (dg_map (gs_dg s) !! a) as [va|] eqn:Ha; [|done].
    destruct (dg_map (gs_dg s) !! b) as [vb|] eqn:Hb; [|done].
    by rewrite (Hedge a b va vb), decide_True by done.
  - intros n. rewrite !contains_frame_map with (einv := einv) by done. by rewrite H2.
  - intros n. unfold get_frame_property, get_vertex, bg_vertex, bg_vrec. by rewrite H2, H1.
  - exists ((fun e => bg_name (gs_dg s) (e_tgt e)) <$> bg_out (gs_dg s) v). split_and!.
    + apply (NoDup_fmap_finer (fun e => (e_src e, e_tgt e))).
      { apply NoDup_fmap_filter, (wf_pair einv _ Hwf). }
      intros x y [Hsx Hx]%elem_of_list_filter [Hsy Hy]%elem_of_list_filter Heq.
      destruct (wf_alive_map einv _ _ Hwf (wf_tgt_alive einv _ _ Hwf Hx)) as (f1 & Hf1 & _).
      destruct (wf_alive_map einv _ _ Hwf (wf_tgt_alive einv _ _ Hwf Hy)) as (f2 & Hf2 & _).
      rewrite (bg_name_map einv _ f1), (bg_name_map einv _ f2) in Heq by done.
      f_equal; congruence.
    + intros n. rewrite elem_of_list_fmap, contains_edge_eq with (einv := einv), Hv by done. split.
      * intros (e & -> & [Hse He]%elem_of_list_filter).
        destruct (wf_alive_map einv _ _ Hwf (wf_tgt_alive einv _ _ Hwf He)) as (f1 & Hf1 & _).
        rewrite (bg_name_map einv _ f1), Hf1 by done. f_equal. apply bool_decide_eq_true.
        exists e. by apply (bg_edge_iff einv).
      * destruct (dg_map (gs_dg s) !! n) as [vn|] eqn:Hn; [|done].
        intros [= [e He]%bool_decide_eq_true].
        apply (bg_edge_iff einv) in He as (He & Hse & Hte); [|done]. exists e. split.
        -- rewrite (bg_name_map einv _ n); [done..|congruence].
        -- by apply elem_of_list_filter.
    + by rewrite <- list_fmap_compose.
Qed.

(** C08 *)
Lemma lstep_vertex g ev g' f v : dg_wf g -> lstep einv g ev g' ->
  dg_map g !! f = Some v -> EvFrameRemoved f ∉ ev -> dg_map g' !! f = Some v.
Proof.
  intros Hwf Hl Hm Hev. destruct Hl as [g f' d Hn|g o t p fo ft|g o t e1 e2 fo ft|g o t p e1 e2 fo ft|
    g v' f' Hm' Hd|g v' d]; try done.
  - unfold bg_add_vertex. rewrite Hn. cbn. rewrite lookup_insert_ne; [done|congruence].
  - cbn. rewrite lookup_delete_ne; [done|]. intros ->. set_solver.
Qed.

Lemma lsteps_vertex g ev g' f v : dg_wf g -> lsteps einv g ev g' ->
  dg_map g !! f = Some v -> EvFrameRemoved f ∉ ev -> dg_map g' !! f = Some v.
Proof.
  intros Hwf Hl. revert Hwf. induction Hl as [g|g1 ev1 g2 ev2 g3 H1 H2 IH]; intros Hwf Hm Hev; [done|].
  rewrite not_elem_of_app in Hev. destruct Hev. apply IH; [by eapply lstep_wf| |done].
  by eapply lstep_vertex.
Qed.

Lemma lstep_edge g ev g' fa fb a b e : dg_wf g -> lstep einv g ev g' ->
  dg_map g !! fa = Some a -> dg_map g !! fb = Some b ->
  bg_edge g a b = Some e ->
  EvEdgeRemoved fa fb ∉ ev -> EvEdgeRemoved fb fa ∉ ev ->
  dg_map g' !! fa = Some a /\ dg_map g' !! fb = Some b /\
  exists e', bg_edge g' a b = Some e' /\ e_id e' = e_id e.
Proof.
  intros Hwf Hl Ha Hb He Hev1 Hev2. pose proof (lstep_wf einv _ _ _ Hwf Hl) as Hwf'.
  destruct Hl as [g f' d Hn|g o t p fo ft Ho Ht Hot Hno|g o t e1 e2 fo ft Ho Ht H1 H2|
    g o t p e1 e2 fo ft Ho Ht H1 H2|g v' f' Hm' Hd|g v' d].
  - unfold bg_add_vertex in *. rewrite Hn in *. cbn in *.
    rewrite !lookup_insert_ne by congruence. eauto.
  - split; [done|]. split; [done|]. exists e. split; [|done].
    apply (bg_edge_iff einv) in He as (He & Hs & Htt); [|done].
    apply (bg_edge_iff einv); [done|]. split; [|done]. cbn. rewrite <- app_assoc. set_solver.
  - split; [done|]. split; [done|]. exists e. split; [|done].
    apply (bg_edge_iff einv) in He as (He & Hs & Htt); [|done].
    apply (bg_edge_iff einv) in H1 as (H1 & Hs1 & Ht1); [|done].
    apply (bg_edge_iff einv) in H2 as (H2 & Hs2 & Ht2); [|done].
    apply (bg_edge_iff einv); [done|]. split; [|done]. cbn. apply elem_of_list_filter.
    split; [|done]. split; intros Heq.
    + pose proof (NoDup_fmap_inj e_id _ _ _ (wf_eid einv _ Hwf) He H1 Heq) as ->. apply Hev1.
      apply elem_of_list_singleton. f_equal; eapply (wf_map_inj einv g); eauto; congruence.
    + pose proof (NoDup_fmap_inj e_id _ _ _ (wf_eid einv _ Hwf) He H2 Heq) as ->. apply Hev2.
      apply elem_of_list_singleton. f_equal; eapply (wf_map_inj einv g); eauto; congruence.
  - split; [done|]. split; [done|].
    rewrite !set_prop_edge, He. cbn. eexists. split; [done|].
    repeat (case_match; cbn); done.
  - assert (Hfree : e_src e <> v' /\ e_tgt e <> v').
    { apply (bg_edge_iff einv) in He as (He & _); [|done]. by apply (wf_degree0 g v' Hd). }
    apply (bg_edge_iff einv) in He as (He & Hs & Htt); [|done].
    cbn [dg_map bg_remove_vertex]. rewrite !lookup_delete_ne.
    + split; [done|]. split; [done|]. exists e. split; [|done].
      apply (bg_edge_iff einv); [done|]. split; done.
    + intros ->. destruct Hfree. congruence.
    + intros ->. destruct Hfree. congruence.
  - cbn. eauto.
Qed.

Lemma lsteps_edge g ev g' fa fb a b e : dg_wf g -> lsteps einv g ev g' ->
  dg_map g !! fa = Some a -> dg_map g !! fb = Some b ->
  bg_edge g a b = Some e ->
  EvEdgeRemoved fa fb ∉ ev -> EvEdgeRemoved fb fa ∉ ev ->
  dg_map g' !! fa = Some a /\ dg_map g' !! fb = Some b /\
  exists e', bg_edge g' a b = Some e' /\ e_id e' = e_id e.
Proof.
  intros Hwf Hl. revert e Hwf. induction Hl as [g|g1 ev1 g2 ev2 g3 H1 H2 IH];
    intros e Hwf Ha Hb He Hev1 Hev2; [by eauto|].
  rewrite not_elem_of_app in Hev1, Hev2. destruct Hev1, Hev2.
  destruct (lstep_edge g1 ev1 g2 fa fb a b e) as (Ha' & Hb' & e' & He' & Hid); try done.
  destruct (IH e') as (? & ? & e'' & ? & ?); try done; [by eapply lstep_wf|].
  split; [done|]. split; [done|]. exists e''. split; [done|]. congruence.
Qed.

Lemma handles_stay s h s' ev r : reachable d0 einv s -> hist_noself h ->
  run d0 einv h s = (s', ev, r) -> ok r ->
  (forall f v, get_vertex s f = Ret v -> EvFrameRemoved f ∉ ev ->
     get_vertex s' f = Ret v /\ get_frame_id s' v = Ret f) /\
  (forall a b e, get_edge s a b = Ret e ->
     EvEdgeRemoved a b ∉ ev -> EvEdgeRemoved b a ∉ ev ->
     exists p, get_edge_property_e s' (e_id e) = Ret p /\ get_edge_property s' a b = Ret p /\
               exists e', get_edge s' a b = Ret e' /\ e_id e' = e_id e).
Proof.
  intros Hwf%reachable_wf Hns Hr Hok.
  pose proof (run_lsteps d0 einv h s s' ev r Hwf Hns Hr Hok) as Hl.
  pose proof (lsteps_wf einv _ _ _ Hwf Hl) as Hwf'.
  split.
  - intros f v Hv%get_vertex_inv Hev.
    pose proof (lsteps_vertex _ _ _ f v Hwf Hl Hv Hev) as Hm.
    split; [by apply (get_vertex_some einv)|by apply (get_frame_id_some einv)].
  - intros a b e He H1 H2. unfold get_edge in He.
    destruct (get_vertex s a) as [va| | |] eqn:Ha; try done. cbn in He.
    destruct (get_vertex s b) as [vb| | |] eqn:Hb; try done. cbn in He.
    apply get_vertex_inv in Ha, Hb. unfold get_edge_v in He.
    rewrite find_edge_alive in He by by eapply wf_map_alive. cbn in He.
    destruct (bg_edge (gs_dg s) va vb) as [e0|] eqn:Hed.
    2:{ rewrite (get_frame_id_some einv s a va), (get_frame_id_some einv s b vb) in He by done. done. }
    injection He as ->.
    destruct (lsteps_edge _ _ _ a b va vb e Hwf Hl Ha Hb Hed H1 H2) as (Ha' & Hb' & e' & He' & Hid).
    exists (e_prop e'). split; [|split].
    + unfold get_edge_property_e. apply (bg_edge_iff einv) in He' as (He' & _); [|done].
      by rewrite (proj2 (bg_erec_iff einv (gs_dg s') (e_id e) e' Hwf')).
    + rewrite get_edge_property_eq with (einv := einv) by done. by rewrite Ha', Hb', He'.
    + exists e'. split; [|done]. by eapply (get_edge_some einv).
Qed.

(** C05 *)
Definition dg_self (v : vid) (p : E) (g : digraph D E) : digraph D E :=
  dg_add2 einv v v p g.

Lemma bg_edge_self v p g : bg_edge g v v = None ->
  bg_edge (dg_self v p g) v v = Some (ERec (dg_nexte g) v v p).
Proof.
  unfold bg_edge, dg_self, dg_add2; cbn. intros Hn. rewrite <- app_assoc.
  induction (dg_edges g) as [|e l IH]; cbn in *.
  - by rewrite Nat.eqb_refl.
  - destruct ((e_src e =? v) && (e_tgt e =? v)); [done|]. auto.
Qed.

Lemma reachable_no_self s v : dg_wf (gs_dg s) -> bg_edge (gs_dg s) v v = None.
Proof.
  intros Hwf. apply bg_edge_none. intros e He [Hs Ht].
  apply (wf_noself einv _ Hwf e He). congruence.
Qed.

Lemma self_edge_calls ord s a p q s1 ev1 r1 : reachable d0 einv s -> gs_subs s = [] ->
  contains_frame s a = true ->
  gstep d0 einv ord (OAddEdge a a p) s = (s1, ev1, r1) ->
  r1 = Ret tt /\ get_edge_property s1 a a = Ret p /\ num_edges s1 = num_edges s + 2 /\
  (exists s2 ev2, gstep d0 einv ord (OSetProp a a q) s1 = (s2, ev2, Ret tt) /\
                  get_edge_property s2 a a = Ret (einv q)) /\
  (exists s2 ev2, gstep d0 einv ord (ORemoveEdge a a) s1 = (s2, ev2, UB)).
Proof.
  intros Hre Hsub Hc. pose proof (reachable_wf d0 einv s Hre) as Hwf.
  rewrite (contains_frame_map einv) in Hc by done. apply bool_decide_eq_true in Hc as [v Hm].
  assert (Hv0 : (v =? null_vertex) = false).
  { apply Nat.eqb_neq. intros ->. apply (wf_map einv) in Hm as (r & Hr & Hi & _); [|done].
    pose proof (wf_vbound einv _ Hwf r Hr). unfold null_vertex in *. lia. }
  pose proof (reachable_no_self s v Hwf) as Hno.
  assert (Hal : bg_alive (gs_dg s) v = true) by by eapply wf_map_alive.
  destruct (map_vrec einv _ a v Hwf Hm) as (rv & Hrv & Hnv).
  cbn [gstep]. unfold add_edge. rewrite (bg_vertex_some _ _ _ Hm), Hv0.
  rewrite (cbind_ret (cret v) _ s s [] v eq_refl), (cbind_ret (cret v) _ s s [] v eq_refl).
  assert (Hadd : add_edge_v einv v v p s =
    (gs_set_dg (dg_self v p (gs_dg s)) s, [EvEdgeAdded a a (dg_nexte (gs_dg s))], Ret tt)).
  { unfold add_edge_v. erewrite cbind_read_ret; [|by apply find_edge_alive]. rewrite Hno.
    erewrite cbind_read_ret by by rewrite Hal. erewrite cbind_ret by by cbn. rewrite cbind_modify.
    change (gs_set_dg (fst (bg_add_edge v v (einv p) _)) _) with (gs_set_dg (dg_self v p (gs_dg s)) s).
    set (s1' := gs_set_dg (dg_self v p (gs_dg s)) s).
    rewrite (cbind_ret _ _ s1' s1' [] tt).
    2:{ unfold add_edge_to_tree_views. cbn [gs_subs s1' gs_set_dg]. by rewrite Hsub. }
    assert (Hid : get_frame_id s1' v = Ret a).
    { unfold get_frame_id. rewrite Hv0. change (bg_vrec (gs_dg s1') v) with (bg_vrec (gs_dg s) v).
      rewrite Hrv. by rewrite Hnv. }
    erewrite cbind_read_ret by exact Hid. erewrite cbind_read_ret by exact Hid. done. }
  rewrite Hadd. intros [= <- <- <-].
  set (g1 := dg_self v p (gs_dg s)). set (s1' := gs_set_dg g1 s).
  assert (Hgv : get_vertex s1' a = Ret v).
  { unfold get_vertex. change (bg_vertex (gs_dg s1') a) with (bg_vertex (gs_dg s) a).
    by rewrite (bg_vertex_some _ _ _ Hm), Hv0. }
  assert (Hid : get_frame_id s1' v = Ret a).
  { unfold get_frame_id. rewrite Hv0. change (bg_vrec (gs_dg s1') v) with (bg_vrec (gs_dg s) v).
    rewrite Hrv. by rewrite Hnv. }
  pose proof (bg_edge_self v p (gs_dg s) Hno) as He1. fold g1 in He1.
  set (i := dg_nexte (gs_dg s)) in *.
  assert (Hfresh : forall e, e ∈ dg_edges (gs_dg s) -> e_id e <> i).
  { intros e He. pose proof (wf_ebound einv _ Hwf e He). unfold i. lia. }
  assert (Herec : bg_erec g1 i = Some (ERec i v v p)).
  { unfold bg_erec, g1, dg_self, dg_add2. cbn. rewrite <- app_assoc. revert Hfresh.
    induction (dg_edges (gs_dg s)) as [|e l IH]; intros Hf; cbn.
    - fold i. by rewrite Nat.eqb_refl.
    - destruct (Nat.eqb_spec (e_id e) i) as [Heq|]; [by apply Hf in Heq; set_solver|].
      apply IH. set_solver. }
  assert (Hal1 : bg_alive (gs_dg s1') v = true) by done.
  split; [done|]. split; [|split; [|split]].
  - unfold get_edge_property, get_edge. rewrite Hgv. cbn [obind]. unfold get_edge_v, find_edge.
    rewrite Hal1. cbn [obind gs_dg s1' gs_set_dg]. rewrite He1. cbn [obind e_id].
    unfold get_edge_property_e. cbn [gs_dg s1' gs_set_dg]. by rewrite Herec.
  - unfold num_edges, g1. cbn. lia.
  - set (g2 := bg_set_prop i (einv q) (bg_set_prop i q g1)).
    exists (gs_set_dg g2 s), [EvEdgeModified a a i i].
    assert (He2 : bg_edge (bg_set_prop i q g1) v v = Some (ERec i v v q)).
    { rewrite set_prop_edge, He1. cbn. by rewrite Nat.eqb_refl. }
    assert (He3 : bg_edge g2 v v = Some (ERec i v v (einv q))).
    { unfold g2. rewrite set_prop_edge, He2. cbn. by rewrite Nat.eqb_refl. }
    assert (Herec3 : bg_erec g2 i = Some (ERec i v v (einv q))).
    { unfold bg_erec in *. unfold g2. cbn [dg_edges bg_set_prop]. revert Herec.
      induction (dg_edges g1) as [|e l IH]; [done|]. cbn.
      destruct (e_id e =? i) eqn:Hei; cbn; rewrite ?Hei; cbn; rewrite ?Hei; cbn; [|apply IH].
      intros [= ->]. done. }
    split.
    + unfold set_edge_property. erewrite cbind_read_ret by exact Hgv. erewrite cbind_read_ret by exact Hgv.
      unfold set_edge_property_v. erewrite cbind_read_ret; [|by apply find_edge_alive].
      cbn [gs_dg s1' gs_set_dg]. rewrite He1. rewrite cbind_modify. cbn [e_id].
      erewrite cbind_read_ret; [|by apply find_edge_alive]. cbn [gs_dg gs_set_dg].
      change (gs_dg s1') with g1. rewrite He2. rewrite cbind_modify. cbn [e_id].
      change (gs_set_dg _ _) with (gs_set_dg g2 s).
      assert (Hid2 : forall g', dg_verts g' = dg_verts (gs_dg s) ->
                get_frame_id (gs_set_dg g' s) v = Ret a).
      { intros g' Hg'. unfold get_frame_id. rewrite Hv0. cbn. unfold bg_vrec. rewrite Hg'.
        unfold bg_vrec in Hrv. rewrite Hrv. by rewrite Hnv. }
      erewrite cbind_read_ret by by apply Hid2. erewrite cbind_read_ret by by apply Hid2. done.
    + unfold get_edge_property, get_edge.
      assert (Hgv2 : get_vertex (gs_set_dg g2 s) a = Ret v) by exact Hgv.
      rewrite Hgv2. cbn [obind]. unfold get_edge_v, find_edge.
      assert (Hal2 : bg_alive (gs_dg (gs_set_dg g2 s)) v = true) by done.
      rewrite Hal2. cbn [obind gs_dg gs_set_dg]. rewrite He3. cbn [obind e_id].
      unfold get_edge_property_e. cbn [gs_dg gs_set_dg]. by rewrite Herec3.
  - cbn [gstep]. unfold remove_edge. erewrite cbind_read_ret by exact Hgv.
    erewrite cbind_read_ret by exact Hgv. unfold remove_edge_impl.
    erewrite cbind_read_ret; [|by apply find_edge_alive].
    erewrite cbind_read_ret; [|by apply find_edge_alive].
    cbn [gs_dg s1' gs_set_dg]. rewrite He1. cbn [e_id].
    set (g2 := Digraph (dg_verts g1) (filter (fun e => e_id e <> i) (dg_edges g1)) (dg_map g1)
                    (dg_nextv g1) (dg_nexte g1) (dg_maxvi g1) (dg_nv g1) (pred (dg_ne g1))).
    erewrite cbind_ret.
    2:{ unfold boost_remove_edge, bg_remove_edge. change (gs_dg s1') with g1. rewrite Herec. done. }
    fold g2. erewrite cbind_ret by done.
    assert (Hn2 : bg_erec g2 i = None).
    { unfold bg_erec. cbn [dg_edges g2]. destruct (find _ _) as [e|] eqn:Hfi; [|done].
      apply find_iff in Hfi as [[Hne _]%elem_of_list_filter Heq%Nat.eqb_eq]. done. }
    unfold cbind. unfold boost_remove_edge, bg_remove_edge. cbn [gs_dg gs_set_dg]. rewrite Hn2.
    eauto.
Qed.

End thms.
