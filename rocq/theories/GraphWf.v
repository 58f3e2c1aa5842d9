(** Well-formedness invariant of the boost graph and its preservation. *)
From stdpp Require Import prelude strings gmap.
From Verif Require Import ListLib Outcome Digraph Bfs TreeView GraphModel GraphOps.

Section wf.
Context {D E : Type} (d0 : D) (einv : E -> E).

Record dg_wf (g : digraph D E) : Prop := DgWf {
  wf_vid : NoDup (v_id <$> dg_verts g);
  wf_vname : NoDup (v_name <$> dg_verts g);
  wf_map : forall f v, dg_map g !! f = Some v <->
             exists r, r ∈ dg_verts g /\ v_id r = v /\ v_name r = f;
  wf_vbound : forall r, r ∈ dg_verts g -> 0 < v_id r < dg_nextv g;
  wf_nv0 : 0 < dg_nextv g;
  wf_eid : NoDup (e_id <$> dg_edges g);
  wf_ebound : forall e, e ∈ dg_edges g -> 0 < e_id e < dg_nexte g;
  wf_ne0 : 0 < dg_nexte g;
  wf_src : forall e, e ∈ dg_edges g -> e_src e ∈ v_id <$> dg_verts g;
  wf_tgt : forall e, e ∈ dg_edges g -> e_tgt e ∈ v_id <$> dg_verts g;
  wf_pair : NoDup ((fun e => (e_src e, e_tgt e)) <$> dg_edges g);
  wf_noself : forall e, e ∈ dg_edges g -> e_src e <> e_tgt e;
  wf_inv : forall e, e ∈ dg_edges g ->
             exists e', e' ∈ dg_edges g /\ e_src e' = e_tgt e /\ e_tgt e' = e_src e /\
                        (e_prop e' = einv (e_prop e) \/ e_prop e = einv (e_prop e'));
  wf_nv : dg_nv g = length (dg_verts g);
  wf_ne : dg_ne g = length (dg_edges g);
  wf_idx : NoDup (v_index <$> dg_verts g);
  wf_idxb : forall r, r ∈ dg_verts g -> v_index r < dg_maxvi g }.

Lemma dg_wf_empty : dg_wf bg_empty.
Proof.
  split; cbn; try (by constructor); try (by intros ? ?%elem_of_nil); try lia.
  intros f v. rewrite lookup_empty. split; [done|]. by intros (r & ?%elem_of_nil & _).
Qed.

Lemma bg_alive_iff (g : digraph D E) v : bg_alive g v = true <-> v ∈ v_id <$> dg_verts g.
Proof.
  unfold bg_alive. rewrite existsb_exists, elem_of_list_fmap. split.
  - intros (r & Hr & Heq%Nat.eqb_eq). exists r. split; [done|]. by apply elem_of_list_In.
  - intros (r & -> & Hr). exists r. split; [by apply elem_of_list_In|]. apply Nat.eqb_refl.
Qed.

Lemma bg_vrec_iff (g : digraph D E) v r : dg_wf g ->
  bg_vrec g v = Some r <-> r ∈ dg_verts g /\ v_id r = v.
Proof.
  intros Hwf. unfold bg_vrec. split.
  - intros [Hr Heq%Nat.eqb_eq]%find_iff. done.
  - intros [Hr <-]. apply (find_uniq v_id); [by apply wf_vid|done|apply Nat.eqb_refl|].
    intros y ?%Nat.eqb_eq. done.
Qed.

Lemma bg_alive_vrec (g : digraph D E) v : dg_wf g ->
  bg_alive g v = true <-> is_Some (bg_vrec g v).
Proof.
  intros Hwf. rewrite bg_alive_iff, elem_of_list_fmap. split.
  - intros (r & -> & Hr). exists r. by apply bg_vrec_iff.
  - intros (r & [Hr <-]%bg_vrec_iff); [|done]. by exists r.
Qed.

Lemma bg_erec_iff (g : digraph D E) i e : dg_wf g ->
  bg_erec g i = Some e <-> e ∈ dg_edges g /\ e_id e = i.
Proof.
  intros Hwf. unfold bg_erec. split.
  - intros [Hr Heq%Nat.eqb_eq]%find_iff. done.
  - intros [Hr <-]. apply (find_uniq e_id); [by apply wf_eid|done|apply Nat.eqb_refl|].
    intros y ?%Nat.eqb_eq. done.
Qed.

Lemma bg_edge_iff (g : digraph D E) u v e : dg_wf g ->
  bg_edge g u v = Some e <-> e ∈ dg_edges g /\ e_src e = u /\ e_tgt e = v.
Proof.
  intros Hwf. unfold bg_edge. split.
  - intros [Hr [?%Nat.eqb_eq ?%Nat.eqb_eq]%andb_true_iff]%find_iff. done.
  - intros (Hr & <- & <-).
    apply (find_uniq (fun e => (e_src e, e_tgt e))); [by apply wf_pair|done| |].
    + by rewrite !Nat.eqb_refl.
    + intros y [?%Nat.eqb_eq ?%Nat.eqb_eq]%andb_true_iff. by f_equal.
Qed.

Lemma bg_edge_none (g : digraph D E) u v :
  bg_edge g u v = None <-> forall e, e ∈ dg_edges g -> ~ (e_src e = u /\ e_tgt e = v).
Proof.
  unfold bg_edge. split.
  - intros Hn e He [<- <-]. apply elem_of_list_In in He.
    pose proof (find_none _ _ Hn e He) as Hf. cbn in Hf. by rewrite !Nat.eqb_refl in Hf.
  - intros Hn. destruct (find _ _) as [e|] eqn:Hf; [|done].
    apply find_iff in Hf as [He [?%Nat.eqb_eq ?%Nat.eqb_eq]%andb_true_iff].
    exfalso. by apply (Hn e He).
Qed.

Lemma bg_vertex_null (g : digraph D E) f : dg_wf g ->
  bg_vertex g f = null_vertex <-> dg_map g !! f = None.
Proof.
  intros Hwf. unfold bg_vertex, null_vertex. destruct (dg_map g !! f) as [v|] eqn:Hm; cbn; [|done].
  split; [|done]. intros ->. apply wf_map in Hm as (r & Hr & Hv & _); [|done].
  apply wf_vbound in Hr; [|done]. lia.
Qed.

Lemma bg_vertex_some (g : digraph D E) f v : dg_map g !! f = Some v -> bg_vertex g f = v.
Proof. intros Hm. unfold bg_vertex. by rewrite Hm. Qed.

Lemma wf_map_alive (g : digraph D E) f v : dg_wf g -> dg_map g !! f = Some v ->
  bg_alive g v = true.
Proof.
  intros Hwf (r & Hr & <- & _)%wf_map; [|done]. apply bg_alive_iff.
  by apply elem_of_list_fmap_1.
Qed.

Lemma wf_src_alive (g : digraph D E) e : dg_wf g -> e ∈ dg_edges g -> bg_alive g (e_src e) = true.
Proof. intros Hwf He. apply bg_alive_iff. by apply wf_src. Qed.
Lemma wf_tgt_alive (g : digraph D E) e : dg_wf g -> e ∈ dg_edges g -> bg_alive g (e_tgt e) = true.
Proof. intros Hwf He. apply bg_alive_iff. by apply wf_tgt. Qed.

Lemma wf_map_inj (g : digraph D E) f1 f2 v : dg_wf g ->
  dg_map g !! f1 = Some v -> dg_map g !! f2 = Some v -> f1 = f2.
Proof.
  intros Hwf (r1 & H1 & Hv1 & <-)%wf_map (r2 & H2 & Hv2 & <-)%wf_map; try done.
  f_equal. eapply (NoDup_fmap_inj v_id); eauto using wf_vid. congruence.
Qed.

Lemma wf_alive_map (g : digraph D E) v : dg_wf g -> bg_alive g v = true ->
  exists f, dg_map g !! f = Some v /\ v_name <$> bg_vrec g v = Some f.
Proof.
  intros Hwf [r Hr]%bg_alive_vrec; [|done]. exists (v_name r). rewrite Hr. split; [|done].
  apply bg_vrec_iff in Hr as [Hr <-]; [|done]. apply wf_map; eauto.
Qed.

Lemma map_vrec (g : digraph D E) f v : dg_wf g -> dg_map g !! f = Some v ->
  exists r, bg_vrec g v = Some r /\ v_name r = f.
Proof.
  intros Hwf (r & Hr & <- & <-)%wf_map; [|done]. exists r. split; [|done]. by apply bg_vrec_iff.
Qed.

(** *** Primitive labelled transitions of the boost graph *)

(* add a pair of inverse edges *)
Definition dg_add2 (o t : vid) (p : E) (g : digraph D E) : digraph D E :=
  fst (bg_add_edge t o (einv p) (fst (bg_add_edge o t p g))).

(* remove two edges by id *)
Definition dg_rem2 (i j : eid) (g : digraph D E) : digraph D E :=
  Digraph (dg_verts g) (filter (fun e => e_id e <> i /\ e_id e <> j) (dg_edges g)) (dg_map g)
          (dg_nextv g) (dg_nexte g) (dg_maxvi g) (dg_nv g) (pred (pred (dg_ne g))).

Inductive lstep : digraph D E -> list event -> digraph D E -> Prop :=
| LAddVertex g f d :
    dg_map g !! f = None ->
    lstep g [EvFrameAdded f] (fst (bg_add_vertex f d g))
| LAddPair g o t p fo ft :
    dg_map g !! fo = Some o -> dg_map g !! ft = Some t ->
    o <> t -> bg_edge g o t = None ->
    lstep g [EvEdgeAdded fo ft (dg_nexte g)] (dg_add2 o t p g)
| LRemPair g o t e1 e2 fo ft :
    dg_map g !! fo = Some o -> dg_map g !! ft = Some t ->
    bg_edge g o t = Some e1 -> bg_edge g t o = Some e2 ->
    lstep g [EvEdgeRemoved fo ft] (dg_rem2 (e_id e1) (e_id e2) g)
| LSetPair g o t p e1 e2 fo ft :
    dg_map g !! fo = Some o -> dg_map g !! ft = Some t ->
    bg_edge g o t = Some e1 -> bg_edge g t o = Some e2 ->
    lstep g [EvEdgeModified fo ft (e_id e1) (e_id e2)]
      (bg_set_prop (e_id e2) (einv p) (bg_set_prop (e_id e1) p g))
| LRemVertex g v f :
    dg_map g !! f = Some v -> bg_degree g v = 0 ->
    lstep g [EvFrameRemoved f] (bg_remove_vertex v f g)
| LSetData g v d :
    lstep g [] (bg_set_data v d g).

Inductive lsteps : digraph D E -> list event -> digraph D E -> Prop :=
| lsteps_nil g : lsteps g [] g
| lsteps_cons g1 ev1 g2 ev2 g3 :
    lstep g1 ev1 g2 -> lsteps g2 ev2 g3 -> lsteps g1 (ev1 ++ ev2) g3.

Lemma lsteps_one g ev g' : lstep g ev g' -> lsteps g ev g'.
Proof. intros. rewrite <- (app_nil_r ev). econstructor; [done|constructor]. Qed.

Lemma lsteps_app g1 ev1 g2 ev2 g3 :
  lsteps g1 ev1 g2 -> lsteps g2 ev2 g3 -> lsteps g1 (ev1 ++ ev2) g3.
Proof.
  induction 1; [done|]. intros. rewrite <- app_assoc. econstructor; eauto.
Qed.

(** *** Preservation *)

Lemma wf_add_vertex g f d : dg_wf g -> dg_map g !! f = None ->
  dg_wf (fst (bg_add_vertex f d g)).
Proof.
  intros Hwf Hm. unfold bg_add_vertex. rewrite Hm. cbn.
  assert (Hfresh : forall r, r ∈ dg_verts g -> v_name r <> f).
  { intros r Hr <-. assert (dg_map g !! v_name r = Some (v_id r)) as Hx by (apply wf_map; eauto).
    congruence. }
  split; cbn; try (by apply Hwf).
  - rewrite fmap_app. cbn. apply NoDup_app. split; [by apply wf_vid|]. split.
    + intros v (r & -> & Hr)%elem_of_list_fmap Heq%elem_of_list_singleton.
      destruct (wf_vbound g Hwf r Hr). lia.
    + apply NoDup_singleton.
  - rewrite fmap_app. cbn. apply NoDup_app. split; [by apply wf_vname|]. split.
    + intros v (r & -> & Hr)%elem_of_list_fmap Hr2%elem_of_list_singleton.
      by apply (Hfresh r).
    + apply NoDup_singleton.
  - intros f' v. rewrite lookup_insert_Some. split.
    + intros [[<- <-]|[Hne Hl]].
      * eexists. split; [apply elem_of_app; right; by apply elem_of_list_singleton|]. done.
      * apply wf_map in Hl as (r & Hr & ? & ?); [|done]. exists r. split; [|done].
        apply elem_of_app. by left.
    + intros (r & [Hr|Hr]%elem_of_app & <- & <-).
      * right. split; [intros Heq; by apply (Hfresh r Hr)|]. apply wf_map; eauto.
      * apply elem_of_list_singleton in Hr as ->. by left.
  - intros r [Hr| ->%elem_of_list_singleton]%elem_of_app; cbn.
    + destruct (wf_vbound g Hwf r Hr). lia.
    + pose proof (wf_nv0 g Hwf). lia.
  - lia.
  - intros e He. rewrite fmap_app. apply elem_of_app. left. by apply wf_src.
  - intros e He. rewrite fmap_app. apply elem_of_app. left. by apply wf_tgt.
  - rewrite app_length. cbn. rewrite (wf_nv g Hwf). lia.
  - rewrite fmap_app. cbn. apply NoDup_app. split; [by apply wf_idx|]. split.
    + intros v (r & -> & Hr)%elem_of_list_fmap Hr2%elem_of_list_singleton.
      pose proof (wf_idxb g Hwf r Hr). lia.
    + apply NoDup_singleton.
  - intros r [Hr| ->%elem_of_list_singleton]%elem_of_app; cbn; [|lia].
    pose proof (wf_idxb g Hwf r Hr). lia.
Qed.

Lemma wf_edge_sym g o t : dg_wf g -> bg_edge g o t = None -> bg_edge g t o = None.
Proof.
  intros Hwf Hn. apply bg_edge_none. intros e He [Hs Ht].
  destruct (wf_inv g Hwf e He) as (e' & He' & Hs' & Ht' & _).
  rewrite bg_edge_none in Hn. apply (Hn e' He'). split; congruence.
Qed.

Lemma wf_add2 g o t p : dg_wf g -> bg_alive g o = true -> bg_alive g t = true -> o <> t ->
  bg_edge g o t = None -> dg_wf (dg_add2 o t p g).
Proof.
  intros Hwf Ho Ht Hot Hn. pose proof (wf_edge_sym g o t Hwf Hn) as Hn'.
  rewrite bg_alive_iff in Ho, Ht. rewrite bg_edge_none in Hn, Hn'.
  split; cbn; try (by apply Hwf); rewrite <-?app_assoc; cbn.
  - rewrite fmap_app. cbn. apply NoDup_app. split; [by apply wf_eid|]. split.
    + intros v (r & -> & Hr)%elem_of_list_fmap. destruct (wf_ebound g Hwf r Hr).
      rewrite elem_of_cons, elem_of_list_singleton. lia.
    + apply NoDup_cons. split; [rewrite elem_of_list_singleton; lia|apply NoDup_singleton].
  - intros e [He|He]%elem_of_app.
    + destruct (wf_ebound g Hwf e He). lia.
    + pose proof (wf_ne0 g Hwf).
      apply elem_of_cons in He as [->| ->%elem_of_list_singleton]; cbn; lia.
  - lia.
  - intros e [He|He]%elem_of_app; [by apply wf_src|].
    apply elem_of_cons in He as [->| ->%elem_of_list_singleton]; done.
  - intros e [He|He]%elem_of_app; [by apply wf_tgt|].
    apply elem_of_cons in He as [->| ->%elem_of_list_singleton]; done.
  - rewrite fmap_app. cbn. apply NoDup_app. split; [by apply wf_pair|]. split.
    + intros v (r & -> & Hr)%elem_of_list_fmap.
      rewrite elem_of_cons, elem_of_list_singleton. intros [[= H1 H2]|[= H1 H2]].
      * by apply (Hn r).
      * by apply (Hn' r).
    + apply NoDup_cons. split; [rewrite elem_of_list_singleton; congruence|apply NoDup_singleton].
  - intros e [He|He]%elem_of_app; [by apply (wf_noself g)|].
    apply elem_of_cons in He as [->| ->%elem_of_list_singleton]; cbn; congruence.
  - intros e [He|He]%elem_of_app.
    + destruct (wf_inv g Hwf e He) as (e' & He' & ?). exists e'. split; [|done].
      apply elem_of_app. by left.
    + apply elem_of_cons in He as [->| ->%elem_of_list_singleton]; cbn.
      * exists (ERec (S (dg_nexte g)) t o (einv p)). split; [|cbn; auto].
        apply elem_of_app. right. set_solver.
      * exists (ERec (dg_nexte g) o t p). split; [|cbn; auto].
        apply elem_of_app. right. set_solver.
  - rewrite app_length. cbn. rewrite (wf_ne g Hwf). lia.
Qed.

Lemma wf_rem2 g o t e1 e2 : dg_wf g -> bg_edge g o t = Some e1 -> bg_edge g t o = Some e2 ->
  dg_wf (dg_rem2 (e_id e1) (e_id e2) g).
Proof.
  intros Hwf (H1 & Hs1 & Ht1)%bg_edge_iff (H2 & Hs2 & Ht2)%bg_edge_iff; try done.
  assert (Hne : e_id e1 <> e_id e2).
  { intros Heq. assert (e1 = e2) as -> by (eapply (NoDup_fmap_inj e_id); eauto using wf_eid).
    apply (wf_noself g Hwf e2 H2). congruence. }
  split; cbn; try (by apply Hwf).
  - apply NoDup_fmap_filter, wf_eid, Hwf.
  - intros e [_ He]%elem_of_list_filter. by apply wf_ebound.
  - intros e [_ He]%elem_of_list_filter. by apply wf_src.
  - intros e [_ He]%elem_of_list_filter. by apply wf_tgt.
  - apply NoDup_fmap_filter, wf_pair, Hwf.
  - intros e [_ He]%elem_of_list_filter. by apply (wf_noself g).
  - intros e [[Hi1 Hi2] He]%elem_of_list_filter.
    destruct (wf_inv g Hwf e He) as (e' & He' & Hs & Ht & Hp).
    exists e'. split; [|done]. apply elem_of_list_filter. split; [|done].
    split; intros Heq; assert (e' = e1 \/ e' = e2) as Hc.
    { left. eapply (NoDup_fmap_inj e_id); eauto using wf_eid. }
    { destruct Hc as [-> | ->]; [apply Hi2|congruence]. f_equal.
      eapply (NoDup_fmap_inj (fun e => (e_src e, e_tgt e))); eauto using wf_pair.
      cbn. f_equal; congruence. }
    { right. eapply (NoDup_fmap_inj e_id); eauto using wf_eid. }
    { destruct Hc as [-> | ->]; [congruence|apply Hi1]. f_equal.
      eapply (NoDup_fmap_inj (fun e => (e_src e, e_tgt e))); eauto using wf_pair.
      cbn. f_equal; congruence. }
  - rewrite (wf_ne g Hwf).
    pose proof (length_filter_ne e_id (e_id e1) (dg_edges g) (wf_eid g Hwf)
                  (elem_of_list_fmap_1 _ _ _ H1)) as L1.
    assert (Hin : e2 ∈ filter (fun e => e_id e <> e_id e1) (dg_edges g)).
    { apply elem_of_list_filter. split; [congruence|done]. }
    pose proof (length_filter_ne e_id (e_id e2) (filter (fun e => e_id e <> e_id e1) (dg_edges g))
       (NoDup_fmap_filter _ _ _ (wf_eid g Hwf)) (elem_of_list_fmap_1 _ _ _ Hin)) as L2.
    rewrite filter_filter in L2. lia.
Qed.

Lemma set_prop_fmap {B} (k : erec E -> B) i p g :
  (forall e q, k (ERec (e_id e) (e_src e) (e_tgt e) q) = k e) ->
  k <$> dg_edges (bg_set_prop (D:=D) i p g) = k <$> dg_edges g.
Proof.
  intros Hk. cbn. rewrite <- list_fmap_compose. apply list_fmap_ext. intros n e _. cbn.
  destruct (_ =? _); [apply Hk|done].
Qed.

Lemma elem_of_set_prop i p (g : digraph D E) e :
  e ∈ dg_edges (bg_set_prop i p g) <->
  (exists e0, e0 ∈ dg_edges g /\ e_id e0 = i /\ e = ERec i (e_src e0) (e_tgt e0) p) \/
  (e ∈ dg_edges g /\ e_id e <> i).
Proof.
  cbn. rewrite elem_of_list_fmap. split.
  - intros (e0 & -> & He0). destruct (Nat.eqb_spec (e_id e0) i) as [<-|Hne]; [left; eauto|by right].
  - intros [(e0 & He0 & <- & ->)|[He Hne]].
    + exists e0. by rewrite Nat.eqb_refl.
    + exists e. apply Nat.eqb_neq in Hne. by rewrite Hne.
Qed.

Lemma wf_set2 g o t p e1 e2 : dg_wf g -> bg_edge g o t = Some e1 -> bg_edge g t o = Some e2 ->
  dg_wf (bg_set_prop (e_id e2) (einv p) (bg_set_prop (e_id e1) p g)).
Proof.
  intros Hwf (H1 & Hs1 & Ht1)%bg_edge_iff (H2 & Hs2 & Ht2)%bg_edge_iff; try done.
  assert (Hne : e_id e1 <> e_id e2).
  { intros Heq. assert (e1 = e2) as -> by (eapply (NoDup_fmap_inj e_id); eauto using wf_eid).
    apply (wf_noself g Hwf e2 H2). congruence. }
  set (g2 := bg_set_prop _ _ _).
  assert (Hin : forall e, e ∈ dg_edges g2 <->
    e = ERec (e_id e1) o t p \/ e = ERec (e_id e2) t o (einv p) \/
    (e ∈ dg_edges g /\ e_id e <> e_id e1 /\ e_id e <> e_id e2)).
  { intros e. unfold g2. rewrite elem_of_set_prop. setoid_rewrite elem_of_set_prop. split.
    - intros [(e0 & [(e3 & He3 & ? & ->)|[He0 ?]] & ? & ->)|[[(e3 & He3 & Hi & ->)|[He0 ?]] ?]].
      + done.
      + right; left. assert (e0 = e2) as -> by (eapply (NoDup_fmap_inj e_id); eauto using wf_eid).
        congruence.
      + left. assert (e3 = e1) as -> by (eapply (NoDup_fmap_inj e_id); eauto using wf_eid).
        congruence.
      + auto.
    - intros [->|[->|(He & ? & ?)]].
      + right. split; [|done]. left. exists e1. subst. done.
      + left. exists e2. split; [|split; [done|congruence]]. right. split; [done|congruence].
      + right. split; [|done]. by right. }
  assert (Hk : forall B (k : erec E -> B),
    (forall e q, k (ERec (e_id e) (e_src e) (e_tgt e) q) = k e) ->
    k <$> dg_edges g2 = k <$> dg_edges g).
  { intros B k Hkk. unfold g2. by rewrite !set_prop_fmap. }
  assert (Hold : forall e, e ∈ dg_edges g2 -> exists e0, e0 ∈ dg_edges g /\ e_id e0 = e_id e /\
     e_src e0 = e_src e /\ e_tgt e0 = e_tgt e).
  { intros e He. apply Hin in He as [->|[->|(He & _ & _)]]; [exists e1|exists e2|exists e]; cbn; auto. }
  split; try (by apply Hwf).
  - rewrite Hk by done. by apply wf_eid.
  - intros e (e0 & He0 & <- & _)%Hold. by apply (wf_ebound g).
  - intros e (e0 & He0 & _ & <- & _)%Hold. by apply (wf_src g).
  - intros e (e0 & He0 & _ & _ & <-)%Hold. by apply (wf_tgt g).
  - rewrite Hk by done. by apply wf_pair.
  - intros e (e0 & He0 & _ & <- & <-)%Hold. by apply (wf_noself g).
  - intros e. rewrite Hin. intros [->|[->|(He & Hi1 & Hi2)]].
    + exists (ERec (e_id e2) t o (einv p)). split; [apply Hin|cbn]; auto.
    + exists (ERec (e_id e1) o t p). split; [apply Hin|cbn]; auto 10.
    + destruct (wf_inv g Hwf e He) as (e' & He' & Hs & Ht & Hp).
      exists e'. split; [|done]. apply Hin. right; right. split; [done|].
      split; intros Heq.
      * assert (e' = e1) as -> by (eapply (NoDup_fmap_inj e_id); eauto using wf_eid).
        apply Hi2. f_equal.
        eapply (NoDup_fmap_inj (fun e => (e_src e, e_tgt e))); eauto using wf_pair.
        cbn. f_equal; congruence.
      * assert (e' = e2) as -> by (eapply (NoDup_fmap_inj e_id); eauto using wf_eid).
        apply Hi1. f_equal.
        eapply (NoDup_fmap_inj (fun e => (e_src e, e_tgt e))); eauto using wf_pair.
        cbn. f_equal; congruence.
  - cbn. rewrite !fmap_length. apply (wf_ne g Hwf).
Qed.

Lemma wf_degree0 (g : digraph D E) v : bg_degree g v = 0 ->
  forall e, e ∈ dg_edges g -> e_src e <> v /\ e_tgt e <> v.
Proof.
  unfold bg_degree, bg_in, bg_out. intros Hd e He.
  destruct (filter (fun e => e_tgt e = v) _) eqn:Hi; [|done].
  destruct (filter (fun e => e_src e = v) _) eqn:Ho; [|done].
  split; intros Heq.
  - assert (Hx : e ∈ filter (fun e => e_src e = v) (dg_edges g)) by by apply elem_of_list_filter.
    rewrite Ho in Hx. by apply elem_of_nil in Hx.
  - assert (Hx : e ∈ filter (fun e => e_tgt e = v) (dg_edges g)) by by apply elem_of_list_filter.
    rewrite Hi in Hx. by apply elem_of_nil in Hx.
Qed.

Lemma wf_remove_vertex g v f : dg_wf g -> dg_map g !! f = Some v -> bg_degree g v = 0 ->
  dg_wf (bg_remove_vertex v f g).
Proof.
  intros Hwf Hm Hd. pose proof (wf_degree0 g v Hd) as Hfree.
  destruct (proj1 (wf_map g Hwf f v) Hm) as (r & Hr & Hrv & Hrf).
  assert (Hkeep : forall u, u ∈ v_id <$> dg_verts g -> u <> v ->
      u ∈ v_id <$> filter (fun r => v_id r <> v) (dg_verts g)).
  { intros u (r' & -> & Hr')%elem_of_list_fmap Hne. apply elem_of_list_fmap_1.
    by apply elem_of_list_filter. }
  split; cbn; try (by apply Hwf).
  - apply NoDup_fmap_filter, wf_vid, Hwf.
  - apply NoDup_fmap_filter, wf_vname, Hwf.
  - intros f' v'. rewrite lookup_delete_Some. split.
    + intros [Hne Hm']. apply wf_map in Hm' as (r' & Hr' & Hv' & Hf'); [|done].
      exists r'. split; [|done]. apply elem_of_list_filter. split; [|done].
      intros Heq. apply Hne. assert (r = r') as ->; [|congruence].
      eapply (NoDup_fmap_inj v_id); eauto using wf_vid. congruence.
    + intros (r' & [Hne Hr']%elem_of_list_filter & Hv' & Hf'). split.
      * intros ->. apply Hne. assert (r = r') as ->; [|congruence].
        eapply (NoDup_fmap_inj v_name); eauto using wf_vname. congruence.
      * apply wf_map; eauto.
  - intros r' [_ Hr']%elem_of_list_filter. by apply wf_vbound.
  - intros e He. apply Hkeep; [by apply wf_src|]. by apply Hfree.
  - intros e He. apply Hkeep; [by apply wf_tgt|]. by apply Hfree.
  - rewrite (wf_nv g Hwf).
    pose proof (length_filter_ne v_id v (dg_verts g) (wf_vid g Hwf)) as L.
    rewrite <- Hrv in L at 1. specialize (L (elem_of_list_fmap_1 _ _ _ Hr)). lia.
  - apply NoDup_fmap_filter, wf_idx, Hwf.
  - intros r' [_ Hr']%elem_of_list_filter. by apply wf_idxb.
Qed.

Lemma set_data_fmap {B} (k : vrec D -> B) v d (g : digraph D E) :
  (forall r q, k (VRec (v_id r) (v_index r) (v_name r) q) = k r) ->
  k <$> dg_verts (bg_set_data v d g) = k <$> dg_verts g.
Proof.
  intros Hk. cbn. rewrite <- list_fmap_compose. apply list_fmap_ext. intros n e _. cbn.
  destruct (_ =? _); [apply Hk|done].
Qed.

Lemma wf_set_data g v d : dg_wf g -> dg_wf (bg_set_data v d g).
Proof.
  intros Hwf.
  assert (Hold : forall r, r ∈ dg_verts (bg_set_data v d g) -> exists r0, r0 ∈ dg_verts g /\
     v_id r0 = v_id r /\ v_name r0 = v_name r /\ v_index r0 = v_index r).
  { cbn. intros r (r0 & -> & Hr0)%elem_of_list_fmap. exists r0. destruct (_ =? _); done. }
  assert (Hnew : forall r, r ∈ dg_verts g -> exists r0, r0 ∈ dg_verts (bg_set_data v d g) /\
     v_id r0 = v_id r /\ v_name r0 = v_name r /\ v_index r0 = v_index r).
  { cbn. intros r Hr. eexists. split; [by apply elem_of_list_fmap_1|]. destruct (_ =? _); done. }
  split; try (by apply Hwf).
  - rewrite set_data_fmap by done. by apply wf_vid.
  - rewrite set_data_fmap by done. by apply wf_vname.
  - intros f u. cbn [dg_map bg_set_data].
    rewrite (wf_map g Hwf f u). split.
    + intros (r & Hr & <- & <-). destruct (Hnew r Hr) as (r0 & ? & ? & ? & ?). eauto.
    + intros (r & Hr & <- & <-). destruct (Hold r Hr) as (r0 & ? & ? & ? & ?). eauto.
  - intros r (r0 & Hr0 & <- & _)%Hold. by apply (wf_vbound g).
  - intros e He. rewrite set_data_fmap by done. by apply (wf_src g).
  - intros e He. rewrite set_data_fmap by done. by apply (wf_tgt g).
  - cbn. rewrite fmap_length. apply (wf_nv g Hwf).
  - rewrite set_data_fmap by done. by apply wf_idx.
  - intros r (r0 & Hr0 & _ & _ & <-)%Hold. by apply (wf_idxb g).
Qed.

Lemma lstep_wf g ev g' : dg_wf g -> lstep g ev g' -> dg_wf g'.
Proof.
  intros Hwf Hs. destruct Hs; eauto using wf_add_vertex, wf_rem2, wf_set2, wf_remove_vertex,
    wf_set_data.
  apply wf_add2; eauto using wf_map_alive.
Qed.

Lemma lsteps_wf g ev g' : dg_wf g -> lsteps g ev g' -> dg_wf g'.
Proof. intros Hwf Hs. induction Hs; eauto using lstep_wf. Qed.

End wf.
