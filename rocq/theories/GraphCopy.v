(** Proofs about boost::copy_graph and regenerateLabelMap. *)
From stdpp Require Import prelude strings gmap.
From Verif Require Import Outcome ListLib Digraph TreeView GraphModel GraphOps GraphWf GraphStep SpecStore SpecObs
  GraphStore GraphRefine GraphThms.

Section copy.
Context {D E : Type} (einv : E -> E).
Local Notation dg_wf := (dg_wf (D := D) einv).
Implicit Types g : digraph D E.

Lemma position_lookup v (vs : list (vrec D)) : v ∈ v_id <$> vs -> exists r, vs !! position v vs = Some r /\ v_id r = v.
Proof.
  induction vs as [|r vs IH]; cbn; [by intros ?%elem_of_nil|]. destruct (Nat.eqb_spec (v_id r) v) as [Heq|Hne].
  - intros _. by exists r.
  - intros [->|H]%elem_of_cons; [done|]. by apply IH.
Qed.
Lemma position_self k r (vs : list (vrec D)) : NoDup (v_id <$> vs) -> vs !! k = Some r -> position (v_id r) vs = k.
Proof.
  intros Hnd Hk. destruct (position_lookup (v_id r) vs) as (r' & Hr' & Hid).
  { apply elem_of_list_fmap_1. by eapply elem_of_list_lookup_2. }
  eapply NoDup_lookup; [exact Hnd| |]; rewrite list_lookup_fmap; [by rewrite Hr'; cbn; rewrite Hid|by rewrite Hk].
Qed.
Lemma position_inj u v (vs : list (vrec D)) : u ∈ v_id <$> vs -> v ∈ v_id <$> vs -> position u vs = position v vs -> u = v.
Proof.
  intros (r & Hr & <-)%position_lookup (q & Hq & <-)%position_lookup Heq. rewrite Heq in Hr. congruence.
Qed.

Lemma imap_seq {A} (l : list A) : imap (fun k _ => S k) l = seq 1 (length l).
Proof.
  apply list_eq. intros k. rewrite list_lookup_imap. destruct (l !! k) as [x|] eqn:Hk; cbn.
  - rewrite lookup_seq_lt; [done|]. by eapply lookup_lt_Some.
  - symmetry. apply lookup_seq_ge. by apply lookup_ge_None.
Qed.
Lemma imap_seq0 {A} (l : list A) : imap (fun k _ => k) l = seq 0 (length l).
Proof.
  apply list_eq. intros k. rewrite list_lookup_imap. destruct (l !! k) as [x|] eqn:Hk; cbn.
  - rewrite lookup_seq_lt; [done|]. by eapply lookup_lt_Some.
  - symmetry. apply lookup_seq_ge. by apply lookup_ge_None.
Qed.

Lemma regenerate_lookup m (vs : list (vrec D)) f v : NoDup (v_name <$> vs) ->
  regenerate_label_map m vs !! f = Some v <->
  (exists r, r ∈ vs /\ v_name r = f /\ v_id r = v) \/ (f ∉ v_name <$> vs /\ m !! f = Some v).
Proof.
  unfold regenerate_label_map. revert m. induction vs as [|r vs IH]; intros m Hnd; cbn.
  { split; [intros H; right; split; [apply not_elem_of_nil|done]|]. by intros [(r & ?%elem_of_nil & _)|[_ ?]]. }
  cbn in Hnd. apply list.NoDup_cons in Hnd as [Hn Hnd]. rewrite IH by done. rewrite not_elem_of_cons. split.
  - intros [(q & Hq & Hf & Hv)|[Hf Hv]]; [left; exists q; split; [by right|done]|].
    apply lookup_insert_Some in Hv as [[Hf2 Hv]|[Hne Hv]]; [left; exists r; split; [left|done]|].
    right. by split.
  - intros [(q & [->|Hq]%elem_of_cons & Hf & Hv)|[[Hne Hf] Hv]].
    + right. subst. split; [done|]. apply lookup_insert.
    + left. eauto.
    + right. split; [done|]. by rewrite lookup_insert_ne.
Qed.

(** The copied parts. *)
Definition cverts g : list (vrec D) := imap (fun k r => VRec (S k) k (v_name r) (v_data r)) (dg_verts g).
Definition cedges g : list (erec E) :=
  imap (fun k e => ERec (S k) (S (position (e_src e) (dg_verts g))) (S (position (e_tgt e) (dg_verts g))) (e_prop e)) (dg_edges g).
Definition cgraph g : digraph D E :=
  Digraph (cverts g) (cedges g) (regenerate_label_map ∅ (cverts g)) (S (length (dg_verts g))) (S (length (cedges g)))
    (length (dg_verts g)) (length (dg_verts g)) (length (cedges g)).

Lemma copy_graph_eq (s : gst D E) c : copy_graph s = Ret c -> c = GSt (cgraph (gs_dg s)) [] ∅.
Proof. unfold copy_graph. destruct (forallb _ _); [|done]. by intros [= <-]. Qed.
Lemma copy_graph_ok (s : gst D E) : dg_wf (gs_dg s) ->
  (forall r, r ∈ dg_verts (gs_dg s) -> v_index r < length (dg_verts (gs_dg s))) ->
  copy_graph s = Ret (GSt (cgraph (gs_dg s)) [] ∅).
Proof.
  intros Hwf Hi. unfold copy_graph. assert (forallb (fun r => Nat.ltb (v_index r) (dg_nv (gs_dg s))) (dg_verts (gs_dg s)) = true) as ->; [|done].
  apply forallb_forall. intros r Hr%elem_of_list_In. apply Nat.ltb_lt. rewrite (wf_nv einv _ Hwf). by apply Hi.
Qed.

Lemma cverts_in g r : r ∈ cverts g <-> exists k q, dg_verts g !! k = Some q /\ r = VRec (S k) k (v_name q) (v_data q).
Proof.
  rewrite elem_of_list_lookup. unfold cverts. split.
  - intros [k Hk]. rewrite list_lookup_imap in Hk. destruct (dg_verts g !! k) as [q|] eqn:Hq; [|done]. exists k, q. by injection Hk.
  - intros (k & q & Hq & ->). exists k. rewrite list_lookup_imap. by rewrite Hq.
Qed.
Lemma cedges_in g e : e ∈ cedges g <-> exists k q, dg_edges g !! k = Some q /\
  e = ERec (S k) (S (position (e_src q) (dg_verts g))) (S (position (e_tgt q) (dg_verts g))) (e_prop q).
Proof.
  rewrite elem_of_list_lookup. unfold cedges. split.
  - intros [k Hk]. rewrite list_lookup_imap in Hk. destruct (dg_edges g !! k) as [q|] eqn:Hq; [|done]. exists k, q. by injection Hk.
  - intros (k & q & Hq & ->). exists k. rewrite list_lookup_imap. by rewrite Hq.
Qed.
Lemma cverts_names g : v_name <$> cverts g = v_name <$> dg_verts g.
Proof.
  unfold cverts. rewrite fmap_imap. apply list_eq. intros k. rewrite list_lookup_imap, list_lookup_fmap. by destruct (_ !! k).
Qed.
Lemma cverts_ids g : v_id <$> cverts g = seq 1 (length (dg_verts g)).
Proof. unfold cverts. rewrite fmap_imap. rewrite <- imap_seq. apply imap_ext. done. Qed.

Lemma cgraph_map g f : dg_wf g -> dg_map (cgraph g) !! f = (fun v => S (position v (dg_verts g))) <$> dg_map g !! f.
Proof.
  intros Hwf. cbn [cgraph dg_map]. apply option_eq. intros v. rewrite regenerate_lookup by (rewrite cverts_names; apply (wf_vname einv _ Hwf)).
  rewrite fmap_Some. split.
  - intros [(r & (k & q & Hq & ->)%cverts_in & Hf & Hv)|[_ Hv]]; [|by rewrite lookup_empty in Hv]. cbn in Hf, Hv. exists (v_id q). split.
    + apply (wf_map einv _ Hwf). exists q. split; [by eapply elem_of_list_lookup_2|done].
    + rewrite (position_self k q); [done|apply (wf_vid einv _ Hwf)|done].
  - intros (u & (q & Hq & Hu & Hf)%(wf_map einv _ Hwf) & ->). left. apply elem_of_list_lookup in Hq as [k Hk].
    exists (VRec (S k) k (v_name q) (v_data q)). split; [apply cverts_in; eauto|]. split; [done|]. cbn.
    rewrite <- Hu, (position_self k q); [done|apply (wf_vid einv _ Hwf)|done].
Qed.

Lemma cgraph_wf g : dg_wf g -> dg_wf (cgraph g).
Proof.
  intros Hwf.
  assert (Hal : forall v, v ∈ v_id <$> dg_verts g -> S (position v (dg_verts g)) ∈ v_id <$> cverts g).
  { intros v (r & Hr & _)%position_lookup. rewrite cverts_ids. apply elem_of_seq. apply lookup_lt_Some in Hr. lia. }
  split; cbn [cgraph dg_verts dg_edges dg_map dg_nextv dg_nexte dg_maxvi dg_nv dg_ne].
  - rewrite cverts_ids. apply NoDup_seq.
  - rewrite cverts_names. apply (wf_vname einv _ Hwf).
  - intros f v. rewrite regenerate_lookup by (rewrite cverts_names; apply (wf_vname einv _ Hwf)). split.
    + intros [(r & Hr & Hf & Hv)|[_ Hv]]; [eauto|by rewrite lookup_empty in Hv].
    + intros (r & Hr & Hf & Hv). left. eauto.
  - intros r (k & q & Hq & ->)%cverts_in. cbn. apply lookup_lt_Some in Hq. lia.
  - lia.
  - unfold cedges. rewrite fmap_imap. erewrite imap_ext; [|intros ???; cbn; reflexivity]. rewrite imap_seq. apply NoDup_seq.
  - intros e (k & q & Hq & ->)%cedges_in. cbn. apply lookup_lt_Some in Hq. unfold cedges. rewrite imap_length. lia.
  - lia.
  - intros e (k & q & Hq & ->)%cedges_in. cbn. apply Hal. apply (wf_src einv _ Hwf). by eapply elem_of_list_lookup_2.
  - intros e (k & q & Hq & ->)%cedges_in. cbn. apply Hal. apply (wf_tgt einv _ Hwf). by eapply elem_of_list_lookup_2.
  - unfold cedges. rewrite fmap_imap. apply NoDup_alt. intros i j p Hi Hj. rewrite list_lookup_imap in Hi, Hj.
    destruct (dg_edges g !! i) as [e|] eqn:He; [|done]. destruct (dg_edges g !! j) as [e'|] eqn:He'; [|done].
    cbn in Hi, Hj. rewrite <- Hi in Hj. injection Hj as Hs Ht.
    pose proof (elem_of_list_lookup_2 _ _ _ He) as Hin. pose proof (elem_of_list_lookup_2 _ _ _ He') as Hin'.
    apply position_inj in Hs; [|by apply (wf_src einv _ Hwf)..]. apply position_inj in Ht; [|by apply (wf_tgt einv _ Hwf)..].
    eapply NoDup_lookup; [apply (wf_pair einv _ Hwf)| |]; rewrite list_lookup_fmap; [by rewrite He|]. rewrite He'. cbn. by rewrite Hs, Ht.
  - intros e (k & q & Hq & ->)%cedges_in. cbn. apply elem_of_list_lookup_2 in Hq. intros [= Heq].
    apply position_inj in Heq; [|by apply (wf_src einv _ Hwf)|by apply (wf_tgt einv _ Hwf)]. by apply (wf_noself einv _ Hwf q).
  - intros e (k & q & Hq & ->)%cedges_in. apply elem_of_list_lookup_2 in Hq.
    destruct (wf_inv einv _ Hwf q Hq) as (q' & Hq' & Hs & Ht & Hp). apply elem_of_list_lookup in Hq' as [k' Hk'].
    exists (ERec (S k') (S (position (e_src q') (dg_verts g))) (S (position (e_tgt q') (dg_verts g))) (e_prop q')).
    split; [apply cedges_in; eauto|]. cbn. by rewrite Hs, Ht.
  - unfold cverts. by rewrite imap_length.
  - done.
  - unfold cverts. rewrite fmap_imap. erewrite imap_ext; [|intros ???; cbn; reflexivity]. rewrite imap_seq0. apply NoDup_seq.
  - intros r (k & q & Hq & ->)%cverts_in. cbn. by eapply lookup_lt_Some.
Qed.

Lemma cgraph_repr g st : dg_wf g -> dgrepr g st -> dgrepr (cgraph g) st.
Proof.
  intros Hwf Hr. split.
  - intros f d. rewrite (dr_frames _ _ Hr). split.
    + intros (r & Hr0 & Hn & Hd). apply elem_of_list_lookup in Hr0 as [k Hk]. exists (VRec (S k) k (v_name r) (v_data r)).
      split; [apply cverts_in; eauto|done].
    + intros (r & (k & q & Hq & ->)%cverts_in & Hn & Hd). cbn in *. exists q. split; [by eapply elem_of_list_lookup_2|done].
  - intros a b p. rewrite (dr_edges _ _ Hr). rewrite !cgraph_map by done. split.
    + intros (e & He & Ha & Hb & Hp). apply elem_of_list_lookup in He as [k Hk].
      exists (ERec (S k) (S (position (e_src e) (dg_verts g))) (S (position (e_tgt e) (dg_verts g))) (e_prop e)).
      split; [apply cedges_in; eauto|]. rewrite Ha, Hb. done.
    + intros (e & (k & q & Hq & ->)%cedges_in & Ha & Hb & Hp). cbn in *. exists q. apply elem_of_list_lookup_2 in Hq as Hin.
      split; [done|]. apply fmap_Some in Ha as (u & Ha & [= Hu]). apply fmap_Some in Hb as (v & Hb & [= Hv]).
      apply position_inj in Hu; [|by apply (wf_src einv _ Hwf)|by eapply bg_alive_iff, wf_map_alive].
      apply position_inj in Hv; [|by apply (wf_tgt einv _ Hwf)|by eapply bg_alive_iff, wf_map_alive]. by subst.
Qed.

Lemma cgraph_vrec g f v r : dg_wf g -> dg_map g !! f = Some v -> bg_vrec g v = Some r ->
  exists r', bg_vrec (cgraph g) (S (position v (dg_verts g))) = Some r' /\ v_name r' = v_name r /\ v_data r' = v_data r.
Proof.
  intros Hwf Hf Hr. apply (bg_vrec_iff einv) in Hr as [Hr <-]; [|done]. apply elem_of_list_lookup in Hr as [k Hk].
  exists (VRec (S k) k (v_name r) (v_data r)). split; [|done]. apply (bg_vrec_iff einv); [by apply cgraph_wf|].
  rewrite (position_self k r); [|apply (wf_vid einv _ Hwf)|done]. split; [|done]. apply cverts_in. eauto.
Qed.

(** *** Copies look and behave like the original *)

Lemma copy_observes (s c : gst D E) st : dg_wf (gs_dg s) -> copy_graph s = Ret c -> observes s st -> observes c st.
Proof.
  intros Hwf ->%copy_graph_eq Ho. apply (dgrepr_observes einv); [by apply cgraph_wf|]. apply cgraph_repr; [done|].
  by apply (observes_dgrepr einv).
Qed.

Lemma copy_alike d0 (s c : gst D E) st h1 h2 s' ev r : dg_wf (gs_dg s) -> gs_subs s = [] -> copy_graph s = Ret c -> observes s st ->
  Forall (fun p => sop_noself (snd p)) h1 -> snd <$> h1 = snd <$> h2 ->
  run d0 einv (prod_map id call_of <$> h1) s = (s', ev, r) ->
  exists c' ev', run d0 einv (prod_map id call_of <$> h2) c = (c', ev', r) /\
    exists st', observes s' st' /\ observes c' st'.
Proof.
  intros Hwf Hsub Hc Ho Hns Heq Hr. pose proof (observes_dgrepr einv s st Hwf Ho) as Hrep.
  destruct (run_sim d0 einv s st h1 s' ev r Hwf Hrep Hsub Hns Hr) as (-> & Hwf' & Hrep' & _).
  apply copy_graph_eq in Hc as ->. destruct (run d0 einv _ (GSt _ _ _)) as [[c' ev'] r'] eqn:Hrc.
  assert (Hns2 : Forall (fun p => sop_noself (snd p)) h2).
  { assert (H : Forall sop_noself (snd <$> h1)) by (apply list.Forall_fmap; exact Hns). rewrite Heq in H. rewrite list.Forall_fmap in H. exact H. }
  destruct (run_sim d0 einv (GSt (cgraph (gs_dg s)) [] ∅) st h2 c' ev' r') as (-> & Hwfc & Hrepc & _);
    [by apply cgraph_wf|by apply cgraph_repr|done|done|done|].
  exists c', ev'. split; [done|]. eexists. split; [by apply (dgrepr_observes einv)|]. rewrite Heq. by apply (dgrepr_observes einv).
Qed.

End copy.
