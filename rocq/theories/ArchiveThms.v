(** Proofs about whole archives. *)
From Coq.Init Require Import Byte.
From stdpp Require Import prelude strings gmap.
From Verif Require Import ItemClass Outcome ListLib Digraph TreeView GraphModel GraphOps GraphWf GraphStep SpecStore SpecObs
  GraphStore GraphRefine GraphThms BufferModel SpecBuffer BufferThms GraphCopy SerialModel SpecSerial SerialThms GraphLoad ArchiveModel SpecArchive.

(** ** A graph with other frame contents *)
Section refill.
Context {D E : Type} (einv : E -> E).
Local Notation dg_wf := (dg_wf (D := D) einv).
Implicit Types g : digraph D E.

Definition refill (F : frameid -> D) g : digraph D E :=
  Digraph ((fun r => VRec (v_id r) (v_index r) (v_name r) (F (v_name r))) <$> dg_verts g) (dg_edges g) (dg_map g) (dg_nextv g) (dg_nexte g)
    (dg_maxvi g) (dg_nv g) (dg_ne g).

Lemma refill_wf F g : dg_wf g -> dg_wf (refill F g).
Proof.
  intros Hwf. assert (Hf : forall A (k : vrec D -> A), (forall r, k (VRec (v_id r) (v_index r) (v_name r) (F (v_name r))) = k r) ->
    k <$> dg_verts (refill F g) = k <$> dg_verts g).
  { intros A k Hk. cbn. rewrite <- list_fmap_compose. apply list_fmap_ext. intros ? r _. apply Hk. }
  assert (Hin : forall r, r ∈ dg_verts (refill F g) <-> exists q, q ∈ dg_verts g /\ r = VRec (v_id q) (v_index q) (v_name q) (F (v_name q))).
  { intros r. cbn [refill dg_verts]. rewrite elem_of_list_fmap. naive_solver. }
  pose proof (Hf _ v_id ltac:(done)) as H1. pose proof (Hf _ v_name ltac:(done)) as H2. pose proof (Hf _ v_index ltac:(done)) as H3.
  destruct Hwf. split; try (rewrite ?H1, ?H2, ?H3; done).
  - intros f v. cbn [refill dg_map]. rewrite wf_map. split.
    + intros (r & Hr & Hv & Hn). exists (VRec (v_id r) (v_index r) (v_name r) (F (v_name r))). split; [apply Hin; eauto|done].
    + intros (r & (q & Hq & ->)%Hin & Hv & Hn). eauto.
  - intros r (q & Hq & ->)%Hin. by apply (wf_vbound q).
  - cbn [refill dg_nv dg_verts]. by rewrite fmap_length.
  - intros r (q & Hq & ->)%Hin. by apply (wf_idxb q).
Qed.
Lemma refill_position (F : frameid -> D) v (vs : list (vrec D)) :
  position v ((fun r => VRec (v_id r) (v_index r) (v_name r) (F (v_name r))) <$> vs) = position v vs.
Proof. induction vs as [|r vs IH]; [done|]. cbn. by rewrite IH. Qed.
Lemma refill_save F g : save_graph (refill F g) = Saved ((fun r => (v_name r, F (v_name r))) <$> dg_verts g) (sv_edges (save_graph g)).
Proof.
  unfold save_graph. cbn [refill dg_verts dg_edges sv_edges]. rewrite <- list_fmap_compose. f_equal.
  apply list_fmap_ext. intros ? x _. by rewrite !refill_position.
Qed.
Lemma get_frame_property_iff s f d : dg_wf (gs_dg s) ->
  get_frame_property s f = Ret d <-> exists r, r ∈ dg_verts (gs_dg s) /\ v_name r = f /\ v_data r = d.
Proof.
  intros Hwf. unfold get_frame_property. split.
  - destruct (get_vertex s f) as [v| | |] eqn:Hv; cbn; [|done..]. destruct (bg_vrec (gs_dg s) v) as [r|] eqn:Hr; [|done].
    intros [= <-]. apply (bg_vrec_iff einv) in Hr as [Hr <-]; [|done]. exists r. split; [done|]. split; [|done].
    apply get_vertex_inv in Hv. apply (wf_map _ _ Hwf) in Hv as (q & Hq & Hid & <-).
    assert (q = r) as ->; [|done]. by apply (NoDup_fmap_inj v_id (dg_verts (gs_dg s)) q r (wf_vid _ _ Hwf)).
  - intros (r & Hr & <- & <-). rewrite (get_vertex_some einv _ _ (v_id r)); [|done|apply (wf_map _ _ Hwf); eauto].
    cbn. by rewrite (proj2 (bg_vrec_iff einv _ (v_id r) r Hwf)).
Qed.
End refill.

(** ** A graph in a file *)
Section file.
Context {P O S A I E : Type} (e : env P O S A I) (ge : genv O S A E) (cls : I -> iclass).
Local Notation items := (gmap iclass (list I)).
Local Notation grows := (grows e).
Context (sync : O -> S -> Prop) (lim : nat).
Hypothesis Hlib : libraries_add e.

Lemma restored_mono p1 p2 p p' m m' : grows p1 p -> grows p' p2 -> restored e p p' m m' -> restored e p1 p2 m m'.
Proof.
  intros Hg1 Hg2 [H1 H2]. split.
  - intros T is Hm. destruct (H1 T is Hm) as (? & ? & Hr). split; [done|]. split; [done|]. by eapply grows_registered.
  - intros T is Hm Hne Hr. apply (H2 T is Hm Hne). by eapply grows_registered.
Qed.

Lemma save_items_grows v p o l p' o' w r : save_items e cls v p o l = (p', o', w, r) -> grows p p'.
Proof.
  unfold save_items. destruct (mark_lists e cls p l) as [p1 ms] eqn:Hm.
  destruct (save_lists e cls v p1 o ms) as [[[p2 o2] w2] r2] eqn:Hs. intros [= <- <- <- <-].
  destruct (mark_lists_spec e cls Hlib _ _ _ _ Hm) as (Hg & _). eapply grows_trans; [exact Hg|].
  by eapply (save_lists_grows e cls Hlib).
Qed.
Lemma save_frames_grows v p o l p' o' w r : save_frames e ge cls v p o l = (p', o', w, r) -> grows p p'.
Proof.
  revert p o p' o' w r. induction l as [|[f is] l IH]; intros p o p' o' w r; cbn [save_frames].
  { intros [= <- <- <- <-]. apply grows_refl. }
  destruct (enc_fid ge o f) as [o1 w1]. destruct (save_items e cls v p o1 is) as [[[p2 o2] w2] r2] eqn:Hs.
  pose proof (save_items_grows _ _ _ _ _ _ _ _ Hs) as Hg. destruct r2; [|by intros [= <- <- <- <-]..].
  destruct (save_frames e ge cls v p2 o2 l) as [[[p3 o3] w3] r3] eqn:Hf. intros [= <- <- <- <-].
  eapply grows_trans; [exact Hg|]. by eapply IH.
Qed.

Section trip.
Hypothesis Hrt : round_trips e sync lim.
Hypothesis Hgt : graph_round_trips ge sync lim.

Lemma frames_trip v p o (l : list (frameid * list (iclass * list I))) (ms : list items) p' o' w s q rest :
  Forall2 (fun x m => x.2 ≡ₚ map_to_list m /\ typed cls m /\ fits lim m) l ms ->
  save_frames e ge cls v p o l = (p', o', w, Ret tt) -> sync o s ->
  (forall m T is c, m ∈ ms -> m !! T = Some is -> is <> [] -> class_name e p' T = Some c -> has_handle e p' c = true -> has_handle e q c = true) ->
  exists s' fs, load_frames e ge cls v (length l) q s (w ++ rest) = (q, s', rest, Ret fs) /\ sync o' s' /\
    fs.*1 = l.*1 /\ Forall2 (restored e p p') ms fs.*2.
Proof.
  intros Hl. revert p o p' o' w s. induction Hl as [|[f is] m l ms (Hp & Hty & Hfit) Hl IH]; intros p o p' o' w s; cbn [save_frames].
  { intros [= <- <- <-] Hs _. exists s, []. cbn. split_and!; [done|done|done|constructor]. }
  destruct (enc_fid ge o f) as [o1 w1] eqn:Hf. destruct (save_items e cls v p o1 is) as [[[p2 o2] w2] r2] eqn:Hi.
  destruct r2 as [[]| | |]; [|done..]. destruct (save_frames e ge cls v p2 o2 l) as [[[p3 o3] w3] r3] eqn:Hr. intros [= <- <- <- ->] Hs Hq.
  cbn in Hp. pose proof (save_items_grows _ _ _ _ _ _ _ _ Hi) as Hg1. pose proof (save_frames_grows _ _ _ _ _ _ _ _ Hr) as Hg2.
  rewrite <- !app_assoc. destruct (gt_fid _ _ _ Hgt _ _ _ _ _ (w2 ++ w3 ++ rest) Hs Hf) as (s1 & Hd & Hs1).
  destruct (items_trip e cls Hlib sync lim Hrt v p o1 is m p2 o2 w2 s1 q (w3 ++ rest) Hty Hfit Hp Hi Hs1) as (s2 & m' & Hd2 & Hs2 & HA & HB).
  { intros T is' c HT Hne Hc Hh. apply (Hq m T is' c); [left|done|done| |]; by apply Hg2. }
  destruct (IH p2 o2 p3 o3 w3 s2 Hr Hs2) as (s3 & fs & Hd3 & Hs3 & Hn & HF).
  { intros m0 T is' c Hm. apply Hq. by right. }
  exists s3, ((f, m') :: fs). split; [|split; [done|]].
  - cbn [length load_frames]. rewrite Hd. cbn [plain_read]. rewrite Hd2, Hd3. done.
  - split; [cbn; by rewrite Hn|]. cbn. constructor.
    + apply (restored_mono p p3 p p2); [apply grows_refl|done|done].
    + eapply Forall2_impl; [exact HF|]. intros x y. apply restored_mono; [done|apply grows_refl].
Qed.

Lemma edges_trip o l o' w s rest : Forall (fun x => x.1.1 <= lim /\ x.1.2 <= lim) l -> save_edges ge o l = (o', w) -> sync o s ->
  exists s', read_edges ge (length l) s (w ++ rest) = (s', rest, Ret l) /\ sync o' s'.
Proof.
  intros Hl. revert o o' w s. induction Hl as [|[[i j] x] l [Hi Hj] Hl IH]; intros o o' w s; cbn [save_edges].
  { intros [= <- <-] Hs. by exists s. }
  cbn in Hi, Hj. destruct (enc_num ge o i) as [o1 w1] eqn:H1. destruct (enc_num ge o1 j) as [o2 w2] eqn:H2.
  destruct (enc_prop ge o2 x) as [o3 w3] eqn:H3. destruct (save_edges ge o3 l) as [o4 w4] eqn:H4. intros [= <- <-] Hs.
  rewrite <- !app_assoc. destruct (gt_num _ _ _ Hgt _ _ _ _ _ (w2 ++ w3 ++ w4 ++ rest) Hi Hs H1) as (s1 & Hd1 & Hs1).
  destruct (gt_num _ _ _ Hgt _ _ _ _ _ (w3 ++ w4 ++ rest) Hj Hs1 H2) as (s2 & Hd2 & Hs2).
  destruct (gt_prop _ _ _ Hgt _ _ _ _ _ (w4 ++ rest) Hs2 H3) as (s3 & Hd3 & Hs3).
  destruct (IH _ _ _ s3 H4 Hs3) as (s4 & Hd4 & Hs4). exists s4. split; [|done].
  cbn [length read_edges]. rewrite Hd1. cbn [plain_read]. rewrite Hd2. cbn [plain_read]. rewrite Hd3. cbn [plain_read]. rewrite Hd4. done.
Qed.

Context (einv : E -> E).

Lemma archive_trip v io p o g p' o' w s q rest : dg_wf einv g -> forder_ok io ->
  (forall r, r ∈ dg_verts g -> typed cls (v_data r) /\ fits lim (v_data r)) -> dg_nv g <= lim -> dg_ne g <= lim ->
  save_archive e ge cls v io p o g = (p', o', w, Ret tt) -> sync o s ->
  (forall r T is c, r ∈ dg_verts g -> v_data r !! T = Some is -> is <> [] -> class_name e p' T = Some c -> has_handle e p' c = true ->
     has_handle e q c = true) ->
  exists s' fs, read_saved e ge cls v q s (w ++ rest) = (q, s', rest, Ret (Saved fs (sv_edges (save_graph g)))) /\ sync o' s' /\
    fs.*1 = v_name <$> dg_verts g /\ Forall2 (restored e p p') (v_data <$> dg_verts g) fs.*2.
Proof.
  intros Hwf Hio Hok Hnv Hne Hsave Hs Hq. unfold save_archive in Hsave.
  destruct (enc_num ge o (length (dg_verts g))) as [o1 w1] eqn:H1. destruct (enc_num ge o1 (length (dg_edges g))) as [o2 w2] eqn:H2.
  set (l := (fun x => (v_name x, io (v_id x) (v_data x))) <$> dg_verts g) in *.
  destruct (save_frames e ge cls v p o2 l) as [[[p3 o3] w3] r3] eqn:H3. destruct r3 as [[]| | |]; [|done..].
  destruct (save_edges ge o3 (sv_edges (save_graph g))) as [o4 w4] eqn:H4. injection Hsave as <- <- <-.
  rewrite (wf_nv _ _ Hwf) in Hnv. rewrite (wf_ne _ _ Hwf) in Hne.
  rewrite <- !app_assoc. destruct (gt_num _ _ _ Hgt _ _ _ _ _ (w2 ++ w3 ++ w4 ++ rest) Hnv Hs H1) as (s1 & Hd1 & Hs1).
  destruct (gt_num _ _ _ Hgt _ _ _ _ _ (w3 ++ w4 ++ rest) Hne Hs1 H2) as (s2 & Hd2 & Hs2).
  destruct (frames_trip v p o2 l (v_data <$> dg_verts g) p3 o3 w3 s2 q (w4 ++ rest)) as (s3 & fs & Hd3 & Hs3 & Hn & HF); [|done|done| |].
  { unfold l. apply Forall2_fmap. apply Forall_Forall2_diag. apply list.Forall_forall. intros r Hr. cbn. split; [apply Hio|by apply Hok]. }
  { intros m T is c (r & -> & Hr)%elem_of_list_fmap. by apply (Hq r). }
  destruct (edges_trip o3 (sv_edges (save_graph g)) o4 w4 s3 rest) as (s4 & Hd4 & Hs4); [|done|done|].
  { cbn [save_graph sv_edges]. apply list.Forall_forall. intros x (y & -> & Hy)%elem_of_list_fmap. cbn.
    destruct (position_lookup _ _ (wf_src _ _ Hwf _ Hy)) as (r1 & Hr1%lookup_lt_Some & _).
    destruct (position_lookup _ _ (wf_tgt _ _ Hwf _ Hy)) as (r2 & Hr2%lookup_lt_Some & _). lia. }
  exists s4, fs. split; [|split; [done|]].
  - unfold read_saved. rewrite Hd1. cbn [plain_read]. rewrite Hd2. cbn [plain_read].
    replace (length (dg_verts g)) with (length l) by (unfold l; by rewrite fmap_length). rewrite Hd3.
    replace (length (dg_edges g)) with (length (sv_edges (save_graph g))) by (cbn; by rewrite fmap_length). rewrite Hd4. done.
  - split; [|done]. rewrite Hn. unfold l. rewrite <- list_fmap_compose. done.
Qed.

Lemma file_trip pre dec_pre keep v io p (s0 s : gst items E) p' w q : dg_wf einv (gs_dg s0) -> dg_wf einv (gs_dg s) -> forder_ok io ->
  preamble_ok sync pre dec_pre ->
  (forall f m, get_frame_property s0 f = Ret m -> typed cls m /\ fits lim m) -> num_vertices s0 <= lim -> num_edges s0 <= lim ->
  save_to_file e ge cls pre v io p s0 = (p', w, Ret tt) ->
  (forall f m T is c, get_frame_property s0 f = Ret m -> m !! T = Some is -> is <> [] -> class_name e p' T = Some c ->
     has_handle e p' c = true -> has_handle e q c = true) ->
  (forall f, contains_frame s f = true -> keep = false /\ contains_frame s0 f = true) ->
  exists s', load_from_file e ge cls dec_pre keep v q w s = (q, s', [], Ret tt) /\ dg_wf einv (gs_dg s') /\
    (forall f, contains_frame s' f = contains_frame s0 f) /\
    (forall a b, get_edge_property s' a b = get_edge_property s0 a b) /\
    num_vertices s' = num_vertices s0 /\ num_edges s' = num_edges s0 /\
    (forall f m, get_frame_property s0 f = Ret m -> exists m', get_frame_property s' f = Ret m' /\ restored e p p' m m').
Proof.
  intros Hwf0 Hwf Hio Hpre Hok Hnv Hne Hsave Hq Hdest. unfold save_to_file in Hsave.
  destruct (save_archive e ge cls v io p pre.1 (gs_dg s0)) as [[[p1 o1] w1] r] eqn:Ha. injection Hsave as <- <- ->.
  destruct (Hpre w1) as (t & Hdp & Ht).
  destruct (archive_trip v io p pre.1 (gs_dg s0) p1 o1 w1 t q [] Hwf0 Hio) as (t' & fs & Hread & _ & Hnames & HF); [|done..| |].
  { intros r Hr. apply (Hok (v_name r)). apply (get_frame_property_iff einv); [done|]. eauto. }
  { intros r T is c Hr. apply (Hq (v_name r)). apply (get_frame_property_iff einv); [done|]. eauto. }
  rewrite app_nil_r in Hread.
  set (F := fun f => default ∅ ((list_to_map fs : gmap frameid items) !! f)).
  assert (Hnd : NoDup fs.*1) by (rewrite Hnames; apply (wf_vname _ _ Hwf0)).
  assert (Hfs : fs = (fun r => (v_name r, F (v_name r))) <$> dg_verts (gs_dg s0)).
  { change (fun r : vrec items => (v_name r, F (v_name r))) with ((fun f => (f, F f)) ∘ v_name (D := items)).
    rewrite list_fmap_compose, <- Hnames, <- list_fmap_compose. symmetry. rewrite <- (list_fmap_id fs) at 2. apply list_fmap_ext.
    intros k [f m] Hk. cbn. unfold F. rewrite (proj1 (elem_of_list_to_map fs f m Hnd)); [done|]. by eapply elem_of_list_lookup_2. }
  set (g' := refill F (gs_dg s0)). assert (Hwf' : dg_wf einv g') by by apply refill_wf.
  set (s0' := gs_set_dg g' s0). assert (Hdg : gs_dg s0' = g') by by destruct s0.
  assert (Hsv : Saved fs (sv_edges (save_graph (gs_dg s0))) = save_graph (gs_dg s0')).
  { rewrite Hdg. unfold g'. rewrite refill_save, <- Hfs. done. }
  assert (Hc : forall f, contains_frame s0' f = contains_frame s0 f).
  { intros f. rewrite !(contains_frame_map einv) by (by rewrite ?Hdg). by rewrite Hdg. }
  destruct (store_exists einv s0') as [st Hst]; [by rewrite Hdg|].
  destruct (load_observes einv keep id s0' s st) as (s' & Hload & Hwfs & Hobs); [by rewrite Hdg|done|done| |].
  { intros f Hf. rewrite Hc. by apply Hdest. }
  assert (Hid : store_map id st = st) by (unfold store_map; rewrite map_fmap_id; by destruct st). rewrite Hid in Hobs.
  exists s'. split; [|split; [done|]].
  { unfold load_from_file. rewrite Hdp, Hread, Hsv. rewrite Hload. done. }
  split; [intros f; rewrite <- Hc, (ob_contains _ _ Hobs), (ob_contains _ _ Hst); done|]. split.
  { intros a b. rewrite (ob_edge _ _ Hobs), <- (ob_edge _ _ Hst). rewrite !(get_edge_property_eq einv) by (by rewrite ?Hdg). by rewrite Hdg. }
  split; [rewrite (ob_num_vertices _ _ Hobs), <- (ob_num_vertices _ _ Hst); unfold num_vertices; by rewrite Hdg|].
  split; [rewrite (ob_num_edges _ _ Hobs), <- (ob_num_edges _ _ Hst); unfold num_edges; by rewrite Hdg|].
  intros f m Hm. apply (get_frame_property_iff einv) in Hm as (r & Hr & <- & <-); [|done].
  exists (F (v_name r)). split.
  - rewrite (ob_frame _ _ Hobs), <- (ob_frame _ _ Hst). apply (get_frame_property_iff einv); [by rewrite Hdg|]. rewrite Hdg.
    exists (VRec (v_id r) (v_index r) (v_name r) (F (v_name r))). split; [|done].
    apply (elem_of_list_fmap_1 (fun r => VRec (v_id r) (v_index r) (v_name r) (F (v_name r)))). done.
  - apply elem_of_list_lookup in Hr as [k Hk].
    eapply (Forall2_lookup_lr _ _ _ k _ _ HF); rewrite list_lookup_fmap; [by rewrite Hk|].
    rewrite Hfs, list_lookup_fmap, Hk. done.
Qed.
End trip.

Lemma save_frames_ok v p o (l : list (frameid * list (iclass * list I))) (ms : list items) : handles_work e ->
  Forall2 (fun x m => x.2 ≡ₚ map_to_list m /\ typed cls m) l ms ->
  exists p' o' w, save_frames e ge cls v p o l = (p', o', w, Ret tt).
Proof.
  intros Hw Hl. revert p o. induction Hl as [|[f is] m l ms (Hp & Hty) Hl IH]; intros p o; cbn [save_frames]; [by eexists _, _, _|].
  destruct (enc_fid ge o f) as [o1 w1]. destruct (save_items_ok e cls Hlib v p o1 is m Hw Hty Hp) as (p2 & o2 & w2 & ->).
  destruct (IH p2 o2) as (p3 & o3 & w3 & ->). by eexists _, _, _.
Qed.
Lemma save_file_ok (einv : E -> E) pre v io p (s0 : gst items E) : dg_wf einv (gs_dg s0) -> handles_work e -> forder_ok io ->
  (forall f m, get_frame_property s0 f = Ret m -> typed cls m) -> exists p' w, save_to_file e ge cls pre v io p s0 = (p', w, Ret tt).
Proof.
  intros Hwf Hw Hio Hty. unfold save_to_file, save_archive.
  destruct (enc_num ge pre.1 (length (dg_verts (gs_dg s0)))) as [o1 w1]. destruct (enc_num ge o1 (length (dg_edges (gs_dg s0)))) as [o2 w2].
  destruct (save_frames_ok v p o2 ((fun x => (v_name x, io (v_id x) (v_data x))) <$> dg_verts (gs_dg s0)) (v_data <$> dg_verts (gs_dg s0)) Hw)
    as (p3 & o3 & w3 & ->).
  { apply Forall2_fmap. apply Forall_Forall2_diag. apply list.Forall_forall. intros r Hr. cbn. split; [apply Hio|].
    apply (Hty (v_name r)). apply (get_frame_property_iff einv); [done|]. eauto. }
  destruct (save_edges ge o3 _) as [o4 w4]. by eexists _, _.
Qed.
End file.

(** ** An item in a byte vector *)
Section binary.
Context {P O S I : Type} (e : env P O S byte I) (cls : I -> iclass) (sync : O -> S -> Prop) (lim : nat).
Hypothesis Hlib : libraries_add e.
Hypothesis Hrt : round_trips e sync lim.
Context (pre : O * list byte) (dec_pre : list byte -> option (S * list byte)) (chunk : list byte -> list write).
Hypothesis Hchunk : forall bs, all_bytes (chunk bs) = bs.

Lemma save_binary_eq p i v : save_item_to_binary e cls pre chunk p i v =
  let '(p1, o1, w, r) := ser_save e cls p pre.1 i in (p1, r, (pre.2 ++ w) ++ drop (length (pre.2 ++ w)) v).
Proof.
  unfold save_item_to_binary. destruct (ser_save e cls p pre.1 i) as [[[p1 o1] w] r]. rewrite BufferThms.saved, Hchunk. done.
Qed.
Lemma buffer_all v : (sgetn (length v) (ibuf_new v)).2 = v.
Proof. cbn. rewrite drop_0. apply take_ge. done. Qed.

Lemma binary_trip p i v p' v' q : preamble_ok sync pre dec_pre -> save_item_to_binary e cls pre chunk p i v = (p', Ret true, v') ->
  (forall c, class_name e p' (type_index (cls i)) = Some c -> has_handle e p' c = true -> has_handle e q c = true) ->
  load_item_from_binary e dec_pre q v' = (q, Ret (Some i)).
Proof.
  intros Hpre Hs Hq. rewrite save_binary_eq in Hs. destruct (ser_save e cls p pre.1 i) as [[[p1 o1] w] r] eqn:Hsave.
  injection Hs as <- -> <-. unfold load_item_from_binary. rewrite buffer_all. rewrite <- app_assoc.
  destruct (Hpre (w ++ drop (length (pre.2 ++ w)) v)) as (s & -> & Hsync).
  destruct (ser_trip e cls Hlib sync lim Hrt _ _ _ _ _ _ _ q (drop (length (pre.2 ++ w)) v) Hsave Hsync Hq) as (s' & -> & _). done.
Qed.

Lemma save_binary_false p i v p' v' : handles_work e -> save_item_to_binary e cls pre chunk p i v = (p', Ret false, v') ->
  v' = pre.2 ++ drop (length pre.2) v.
Proof.
  intros Hw Hs. rewrite save_binary_eq in Hs.
  destruct (serializable_iff_saved e cls Hlib p pre.1 i Hw) as (o' & w & Heq & Hf). rewrite Heq in Hs. injection Hs as _ Hb <-.
  destruct (Hf Hb) as [_ ->]. by rewrite app_nil_r.
Qed.
Lemma binary_failed p i p' v' q : preamble_ok sync pre dec_pre -> handles_work e -> (forall s, dec_header e s [] = RAbort) ->
  save_item_to_binary e cls pre chunk p i [] = (p', Ret false, v') -> load_item_from_binary e dec_pre q v' = (q, Throw XRuntime).
Proof.
  intros Hpre Hw Hend Hs. apply save_binary_false in Hs; [|done]. rewrite drop_nil in Hs. subst v'.
  unfold load_item_from_binary. rewrite buffer_all. destruct (Hpre []) as (s & -> & _). unfold ser_load. by rewrite Hend.
Qed.
Lemma binary_stale p0 i0 v0 p1 v1 p i p2 v2 q : preamble_ok sync pre dec_pre -> handles_work e ->
  save_item_to_binary e cls pre chunk p0 i0 v0 = (p1, Ret true, v1) -> save_item_to_binary e cls pre chunk p i v1 = (p2, Ret false, v2) ->
  (forall c, class_name e p1 (type_index (cls i0)) = Some c -> has_handle e p1 c = true -> has_handle e q c = true) ->
  v2 = v1 /\ load_item_from_binary e dec_pre q v2 = (q, Ret (Some i0)).
Proof.
  intros Hpre Hw Hs1 Hs2 Hq. assert (v2 = v1) as ->; [|split; [done|by eapply binary_trip]].
  apply save_binary_false in Hs2; [|done]. rewrite Hs2. rewrite save_binary_eq in Hs1.
  destruct (ser_save e cls p0 pre.1 i0) as [[[p3 o1] w] r]. injection Hs1 as _ _ <-. by rewrite <- app_assoc, drop_app.
Qed.
Lemma binary_serializable p i v : handles_work e -> snd (is_serializable e p (type_index (cls i))) = true ->
  exists p' v', save_item_to_binary e cls pre chunk p i v = (p', Ret true, v').
Proof.
  intros Hw Hs. rewrite save_binary_eq. destruct (serializable_iff_saved e cls Hlib p pre.1 i Hw) as (o' & w & -> & _).
  change (ity cls i) with (type_index (cls i)). rewrite Hs. by eexists _, _.
Qed.
End binary.

(** ** For all states of graphs *)
Lemma file_trip_reachable {P O S A I E : Type} (e : env P O S A I) (ge : genv O S A E) (cls : I -> iclass)
    (sync : O -> S -> Prop) (lim : nat) (einv : E -> E) (pre : O * list A) (dec_pre : list A -> option (S * list A))
    (keep v : bool) (io : forder (I := I)) (p : P) (s0 s : gst (gmap iclass (list I)) E) p' w q :
  libraries_add e -> round_trips e sync lim -> graph_round_trips ge sync lim -> preamble_ok sync pre dec_pre -> forder_ok io ->
  reachable ∅ einv s0 -> reachable ∅ einv s ->
  (forall f m, get_frame_property s0 f = Ret m -> typed cls m /\ fits lim m) -> num_vertices s0 <= lim -> num_edges s0 <= lim ->
  save_to_file e ge cls pre v io p s0 = (p', w, Ret tt) ->
  (forall f m T is c, get_frame_property s0 f = Ret m -> m !! T = Some is -> is <> [] -> class_name e p' T = Some c ->
     has_handle e p' c = true -> has_handle e q c = true) ->
  (forall f, contains_frame s f = true -> keep = false /\ contains_frame s0 f = true) ->
  exists s', load_from_file e ge cls dec_pre keep v q w s = (q, s', [], Ret tt) /\
    (forall f, contains_frame s' f = contains_frame s0 f) /\
    (forall a b, get_edge_property s' a b = get_edge_property s0 a b) /\
    num_vertices s' = num_vertices s0 /\ num_edges s' = num_edges s0 /\
    (forall f m, get_frame_property s0 f = Ret m -> exists m', get_frame_property s' f = Ret m' /\ restored e p p' m m').
Proof.
  intros Hl Hrt Hgt Hpre Hio H0%reachable_wf H%reachable_wf Hok Hnv Hne Hs Hq Hd.
  destruct (file_trip e ge cls sync lim Hl Hrt Hgt einv pre dec_pre keep v io p s0 s p' w q H0 H Hio Hpre Hok Hnv Hne Hs Hq Hd)
    as (s' & ? & _ & ?). by exists s'.
Qed.
Lemma save_file_ok_reachable {P O S A I E : Type} (e : env P O S A I) (ge : genv O S A E) (cls : I -> iclass) (einv : E -> E)
    (pre : O * list A) (v : bool) (io : forder (I := I)) (p : P) (s0 : gst (gmap iclass (list I)) E) :
  libraries_add e -> handles_work e -> forder_ok io -> reachable ∅ einv s0 ->
  (forall f m, get_frame_property s0 f = Ret m -> typed cls m) ->
  exists p' w, save_to_file e ge cls pre v io p s0 = (p', w, Ret tt).
Proof. intros Hl Hw Hio H0%reachable_wf Hty. by apply (save_file_ok e ge cls Hl einv). Qed.
