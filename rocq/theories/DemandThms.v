(** Proofs about libraries that are loaded on demand: writer and reader are different processes. *)
From Coq.Init Require Import Byte.
From stdpp Require Import prelude strings gmap.
From Verif Require Import ItemClass Outcome ListLib Digraph TreeView GraphModel GraphOps GraphWf GraphStep SpecStore SpecObs
  GraphStore GraphRefine GraphThms BufferModel SpecBuffer BufferThms GraphCopy SerialModel SpecSerial SerialThms GraphLoad ArchiveModel SpecArchive ArchiveThms.

Section two.
Context {P Q O S A I : Type} (e1 : env P O S A I) (e2 : env Q O S A I) (cls : I -> iclass).
Local Notation ity := (ity cls).
Context (Av : Q -> string -> Prop).
Definition keeps (q q' : Q) : Prop := forall c, Av q c -> Av q' c.
Hypothesis Hav : forall q c, Av q c -> has_handle e2 q c = true \/
  exists q', load_lib e2 q c = (q', true) /\ has_handle e2 q' c = true /\ keeps q q'.
Hypothesis Hlib : libraries_add e1.
Context (sync : O -> S -> Prop) (lim : nat).
Hypothesis Hrt : round_trips e1 sync lim.
Hypothesis Hsz : dec_size e2 = dec_size e1.
Hypothesis Hhd : dec_header e2 = dec_header e1.
Hypothesis Hit : dec_item e2 = dec_item e1.
Local Notation use p' q T := (forall c, class_name e1 p' T = Some c -> has_handle e1 p' c = true -> Av q c).

Lemma keeps_refl q : keeps q q.
Proof. by intros c. Qed.
Lemma keeps_trans q1 q2 q3 : keeps q1 q2 -> keeps q2 q3 -> keeps q1 q3.
Proof. intros H1 H2 c H. by apply H2, H1. Qed.

Lemma ser_trip2 p o i p' o' w s q rest : ser_save e1 cls p o i = (p', o', w, Ret true) -> sync o s -> use p' q (ity i) ->
  exists q' s', ser_load e2 q s (w ++ rest) = (q', s', rest, Ret (Some i)) /\ sync o' s' /\ keeps q q'.
Proof.
  intros Hs Hsync Hq. destruct (ser_save_inv e1 cls Hlib _ _ _ _ _ _ _ Hs) as [_ H].
  destruct (H eq_refl) as (c & o1 & w1 & w2 & Hc & Hh & He & Hi & ->).
  rewrite <- app_assoc. destruct (rt_header _ _ _ Hrt _ _ _ _ _ (w2 ++ rest) Hsync He) as (s1 & Hd & Hs1).
  destruct (rt_item _ _ _ Hrt _ _ _ _ _ _ rest Hs1 Hi) as (s2 & Hd2 & Hs2).
  unfold ser_load. rewrite Hhd, Hit, Hd. destruct (has_handle e2 q c) eqn:Hh2.
  { exists q, s2. rewrite Hd2. split_and!; [done|done|apply keeps_refl]. }
  destruct (Hav q c (Hq c Hc Hh)) as [?|(q' & -> & -> & Hk)]; [congruence|].
  exists q', s2. rewrite Hd2. done.
Qed.

Lemma list_trip2 p o is p' o' w s q rest : save_list e1 cls p o is = (p', o', w, Ret tt) -> sync o s ->
  (forall i, i ∈ is -> use p' q (ity i)) ->
  exists q' s', load_list e2 (length is) q s (w ++ rest) = (q', s', rest, Ret is) /\ sync o' s' /\ keeps q q'.
Proof.
  revert p o w s q. induction is as [|i is IH]; intros p o w s q Hs Hsync Hq; cbn [save_list] in Hs.
  { injection Hs as <- <- <-. exists q, s. split_and!; [done|done|apply keeps_refl]. }
  destruct (ser_save e1 cls p o i) as [[[p1 o1] w1] r1] eqn:Hs1. destruct r1 as [[]|x| |]; try done.
  destruct (save_list e1 cls p1 o1 is) as [[[p2 o2] w2] r2] eqn:Hl. injection Hs as <- <- <- ->.
  pose proof (save_list_grows e1 cls Hlib _ _ _ _ _ _ _ Hl) as Hg.
  destruct (ser_trip2 _ _ _ _ _ _ s q (w2 ++ rest) Hs1 Hsync) as (q1 & s1 & Hload & Hsync1 & Hk1).
  { intros c Hc Hh. apply (Hq i); [left|by apply Hg..]. }
  destruct (IH p1 o1 w2 s1 q1 Hl Hsync1) as (q2 & s2 & Hload2 & Hsync2 & Hk2).
  { intros j Hj c Hc Hh. apply Hk1. apply (Hq j); [by right|done..]. }
  exists q2, s2. split; [|split; [done|by eapply keeps_trans]]. cbn [length load_list]. rewrite <- app_assoc, Hload, Hload2. done.
Qed.

Lemma lists_trip2 v p o ms p' o' w s q rest m k : save_lists e1 cls v p o ms = (p', o', w, Ret tt) -> sync o s ->
  (forall is i, is ∈ marked ms -> i ∈ is -> use p' q (ity i)) ->
  (forall is, is ∈ marked ms -> length is <= lim) ->
  exists q' s', load_lists e2 cls v (length (marked ms) + k) q s (w ++ rest) m =
    load_lists e2 cls v k q' s' rest (foldl (fun m is => insert_list cls is m) m (marked ms)) /\ sync o' s' /\ keeps q q'.
Proof.
  revert p o w s q m. induction ms as [|[is b] ms IH]; intros p o w s q m Hs Hsync Hq Hlim; cbn [save_lists] in Hs.
  { injection Hs as <- <- <-. exists q, s. split_and!; [done|done|apply keeps_refl]. }
  rewrite marked_cons in *. destruct b.
  - destruct (save_list e1 cls p o is) as [[[p1 o1] w1] r1] eqn:Hs1. destruct r1 as [[]|x| |]; try done.
    destruct (save_lists e1 cls v p1 o1 ms) as [[[p2 o2] w2] r2] eqn:Hl. injection Hs as <- <- <- ->.
    pose proof (save_lists_grows e1 cls Hlib _ _ _ _ _ _ _ _ Hl) as Hg.
    destruct (list_trip2 _ _ _ _ _ _ s q (w2 ++ rest) Hs1 Hsync) as (q1 & s1 & Hload & Hsync1 & Hk1).
    { intros i Hi c Hc Hh. apply (Hq is i); [left|done|by apply Hg..]. }
    destruct (IH p1 o1 w2 s1 q1 (insert_list cls is m) Hl Hsync1) as (q2 & s2 & Hload2 & Hsync2 & Hk2).
    { intros is' i H Hi c Hc Hh. apply Hk1. apply (Hq is' i); [by right|done..]. }
    { intros is' H. apply Hlim. by right. }
    exists q2, s2. split; [|split; [done|by eapply keeps_trans]]. cbn [length Nat.add load_lists foldl].
    rewrite Hsz, <- !app_assoc, (rt_size _ _ _ Hrt) by (apply Hlim; left). rewrite Hload. exact Hload2.
  - by eapply IH.
Qed.

(* A type that is always found to be serialisable is marked. *)
Lemma mark_lists_always p l p' ms T i is : mark_lists e1 cls p l = (p', ms) -> (T, i :: is) ∈ l ->
  (forall p, snd (is_serializable e1 p (ity i)) = true) -> (i :: is, true) ∈ ms.
Proof.
  revert p ms. induction l as [|[T' is'] l IH]; intros p ms; cbn [mark_lists]; [by intros _ ?%elem_of_nil|].
  destruct is' as [|j is'].
  - destruct (mark_lists e1 cls p l) as [p2 r] eqn:Hm. intros [= <- <-] [?|Hin]%elem_of_cons Hr; [done|].
    right. by eapply IH.
  - destruct (is_serializable e1 p (ity j)) as [p1 b] eqn:Hs.
    destruct (mark_lists e1 cls p1 l) as [p2 r] eqn:Hm. intros [= <- <-] [[= -> -> ->]|Hin]%elem_of_cons Hr.
    + specialize (Hr p). rewrite Hs in Hr. cbn in Hr. subst b. left.
    + right. by eapply IH.
Qed.

Definition restored2 (p p' : P) (m m' : gmap iclass (list I)) : Prop :=
  (forall T is, m' !! T = Some is -> m !! T = Some is /\ is <> [] /\ registered e1 p' T) /\
  (forall T is, m !! T = Some is -> is <> [] -> registered e1 p T \/ (forall p, snd (is_serializable e1 p T) = true) -> m' !! T = Some is).

Lemma restored2_mono p1 p2 p p' m m' : grows e1 p1 p -> grows e1 p' p2 -> restored2 p p' m m' -> restored2 p1 p2 m m'.
Proof.
  intros Hg1 Hg2 [H1 H2]. split.
  - intros T is Hm. destruct (H1 T is Hm) as (? & ? & Hr). split; [done|]. split; [done|]. by eapply grows_registered.
  - intros T is Hm Hne Hr. apply (H2 T is Hm Hne). destruct Hr; [left|by right]. by eapply grows_registered.
Qed.

Lemma items_trip2 v p o l m p' o' w s q rest : typed cls m -> fits lim m -> l ≡ₚ map_to_list m ->
  save_items e1 cls v p o l = (p', o', w, Ret tt) -> sync o s ->
  (forall T is, m !! T = Some is -> is <> [] -> use p' q T) ->
  exists q' s' m', load_items e2 cls v q s (w ++ rest) = (q', s', rest, Ret m') /\ sync o' s' /\ keeps q q' /\ restored2 p p' m m'.
Proof.
  intros Hty [Hszm Hlen] Hl Hsave Hsync Hq. unfold save_items in Hsave.
  destruct (mark_lists e1 cls p l) as [p1 ms] eqn:Hm.
  destruct (save_lists e1 cls v p1 o ms) as [[[p2 o2] w2] r] eqn:Hs. injection Hsave as <- <- <- ->.
  destruct (marked_spec e1 cls Hlib _ _ _ _ _ Hm Hl Hty) as (_ & Hin & Hreg).
  pose proof (save_lists_grows e1 cls Hlib _ _ _ _ _ _ _ _ Hs) as Hg.
  destruct (lists_trip2 v p1 o ms p2 o2 w2 s q rest ∅ 0 Hs Hsync) as (q' & s' & Hload & Hsync' & Hk).
  { intros is i Hmk Hi. destruct (Hin is Hmk) as (j & is' & -> & Hlook & _). apply (Hq (ity i) (j :: is')); [|done].
    by rewrite (Hty _ _ i Hlook Hi : ity i = ity j). }
  { intros is H. destruct (Hin is H) as (i & is' & -> & Hlook & _). by eapply Hlen. }
  exists q', s', (foldl (fun m is => insert_list cls is m) ∅ (marked ms)). split; [|split; [done|split; [done|split]]].
  - unfold load_items. replace (length (filter _ ms)) with (length (marked ms)) by (unfold marked; by rewrite fmap_length).
    rewrite Hsz, <- app_assoc, (rt_size _ _ _ Hrt) by (etrans; [by eapply (marked_length e1 cls Hlib)|done]).
    rewrite Nat.add_0_r in Hload. rewrite Hload. done.
  - intros T is [Hlook Hmk]%(loaded_lookup e1 cls Hlib p l p1 ms m T is Hm Hl Hty).
    destruct (Hin is Hmk) as (i & is' & -> & Hlook2 & Hr). assert (HT : ity i = T) by (apply (Hty T _ i Hlook); left).
    subst T. split; [done|]. split; [done|]. by eapply grows_registered.
  - intros T is Hlook Hne Hr. apply (loaded_lookup e1 cls Hlib p l p1 ms m T is Hm Hl Hty). split; [done|].
    destruct Hr as [Hr|Hr]; [by eapply Hreg|]. apply elem_of_marked. destruct is as [|i is]; [done|].
    assert (HT : ity i = T) by (apply (Hty T _ i Hlook); left). subst T.
    eapply mark_lists_always; [exact Hm| |done]. rewrite Hl. by apply elem_of_map_to_list.
Qed.

Section graph.
Context {E : Type} (ge : genv O S A E).
Local Notation items := (gmap iclass (list I)).
Hypothesis Hgt : graph_round_trips ge sync lim.

Lemma frames_trip2 v p o (l : list (frameid * list (iclass * list I))) (ms : list items) p' o' w s q rest :
  Forall2 (fun x m => x.2 ≡ₚ map_to_list m /\ typed cls m /\ fits lim m) l ms ->
  save_frames e1 ge cls v p o l = (p', o', w, Ret tt) -> sync o s ->
  (forall m T is, m ∈ ms -> m !! T = Some is -> is <> [] -> use p' q T) ->
  exists q' s' fs, load_frames e2 ge cls v (length l) q s (w ++ rest) = (q', s', rest, Ret fs) /\ sync o' s' /\ keeps q q' /\
    fs.*1 = l.*1 /\ Forall2 (restored2 p p') ms fs.*2.
Proof.
  intros Hl. revert p o p' o' w s q. induction Hl as [|[f is] m l ms (Hp & Hty & Hfit) Hl IH]; intros p o p' o' w s q; cbn [save_frames].
  { intros [= <- <- <-] Hs _. exists q, s, []. cbn. split_and!; [done|done|apply keeps_refl|done|constructor]. }
  destruct (enc_fid ge o f) as [o1 w1] eqn:Hf. destruct (save_items e1 cls v p o1 is) as [[[p2 o2] w2] r2] eqn:Hi.
  destruct r2 as [[]| | |]; [|done..]. destruct (save_frames e1 ge cls v p2 o2 l) as [[[p3 o3] w3] r3] eqn:Hr. intros [= <- <- <- ->] Hs Hq.
  cbn in Hp. pose proof (save_items_grows e1 cls Hlib _ _ _ _ _ _ _ _ Hi) as Hg1.
  pose proof (save_frames_grows e1 ge cls Hlib _ _ _ _ _ _ _ _ Hr) as Hg2.
  rewrite <- !app_assoc. destruct (gt_fid _ _ _ Hgt _ _ _ _ _ (w2 ++ w3 ++ rest) Hs Hf) as (s1 & Hd & Hs1).
  destruct (items_trip2 v p o1 is m p2 o2 w2 s1 q (w3 ++ rest) Hty Hfit Hp Hi Hs1) as (q2 & s2 & m' & Hd2 & Hs2 & Hk2 & Hres).
  { intros T is' HT Hne c Hc Hh. apply (Hq m T is'); [left|done|done| |]; by apply Hg2. }
  destruct (IH p2 o2 p3 o3 w3 s2 q2 Hr Hs2) as (q3 & s3 & fs & Hd3 & Hs3 & Hk3 & Hn & HF).
  { intros m0 T is' Hm HT Hne c Hc Hh. apply Hk2. apply (Hq m0 T is'); [by right|done..]. }
  exists q3, s3, ((f, m') :: fs). split; [|split; [done|]].
  - cbn [length load_frames]. rewrite Hd. cbn [plain_read]. rewrite Hd2, Hd3. done.
  - split; [by eapply keeps_trans|]. split; [cbn; by rewrite Hn|]. cbn. constructor.
    + apply (restored2_mono p p3 p p2); [apply grows_refl|done|done].
    + eapply Forall2_impl; [exact HF|]. intros x y. apply restored2_mono; [done|apply grows_refl].
Qed.

Context (einv : E -> E).

Lemma archive_trip2 v io p o g p' o' w s q rest : dg_wf einv g -> forder_ok io ->
  (forall r, r ∈ dg_verts g -> typed cls (v_data r) /\ fits lim (v_data r)) -> dg_nv g <= lim -> dg_ne g <= lim ->
  save_archive e1 ge cls v io p o g = (p', o', w, Ret tt) -> sync o s ->
  (forall r T is, r ∈ dg_verts g -> v_data r !! T = Some is -> is <> [] -> use p' q T) ->
  exists q' s' fs, read_saved e2 ge cls v q s (w ++ rest) = (q', s', rest, Ret (Saved fs (sv_edges (save_graph g)))) /\ sync o' s' /\ keeps q q' /\
    fs.*1 = v_name <$> dg_verts g /\ Forall2 (restored2 p p') (v_data <$> dg_verts g) fs.*2.
Proof.
  intros Hwf Hio Hok Hnv Hne Hsave Hs Hq. unfold save_archive in Hsave.
  destruct (enc_num ge o (length (dg_verts g))) as [o1 w1] eqn:H1. destruct (enc_num ge o1 (length (dg_edges g))) as [o2 w2] eqn:H2.
  set (l := (fun x => (v_name x, io (v_id x) (v_data x))) <$> dg_verts g) in *.
  destruct (save_frames e1 ge cls v p o2 l) as [[[p3 o3] w3] r3] eqn:H3. destruct r3 as [[]| | |]; [|done..].
  destruct (save_edges ge o3 (sv_edges (save_graph g))) as [o4 w4] eqn:H4. injection Hsave as <- <- <-.
  rewrite (wf_nv _ _ Hwf) in Hnv. rewrite (wf_ne _ _ Hwf) in Hne.
  rewrite <- !app_assoc. destruct (gt_num _ _ _ Hgt _ _ _ _ _ (w2 ++ w3 ++ w4 ++ rest) Hnv Hs H1) as (s1 & Hd1 & Hs1).
  destruct (gt_num _ _ _ Hgt _ _ _ _ _ (w3 ++ w4 ++ rest) Hne Hs1 H2) as (s2 & Hd2 & Hs2).
  destruct (frames_trip2 v p o2 l (v_data <$> dg_verts g) p3 o3 w3 s2 q (w4 ++ rest)) as (q3 & s3 & fs & Hd3 & Hs3 & Hk3 & Hn & HF); [|done|done| |].
  { unfold l. apply Forall2_fmap. apply Forall_Forall2_diag. apply list.Forall_forall. intros r Hr. cbn. split; [apply Hio|by apply Hok]. }
  { intros m T is (r & -> & Hr)%elem_of_list_fmap. by apply (Hq r). }
  destruct (edges_trip ge sync lim Hgt o3 (sv_edges (save_graph g)) o4 w4 s3 rest) as (s4 & Hd4 & Hs4); [|done|done|].
  { cbn [save_graph sv_edges]. apply list.Forall_forall. intros x (y & -> & Hy)%elem_of_list_fmap. cbn.
    destruct (position_lookup _ _ (wf_src _ _ Hwf _ Hy)) as (r1 & Hr1%lookup_lt_Some & _).
    destruct (position_lookup _ _ (wf_tgt _ _ Hwf _ Hy)) as (r2 & Hr2%lookup_lt_Some & _). lia. }
  exists q3, s4, fs. split; [|split; [done|split; [done|]]].
  - unfold read_saved. rewrite Hd1. cbn [plain_read]. rewrite Hd2. cbn [plain_read].
    replace (length (dg_verts g)) with (length l) by (unfold l; by rewrite fmap_length). rewrite Hd3.
    replace (length (dg_edges g)) with (length (sv_edges (save_graph g))) by (cbn; by rewrite fmap_length). rewrite Hd4. done.
  - split; [|done]. rewrite Hn. unfold l. rewrite <- list_fmap_compose. done.
Qed.

Lemma file_trip2 pre dec_pre keep v io p (s0 s : gst items E) p' w q : dg_wf einv (gs_dg s0) -> dg_wf einv (gs_dg s) -> forder_ok io ->
  preamble_ok sync pre dec_pre ->
  (forall f m, get_frame_property s0 f = Ret m -> typed cls m /\ fits lim m) -> num_vertices s0 <= lim -> num_edges s0 <= lim ->
  save_to_file e1 ge cls pre v io p s0 = (p', w, Ret tt) ->
  (forall f m T is, get_frame_property s0 f = Ret m -> m !! T = Some is -> is <> [] -> use p' q T) ->
  (forall f, contains_frame s f = true -> keep = false /\ contains_frame s0 f = true) ->
  exists q' s', load_from_file e2 ge cls dec_pre keep v q w s = (q', s', [], Ret tt) /\ keeps q q' /\
    (forall f, contains_frame s' f = contains_frame s0 f) /\
    (forall a b, get_edge_property s' a b = get_edge_property s0 a b) /\
    num_vertices s' = num_vertices s0 /\ num_edges s' = num_edges s0 /\
    (forall f m, get_frame_property s0 f = Ret m -> exists m', get_frame_property s' f = Ret m' /\ restored2 p p' m m').
Proof.
  intros Hwf0 Hwf Hio Hpre Hok Hnv Hne Hsave Hq Hdest. unfold save_to_file in Hsave.
  destruct (save_archive e1 ge cls v io p pre.1 (gs_dg s0)) as [[[p1 o1] w1] r] eqn:Ha. injection Hsave as <- <- ->.
  destruct (Hpre w1) as (t & Hdp & Ht).
  destruct (archive_trip2 v io p pre.1 (gs_dg s0) p1 o1 w1 t q [] Hwf0 Hio) as (q' & t' & fs & Hread & _ & Hk & Hnames & HF); [|done..| |].
  { intros r Hr. apply (Hok (v_name r)). apply (get_frame_property_iff einv); [done|]. eauto. }
  { intros r T is Hr. apply (Hq (v_name r)). apply (get_frame_property_iff einv); [done|]. eauto. }
  rewrite app_nil_r in Hread.
  set (F := fun f => default ∅ ((list_to_map fs : gmap frameid items) !! f)).
  assert (Hnd : NoDup fs.*1) by (rewrite Hnames; apply (wf_vname _ _ Hwf0)).
  assert (Hfs : fs = (fun r => (v_name r, F (v_name r))) <$> dg_verts (gs_dg s0)).
  { change (fun r : vrec items => (v_name r, F (v_name r))) with ((fun f => (f, F f)) ∘ v_name (D := items)).
    rewrite list_fmap_compose, <- Hnames, <- list_fmap_compose. symmetry. rewrite <- (list_fmap_id fs) at 2. apply list_fmap_ext.
    intros k [f m] Hk'. cbn. unfold F. rewrite (proj1 (elem_of_list_to_map fs f m Hnd)); [done|]. by eapply elem_of_list_lookup_2. }
  set (g' := refill F (gs_dg s0)). assert (Hwf' : dg_wf einv g') by by apply refill_wf.
  set (s0' := gs_set_dg g' s0). assert (Hdg : gs_dg s0' = g') by by destruct s0.
  assert (Hsv : Saved fs (sv_edges (save_graph (gs_dg s0))) = save_graph (gs_dg s0')).
  { rewrite Hdg. unfold g'. rewrite refill_save, <- Hfs. done. }
  assert (Hc : forall f, contains_frame s0' f = contains_frame s0 f).
  { intros f. rewrite !(contains_frame_map einv) by (by rewrite ?Hdg). by rewrite Hdg. }
  destruct (store_exists einv s0') as [st Hst]; [by rewrite Hdg|].
  destruct (load_observes einv keep id s0' s st) as (s' & Hload & Hwfs & Hobs); [by rewrite Hdg|done|done| |].
  { intros f Hf. rewrite Hc. by apply Hdest. }
  assert (Hid : store_map id st = st) by (unfold store_map; rewrite map_fmap_id; by destruct st). rewrite Hid in Hobs.
  exists q', s'. split; [|split; [done|]].
  { unfold load_from_file. rewrite Hdp, Hread, Hsv. rewrite Hload. done. }
  split; [intros f; rewrite <- Hc, (ob_contains _ _ Hobs), (ob_contains _ _ Hst); done|]. split.
  { intros a b. rewrite (ob_edge _ _ Hobs), <- (ob_edge _ _ Hst). rewrite !(get_edge_property_eq einv) by (by rewrite ?Hdg). by rewrite Hdg. }
  split; [rewrite (ob_num_vertices _ _ Hobs), <- (ob_num_vertices _ _ Hst); unfold num_vertices; by rewrite Hdg|].
  split; [rewrite (ob_num_edges _ _ Hobs), <- (ob_num_edges _ _ Hst); unfold num_edges; by rewrite Hdg|].
  intros f m Hm. apply (get_frame_property_iff einv) in Hm as (r & Hr & <- & <-); [|done].
  exists (F (v_name r)). split.
  - rewrite (ob_frame _ _ Hobs), <- (ob_frame _ _ Hst). apply (get_frame_property_iff einv); [by rewrite Hdg|]. rewrite Hdg.
    exists (VRec (v_id r) (v_index r) (v_name r) (F (v_name r))). split; [|done].
    apply (elem_of_list_fmap_1 (fun r => VRec (v_id r) (v_index r) (v_name r) (F (v_name r)))). done.
  - apply elem_of_list_lookup in Hr as [k Hk'].
    eapply (Forall2_lookup_lr _ _ _ k _ _ HF); rewrite list_lookup_fmap; [by rewrite Hk'|].
    rewrite Hfs, list_lookup_fmap, Hk'. done.
Qed.
End graph.
End two.

(** ** An item in a byte vector *)
Lemma binary_trip2 {P Q O S I : Type} (e1 : env P O S byte I) (e2 : env Q O S byte I) (cls : I -> iclass) (Av : Q -> string -> Prop)
    (sync : O -> S -> Prop) (lim : nat) (pre : O * list byte) (dec_pre : list byte -> option (S * list byte)) (chunk : list byte -> list write)
    p i v p' v' q :
  (forall q c, Av q c -> has_handle e2 q c = true \/
     exists q', load_lib e2 q c = (q', true) /\ has_handle e2 q' c = true /\ keeps Av q q') ->
  libraries_add e1 -> round_trips e1 sync lim -> dec_header e2 = dec_header e1 -> dec_item e2 = dec_item e1 ->
  (forall bs, all_bytes (chunk bs) = bs) -> preamble_ok sync pre dec_pre ->
  save_item_to_binary e1 cls pre chunk p i v = (p', Ret true, v') ->
  (forall c, class_name e1 p' (type_index (cls i)) = Some c -> has_handle e1 p' c = true -> Av q c) ->
  exists q', load_item_from_binary e2 dec_pre q v' = (q', Ret (Some i)) /\ keeps Av q q'.
Proof.
  intros Hav Hlib Hrt Hhd Hit Hchunk Hpre Hs Hq. rewrite (save_binary_eq e1 cls pre chunk Hchunk) in Hs.
  destruct (ser_save e1 cls p pre.1 i) as [[[p1 o1] w] r] eqn:Hsave.
  injection Hs as <- -> <-. unfold load_item_from_binary. rewrite buffer_all. rewrite <- app_assoc.
  destruct (Hpre (w ++ drop (length (pre.2 ++ w)) v)) as (s & -> & Hsync).
  destruct (ser_trip2 e1 e2 cls Av Hav Hlib sync lim Hrt Hhd Hit _ _ _ _ _ _ _ q (drop (length (pre.2 ++ w)) v) Hsave Hsync Hq)
    as (q' & s' & -> & _ & Hk). by exists q'.
Qed.
