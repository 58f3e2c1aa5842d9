(** Proofs about the registration of item classes. *)
From Coq.Init Require Import Byte.
From stdpp Require Import prelude strings gmap.
From Verif Require Import ItemClass Outcome ListLib Digraph TreeView GraphModel GraphOps GraphWf SpecStore SpecObs GraphThms BufferModel SpecBuffer
  MiscModel SerialModel SpecSerial SerialThms ArchiveModel SpecArchive ArchiveThms RegistryModel SpecDemand DemandThms.

(** ** The static maps *)
Lemma regs_handles rs g c : c ∈ rg_handles (foldl (fun g r => register r g) g rs) <-> c ∈ rg_handles g \/ exists r, r ∈ rs /\ reg_class r = c.
Proof.
  revert g. induction rs as [|r rs IH]; intros g; cbn [foldl].
  { split; [by left|]. intros [?|(? & []%elem_of_nil & _)]. done. }
  rewrite IH. cbn [register rg_handles]. rewrite elem_of_union, elem_of_singleton. split.
  - intros [[->|?]|(r' & ? & ?)]; [right; exists r; split; [left|done]|by left|right; exists r'; split; [by right|done]].
  - intros [?|(r' & [->|?]%elem_of_cons & <-)]; [by left; right|by left; left|right; by exists r'].
Qed.
Lemma regs_meta_inv rs g T d : rg_meta (foldl (fun g r => register r g) g rs) !! T = Some d ->
  rg_meta g !! T = Some d \/ exists r, r ∈ rs /\ reg_meta r = Some (T, d).
Proof.
  revert g. induction rs as [|r rs IH]; intros g; cbn [foldl]; [by left|]. intros [H|(r' & ? & ?)]%IH.
  - cbn [register rg_meta] in H. destruct (reg_meta r) as [[T' d']|] eqn:Hr; [|by left]. unfold add_mapping in H.
    apply lookup_insert_Some in H as [[-> ->]|[_ H]]; [|by left]. right. exists r. split; [left|done].
  - right. exists r'. split; [by right|done].
Qed.
Lemma regs_meta_keep rs g T : is_Some (rg_meta g !! T) -> is_Some (rg_meta (foldl (fun g r => register r g) g rs) !! T).
Proof.
  revert g. induction rs as [|r rs IH]; intros g H; cbn [foldl]; [done|]. apply IH. cbn [register rg_meta].
  destruct (reg_meta r) as [[T' d']|]; [|done]. unfold add_mapping. destruct (decide (T' = T)) as [->|Hne].
  - rewrite lookup_insert. eauto.
  - by rewrite lookup_insert_ne.
Qed.
Lemma regs_meta_some rs g T r d : r ∈ rs -> reg_meta r = Some (T, d) -> is_Some (rg_meta (foldl (fun g r => register r g) g rs) !! T).
Proof.
  revert g. induction rs as [|r' rs IH]; intros g; [by intros ?%elem_of_nil|]. intros [<-|Hin]%elem_of_cons Hr; cbn [foldl].
  - apply regs_meta_keep. cbn [register rg_meta]. rewrite Hr. unfold add_mapping. rewrite lookup_insert. eauto.
  - by apply IH.
Qed.

Lemma exports_class r : exports r = reg_class r.
Proof. by destruct r. Qed.

Section registry.
Context (ix : index).

Lemma registry_handles p c : c ∈ rg_handles (registry_of ix p) <-> exists l r, l ∈ p /\ r ∈ ix_regs ix l /\ exports r = c.
Proof.
  unfold registry_of. rewrite regs_handles. cbn [rg_handles]. split.
  - intros [?%elem_of_empty|(r & (l & ? & ?)%elem_of_list_bind & <-)]; [done|]. exists l, r. split_and!; [done|done|apply exports_class].
  - intros (l & r & ? & ? & <-). right. exists r. split; [|symmetry; apply exports_class]. apply elem_of_list_bind. by exists l.
Qed.
Lemma registry_meta_names p T d : rg_meta (registry_of ix p) !! T = Some d -> names ix T (md_class d).
Proof.
  intros [H|(r & (l & Hr & _)%elem_of_list_bind & Hm)]%regs_meta_inv.
  { cbn in H. by rewrite lookup_empty in H. }
  exists l, r. split; [done|]. destruct r; cbn in Hm; simplify_eq; done.
Qed.
Lemma registry_app p k : registry_of ix (p ++ k) = foldl (fun g r => register r g) (registry_of ix p) (k ≫= ix_regs ix).
Proof. unfold registry_of. by rewrite bind_app, foldl_app. Qed.
Lemma registry_meta_some p T l dt : l ∈ p -> RegItem dt T ∈ ix_regs ix l -> is_Some (rg_meta (registry_of ix p) !! T).
Proof.
  intros Hl Hr. unfold registry_of. eapply (regs_meta_some _ _ _ (RegItem dt T)); [|reflexivity]. apply elem_of_list_bind. by exists l.
Qed.

(** ** Loading *)
Lemma load_library_app p c : exists k, (load_library ix p c).1 = p ++ k.
Proof.
  unfold load_library. destruct (ix_lib ix c) as [l|]; [|exists []; by rewrite app_nil_r].
  case_bool_decide; [exists []; by rewrite app_nil_r|]. destruct (ix_loads ix l); [by exists [l]|exists []; by rewrite app_nil_r].
Qed.
Lemma load_library_ok p c l : ix_lib ix c = Some l -> ix_loads ix l = true -> exists p', load_library ix p c = (p', true) /\ l ∈ p' /\
  exists k, p' = p ++ k.
Proof.
  intros Hl Hok. unfold load_library. rewrite Hl, Hok. case_bool_decide.
  - exists p. split; [done|]. split; [done|]. exists []. by rewrite app_nil_r.
  - exists (p ++ [l]). split; [done|]. split; [|by exists [l]]. apply elem_of_app. right. left.
Qed.
Lemma load_loop_app ns p b : exists k, (load_loop (load_library ix) ns p b).1.1 = p ++ k.
Proof.
  revert p b. induction ns as [|n ns IH]; intros p b; cbn [load_loop]; [exists []; by rewrite app_nil_r|].
  pose proof (load_library_app p n) as [k Hk]. destruct (load_library ix p n) as [p1 ok]. cbn in Hk. subst p1.
  destruct (IH (p ++ k) (if ok then b else true)) as [k' Hk']. destruct (load_loop _ _ _ _) as [[p2 tried] fails].
  cbn in *. exists (k ++ k'). by rewrite Hk', app_assoc.
Qed.
Lemma load_loop_loads ns p b c l : c ∈ ns -> ix_lib ix c = Some l -> ix_loads ix l = true -> l ∈ (load_loop (load_library ix) ns p b).1.1.
Proof.
  intros Hc Hl Hok. revert p b. induction ns as [|n ns IH]; intros p b; [by apply elem_of_nil in Hc|]. cbn [load_loop].
  destruct (load_library ix p n) as [p1 ok] eqn:Hn. apply elem_of_cons in Hc as [<-|Hc].
  - destruct (load_library_ok p c l Hl Hok) as (p' & Heq & Hin & _). rewrite Hn in Heq. injection Heq as -> ->.
    destruct (load_loop_app ns p' (if true then b else true)) as [k Hk]. destruct (load_loop _ _ _ _) as [[p2 tried] fails]. cbn in *.
    rewrite Hk. apply elem_of_app. by left.
  - specialize (IH Hc p1 (if ok then b else true)). destruct (load_loop _ _ p1 _) as [[p2 tried] fails]. done.
Qed.

Section env.
Context {P0 O S A I : Type} (e0 : env P0 O S A I).
Local Notation e := (with_registry ix e0).

Lemma reg_has_handle p c : has_handle e p c = true <-> exists l r, l ∈ p /\ r ∈ ix_regs ix l /\ exports r = c.
Proof. cbn [with_registry has_handle]. rewrite bool_decide_eq_true. apply registry_handles. Qed.
Lemma reg_handle_app p k c : has_handle e p c = true -> has_handle e (p ++ k) c = true.
Proof. rewrite !reg_has_handle. intros (l & r & ? & ?). exists l, r. split; [|done]. apply elem_of_app. by left. Qed.
Lemma reg_class_names p T c : SerialModel.class_name e p T = Some c -> names ix T c.
Proof.
  cbn [with_registry SerialModel.class_name]. rewrite fmap_Some. intros (d & Hd & ->). by eapply registry_meta_names.
Qed.
Lemma load_all_app p : exists k, load_all e p = p ++ k.
Proof. apply load_loop_app. Qed.
Lemma load_lib_app p c : exists k, (load_lib e p c).1 = p ++ k.
Proof.
  cbn [with_registry load_lib]. unfold load_item_library. case_bool_decide; [apply load_library_app|exists []; cbn; by rewrite app_nil_r].
Qed.

Lemma handles_stay p c : (has_handle e p c = true -> has_handle e (load_all e p) c = true) /\
  forall n, has_handle e p c = true -> has_handle e (load_lib e p n).1 c = true.
Proof.
  split.
  - destruct (load_all_app p) as [k ->]. apply reg_handle_app.
  - intros n. destruct (load_lib_app p n) as [k ->]. apply reg_handle_app.
Qed.

Lemma never_serializable T p : (forall c, ~ names ix T c) -> snd (is_serializable e p T) = false.
Proof.
  intros H. unfold is_serializable. destruct (SerialModel.class_name e p T) as [c|] eqn:Hc; [by destruct (H c (reg_class_names _ _ _ Hc))|].
  destruct (SerialModel.class_name e (load_all e p) T) as [c|] eqn:Hc1; [by destruct (H c (reg_class_names _ _ _ Hc1))|]. done.
Qed.

Section one.
Hypothesis Hone : one_name ix.

Lemma reg_grows p k : grows e p (p ++ k).
Proof.
  split; [|intros c; apply reg_handle_app]. intros T c Hc. pose proof (reg_class_names _ _ _ Hc) as Hn.
  cbn [with_registry SerialModel.class_name] in *. apply fmap_Some in Hc as (d & Hd & ->).
  destruct (regs_meta_keep (k ≫= ix_regs ix) (registry_of ix p) T) as [d' Hd']; [eauto|].
  rewrite <- registry_app in Hd'. rewrite Hd'. cbn. f_equal. eapply Hone; [|done]. by eapply registry_meta_names.
Qed.
Lemma reg_libraries_add : libraries_add e.
Proof.
  split.
  - intros p. destruct (load_all_app p) as [k ->]. apply reg_grows.
  - intros p c. destruct (load_lib_app p c) as [k ->]. apply reg_grows.
Qed.

Lemma always_serializable dt T p : installed ix dt T -> snd (is_serializable e p T) = true.
Proof.
  intros (l & Hcls & Hl & Hok & Hr).
  assert (Hname : forall p c, SerialModel.class_name e p T = Some c -> c = item_name dt).
  { intros p' c Hc. eapply Hone; [by eapply reg_class_names|]. by exists l, (RegItem dt T). }
  assert (Hload : forall p, has_handle e p (item_name dt) = false -> exists p', load_lib e p (item_name dt) = (p', true) /\ has_handle e p' (item_name dt) = true).
  { intros p1 _. destruct (load_library_ok p1 _ _ Hl Hok) as (p' & Heq & Hin & _). exists p'. cbn [with_registry load_lib]. unfold load_item_library.
    rewrite bool_decide_true by done. split; [done|]. apply reg_has_handle. by exists l, (RegItem dt T). }
  assert (Hfin : forall p, snd (if has_handle e p (item_name dt) then (p, true)
    else let '(p2, ok) := load_lib e p (item_name dt) in if ok : bool then (p2, has_handle e p2 (item_name dt)) else (p2, false)) = true).
  { intros p1. destruct (has_handle e p1 (item_name dt)) eqn:Hh; [done|]. destruct (Hload p1 Hh) as (p' & -> & ->). done. }
  unfold is_serializable. destruct (SerialModel.class_name e p T) as [c|] eqn:Hc.
  { rewrite Hc, (Hname _ _ Hc). apply Hfin. }
  assert (Hin : l ∈ load_all e p) by by eapply load_loop_loads.
  destruct (registry_meta_some _ _ _ _ Hin Hr) as [d Hd].
  destruct (SerialModel.class_name e (load_all e p) T) as [c|] eqn:Hc1.
  { rewrite (Hname _ _ Hc1). apply Hfin. }
  unfold with_registry in Hc1 at 1. cbn [SerialModel.class_name] in Hc1. rewrite Hd in Hc1. done.
Qed.
End one.

(** ** Reading on demand *)
Lemma reads_app q k c : reads ix q c -> reads ix (q ++ k) c.
Proof.
  intros [(l & r & ? & ?)|?]; [left|by right]. exists l, r. split; [|done]. apply elem_of_app. by left.
Qed.
Lemma reads_demand q c : reads ix q c -> has_handle e q c = true \/
  exists q', load_lib e q c = (q', true) /\ has_handle e q' c = true /\ keeps (reads ix) q q'.
Proof.
  intros [H|(l & r & Hcls & Hl & Hok & Hr & Hc)]; [left; by apply reg_has_handle|]. right.
  destruct (load_library_ok q _ _ Hl Hok) as (q' & Heq & Hin & k & ->). eexists. split; [|split].
  - cbn [with_registry load_lib]. unfold load_item_library. by rewrite bool_decide_true by done.
  - apply reg_has_handle. by exists l, r.
  - intros c'. apply reads_app.
Qed.
Lemma reg_round_trips sync lim : round_trips e0 sync lim -> round_trips e sync lim.
Proof. intros []. by split. Qed.
Lemma reg_handles_work : handles_work e0 -> handles_work e.
Proof. done. Qed.
End env.

Lemma installed_reads dt T q : installed ix dt T -> reads ix q (item_name dt).
Proof. intros (l & ? & ? & ? & ?). right. by exists l, (RegItem dt T). Qed.
Lemma installed_name dt T c : one_name ix -> installed ix dt T -> names ix T c -> c = item_name dt.
Proof. intros Hone (l & ? & ? & ? & ?) Hn. eapply Hone; [done|]. by exists l, (RegItem dt T). Qed.
End registry.

(** ** Writer and reader *)
Lemma demand_item {P0 O S I : Type} (e0 : env P0 O S byte I) (cls : I -> iclass) (sync : O -> S -> Prop) (lim : nat)
    (pre : O * list byte) (dec_pre : list byte -> option (S * list byte)) (chunk : list byte -> list write) ix1 ix2 p i v p' v' q :
  one_name ix1 -> round_trips e0 sync lim -> (forall bs, all_bytes (chunk bs) = bs) -> preamble_ok sync pre dec_pre ->
  save_item_to_binary (with_registry ix1 e0) cls pre chunk p i v = (p', Ret true, v') ->
  (forall c, names ix1 (type_index (cls i)) c -> reads ix2 q c) ->
  exists q', load_item_from_binary (with_registry ix2 e0) dec_pre q v' = (q', Ret (Some i)).
Proof.
  intros Hone Hrt Hchunk Hpre Hs Hq.
  destruct (binary_trip2 (with_registry ix1 e0) (with_registry ix2 e0) cls (reads ix2) sync lim pre dec_pre chunk p i v p' v' q) as (q' & Hl & _); try done.
  - intros. by apply reads_demand.
  - by apply reg_libraries_add.
  - by apply reg_round_trips.
  - intros c Hc _. apply Hq. by eapply reg_class_names.
  - by exists q'.
Qed.

Lemma demand_item_total {P0 O S I : Type} (e0 : env P0 O S byte I) (cls : I -> iclass) (sync : O -> S -> Prop) (lim : nat)
    (pre : O * list byte) (dec_pre : list byte -> option (S * list byte)) (chunk : list byte -> list write) ix1 ix2 dt p i v q :
  one_name ix1 -> round_trips e0 sync lim -> handles_work e0 -> (forall bs, all_bytes (chunk bs) = bs) -> preamble_ok sync pre dec_pre ->
  installed ix1 dt (type_index (cls i)) -> installed ix2 dt (type_index (cls i)) ->
  exists p' v' q', save_item_to_binary (with_registry ix1 e0) cls pre chunk p i v = (p', Ret true, v') /\
    load_item_from_binary (with_registry ix2 e0) dec_pre q v' = (q', Ret (Some i)).
Proof.
  intros Hone Hrt Hw Hchunk Hpre H1 H2.
  destruct (binary_serializable (with_registry ix1 e0) cls (reg_libraries_add ix1 e0 Hone) pre chunk Hchunk p i v) as (p' & v' & Hs);
    [by apply reg_handles_work|by eapply always_serializable|].
  destruct (demand_item e0 cls sync lim pre dec_pre chunk ix1 ix2 p i v p' v' q) as [q' Hl]; try done.
  { intros c Hc. rewrite (installed_name _ _ _ _ Hone H1 Hc). by eapply installed_reads. }
  by exists p', v', q'.
Qed.

Lemma demand_file {P0 O S A I E : Type} (e0 : env P0 O S A I) (ge : genv O S A E) (cls : I -> iclass)
    (sync : O -> S -> Prop) (lim : nat) (einv : E -> E) (pre : O * list A) (dec_pre : list A -> option (S * list A))
    (keep v : bool) (io : forder (I := I)) ix1 ix2 p q (s0 s : gst (gmap iclass (list I)) E) :
  one_name ix1 -> round_trips e0 sync lim -> handles_work e0 -> graph_round_trips ge sync lim -> preamble_ok sync pre dec_pre -> forder_ok io ->
  reachable ∅ einv s0 -> reachable ∅ einv s ->
  (forall f m, get_frame_property s0 f = Ret m -> typed cls m /\ fits lim m) -> num_vertices s0 <= lim -> num_edges s0 <= lim ->
  (forall f m T is, get_frame_property s0 f = Ret m -> m !! T = Some is -> is <> [] -> exists dt, installed ix1 dt T /\ installed ix2 dt T) ->
  (forall f, contains_frame s f = true -> keep = false /\ contains_frame s0 f = true) ->
  exists p' w q' s', save_to_file (with_registry ix1 e0) ge cls pre v io p s0 = (p', w, Ret tt) /\
    load_from_file (with_registry ix2 e0) ge cls dec_pre keep v q w s = (q', s', [], Ret tt) /\
    (forall f, contains_frame s' f = contains_frame s0 f) /\
    (forall a b, get_edge_property s' a b = get_edge_property s0 a b) /\
    num_vertices s' = num_vertices s0 /\ num_edges s' = num_edges s0 /\
    (forall f m, get_frame_property s0 f = Ret m -> exists m', get_frame_property s' f = Ret m' /\
       forall T is, m' !! T = Some is <-> m !! T = Some is /\ is <> []).
Proof.
  intros Hone Hrt Hw Hgt Hpre Hio Hr0 Hr Hok Hnv Hne Hin Hd.
  pose proof (reg_libraries_add ix1 e0 Hone) as Hlib.
  destruct (save_file_ok_reachable (with_registry ix1 e0) ge cls einv pre v io p s0 Hlib) as (p' & w & Hs);
    [done|done|done|intros f m Hm; by apply (Hok f)|].
  pose proof (reachable_wf _ _ _ Hr0) as Hw0. pose proof (reachable_wf _ _ _ Hr) as Hws.
  destruct (file_trip2 (with_registry ix1 e0) (with_registry ix2 e0) cls (reads ix2)) with (sync := sync) (lim := lim) (ge := ge) (einv := einv)
    (pre := pre) (dec_pre := dec_pre) (keep := keep) (v := v) (io := io) (p := p) (s0 := s0) (s := s) (p' := p') (w := w) (q := q)
    as (q' & s' & Hl & _ & H1 & H2 & H3 & H4 & H5); try done.
  - intros. by apply reads_demand.
  - by apply reg_round_trips.
  - intros f m T is Hm HT Hnn c Hc _. destruct (Hin f m T is Hm HT Hnn) as (dt & Hi1 & Hi2).
    rewrite (installed_name _ _ _ _ Hone Hi1 (reg_class_names _ _ _ _ _ Hc)). by eapply installed_reads.
  - exists p', w, q', s'. split; [done|]. split; [done|]. do 4 (split; [done|]).
    intros f m Hm. destruct (H5 f m Hm) as (m' & Hm' & HA & HB). exists m'. split; [done|]. intros T is. split.
    + intros HT. destruct (HA T is HT) as (? & ? & _). done.
    + intros [HT Hnn]. destruct (Hin f m T is Hm HT Hnn) as (dt & Hi1 & _). apply HB; [done|done|]. right. intros p1.
      by eapply always_serializable.
Qed.
