(** Proofs about copies: what a copy shows, when copying is defined, structural copies. *)
From stdpp Require Import prelude strings gmap gmultiset.
From Verif Require Import ListLib Outcome ItemClass Digraph Bfs TreeView GraphModel GraphOps GraphWf GraphStep
  SpecStore SpecObs GraphStore GraphRefine GraphThms GraphCopy SpecReplica TransformModel ItemsModel SpecItems ItemsData ItemsOps
  ItemsLog ItemsCopy ItemsThms ItemsPublish CopyModel.

Section plain.
Context {E : Type} (einv : E -> E).
Local Notation dg_wf := (dg_wf (D := imap) einv).
Local Notation dg s := (gs_dg (es_g s)).
Local Notation ereachable := (ereachable einv).
Implicit Types s c : est E.

Lemma get_items_eq s f X : dg_wf (dg s) -> get_items s f X =
  match dg_map (dg s) !! f with
  | Some _ => match items_of (dg s) f !! X with Some l => Ret l | None => Throw (XNoItemsOfType f X) end
  | None => Throw (XUnknownFrame f)
  end.
Proof.
  intros Hwf. destruct (dg_map (dg s) !! f) as [v|] eqn:Hf; [by apply (get_items_some einv) with v|by apply get_items_none].
Qed.

Lemma observes_shape s c st st' : observes (es_g s) st -> observes (es_g c) st' -> st_edges st' = st_edges st ->
  (forall f, known st' f <-> known st f) -> size (st_frames st') = size (st_frames st) -> same_shape s c.
Proof.
  intros Ho Ho' He Hf Hn. split.
  - intros f. rewrite (ob_contains _ _ Ho), (ob_contains _ _ Ho'). apply bool_decide_ext, Hf.
  - intros a b. rewrite (ob_contains_edge _ _ Ho), (ob_contains_edge _ _ Ho'), He.
    destruct (decide (known st' a)) as [Ha|Ha]; rewrite Hf in Ha; [rewrite (decide_True (P := known st a)) by done|by rewrite (decide_False (P := known st a)) by done].
    destruct (decide (known st' b)) as [Hb|Hb]; rewrite Hf in Hb; [by rewrite (decide_True (P := known st b)) by done|by rewrite (decide_False (P := known st b)) by done].
  - intros a b. rewrite (ob_edge _ _ Ho), (ob_edge _ _ Ho'), He.
    destruct (decide (known st' a)) as [Ha|Ha]; rewrite Hf in Ha; [rewrite (decide_True (P := known st a)) by done|by rewrite (decide_False (P := known st a)) by done].
    destruct (decide (known st' b)) as [Hb|Hb]; rewrite Hf in Hb; [by rewrite (decide_True (P := known st b)) by done|by rewrite (decide_False (P := known st b)) by done].
  - by rewrite (ob_num_vertices _ _ Ho), (ob_num_vertices _ _ Ho').
  - by rewrite (ob_num_edges _ _ Ho), (ob_num_edges _ _ Ho'), He.
Qed.

Lemma copy_shape s c : dg_wf (dg s) -> dg c = cgraph (dg s) -> same_shape s c.
Proof.
  intros Hwf Hc. destruct (store_exists einv (es_g s) Hwf) as [st Ho]. eapply (observes_shape s c st st); try done.
  apply (dgrepr_observes einv); rewrite Hc; [by apply cgraph_wf|]. apply (cgraph_repr einv); [done|]. by apply (observes_dgrepr einv).
Qed.
Lemma redata_shape F s c : dg_wf (dg s) -> dg c = redata F (dg s) -> same_shape s c.
Proof.
  intros Hwf Hc. assert (Hwf' : dg_wf (dg c)) by (rewrite Hc; by apply redata_wf). split.
  - intros f. rewrite !(contains_frame_map einv) by done. by rewrite Hc.
  - intros a b. rewrite !(contains_edge_eq einv) by done. by rewrite Hc.
  - intros a b. rewrite !(get_edge_property_eq einv) by done. by rewrite Hc.
  - unfold num_vertices. by rewrite Hc.
  - unfold num_edges. by rewrite Hc.
Qed.
Lemma same_shape_trans s1 s2 s3 : same_shape s1 s2 -> same_shape s2 s3 -> same_shape s1 s3.
Proof. intros [] []. split; intros; congruence. Qed.

(** C47: what a copy shows. *)
Lemma copy_spec s c : ereachable s -> eg_copy s = Ret c ->
  ereachable c /\ same_shape s c /\ (forall f X, get_items c f X = get_items s f X) /\
  (forall f, get_frame_property (es_g c) f = get_frame_property (es_g s) f) /\
  (forall i, deref c i = deref s i) /\ gs_subs (es_g c) = [] /\ gs_views (es_g c) = ∅.
Proof.
  intros Hre Hc. pose proof (ereachable_copy einv s c Hre Hc) as Hrec. pose proof (ereachable_wf einv s Hre) as Hwf.
  pose proof (ereachable_wf einv c Hrec) as Hwfc. apply eg_copy_eq in Hc. assert (Hdc : dg c = cgraph (dg s)) by by rewrite Hc.
  split; [done|]. split; [by apply copy_shape|]. split; [|split; [|by rewrite Hc]].
  - intros f X. rewrite !get_items_eq by done. rewrite Hdc, (cgraph_map einv), (cgraph_items einv) by done. by destruct (dg_map (dg s) !! f).
  - intros f. destruct (store_exists einv (es_g s) Hwf) as [st Ho].
    assert (Ho' : observes (es_g c) st).
    { apply (dgrepr_observes einv); rewrite Hdc; [by apply cgraph_wf|]. apply (cgraph_repr einv); [done|]. by apply (observes_dgrepr einv). }
    by rewrite (ob_frame _ _ Ho), (ob_frame _ _ Ho').
Qed.

(** C46: what a filtered copy shows. *)
Lemma filter_copy_spec io fl incl s c : ereachable s -> iorder_ok io -> eg_filter_copy io fl incl s = Ret c ->
  ereachable c /\ same_shape s c /\
  (forall f X, kept fl incl X -> get_items c f X = get_items s f X) /\
  (forall f X, ~ kept fl incl X -> items_in c f X = [] /\ contains_items c f X <> Ret true) /\
  (forall i, deref c i = deref s i) /\ gs_subs (es_g c) = [] /\ gs_views (es_g c) = ∅.
Proof.
  intros Hre Hio Hc. destruct fl as [fl|].
  2:{ destruct (copy_spec s c Hre Hc) as (H1 & H2 & H3 & _ & H4). split; [done|]. split; [done|]. split; [auto|]. split; [|done].
      intros f X Hk. by destruct Hk. }
  pose proof (ereachable_filter_copy einv io _ incl s c Hio Hre Hc) as Hrec. pose proof (ereachable_wf einv s Hre) as Hwf.
  pose proof (ereachable_wf einv c Hrec) as Hwfc. apply filter_copy_eq in Hc.
  assert (Hdc : dg c = redata (filter_all io fl incl) (cgraph (dg s))) by by rewrite Hc.
  assert (Hsel : forall X, kept (Some fl) incl X <-> selected fl incl X = true).
  { intros X. unfold selected. cbn [kept]. destruct incl; [by rewrite bool_decide_eq_true|]. by rewrite negb_true_iff, bool_decide_eq_false. }
  assert (Hcw : dg_wf (cgraph (dg s))) by by apply cgraph_wf.
  split; [done|]. split.
  { apply (same_shape_trans s (ESt (GSt (cgraph (dg s)) [] ∅) (es_heap s))); [by apply copy_shape|]. by eapply redata_shape. }
  split; [|split; [|by rewrite Hc]].
  - intros f X Hk%Hsel. rewrite !get_items_eq by done. rewrite Hdc. rewrite (filter_copy_items einv) by done. rewrite Hk.
    rewrite (cgraph_items einv) by done. cbn [redata dg_map]. rewrite (cgraph_map einv (dg s)) by done. by destruct (dg_map (dg s) !! f).
  - intros f X Hk. assert (selected fl incl X = false) as Hs by (destruct (selected fl incl X) eqn:H; [by apply Hsel in H|done]).
    rewrite (items_in_eq einv) by done. assert (H0 : items_of (dg c) f !! X = None).
    { rewrite Hdc, (filter_copy_items einv) by done. by rewrite Hs. }
    rewrite H0. split; [done|]. unfold contains_items. destruct (dg_map (dg c) !! f) as [v|] eqn:Hf.
    + rewrite (get_vertex_some einv _ f v) by done. cbn [obind]. unfold contains_items_v.
      rewrite (items_at_some einv c f v) by done. cbn [obind]. rewrite H0. by rewrite bool_decide_eq_false_2 by (by intros [? ?]).
    + rewrite get_vertex_none by done. done.
Qed.

(** *** When copying is defined *)

Definition dense {D} (g : digraph D E) : Prop := dg_maxvi g = length (dg_verts g).
Definition not_frame_removed (x : event) : Prop := match x with EvFrameRemoved _ => False | _ => True end.

Lemma lsteps_dense {D} (g : digraph D E) ev g' : lsteps einv g ev g' -> Forall not_frame_removed ev -> dense g -> dense g'.
Proof.
  unfold dense. induction 1 as [|g1 ev1 g2 ev2 g3 H1 H2 IH]; [done|]. intros [Hf1 Hf2]%list.Forall_app Hd. apply IH; [done|]. clear IH H2.
  destruct H1 as [g f d Hm| | | |g v f|g v d]; try done.
  - unfold bg_add_vertex. rewrite Hm. cbn. rewrite app_length. cbn. lia.
  - by rewrite list.Forall_singleton in Hf1.
  - cbn. by rewrite fmap_length.
Qed.

Lemma dense_copy {D} (s : gst D E) : GraphWf.dg_wf einv (gs_dg s) -> dense (gs_dg s) -> exists g, copy_graph s = Ret g.
Proof.
  intros Hwf Hd. eexists. apply (copy_graph_ok einv); [done|]. intros r Hr. unfold dense in Hd. rewrite <- Hd. by apply (wf_idxb einv _ Hwf).
Qed.

Lemma copy_plain_defined {D} (d0 : D) h (s : gst D E) ev : hist_noself h -> run d0 einv h gst0 = (s, ev, Ret tt) ->
  (forall f, EvFrameRemoved f ∉ ev) -> exists g, copy_graph s = Ret g.
Proof.
  intros Hh Hr Hn. assert (Hl : lsteps einv (gs_dg (D := D) gst0) ev (gs_dg s)) by (eapply run_lsteps; [apply dg_wf_empty|done..]).
  apply dense_copy; [eapply lsteps_wf; [apply dg_wf_empty|done]|]. eapply lsteps_dense; [done| |done].
  apply list.Forall_forall. intros x Hx. destruct x; try done. by apply Hn in Hx.
Qed.

Definition dns {A} (m : call (est E) A) : Prop := forall s s' ev r, dg_wf (dg s) -> m s = (s', ev, r) -> ok r ->
  dg_wf (dg s') /\ (Forall not_frame_removed ev -> dense (dg s) -> dense (dg s')).
Lemma dns_bind {A B} (m : call (est E) A) (k : A -> call (est E) B) : dns m -> (forall a, dns (k a)) -> dns (cbind m k).
Proof.
  intros Hm Hk s s' ev r Hwf Hr Hok. unfold cbind in Hr. destruct (m s) as [[s1 ev1] r1] eqn:H1.
  destruct r1 as [a|x| |]; [|injection Hr as <- <- <-; by eapply Hm..].
  destruct (k a s1) as [[s2 ev2] r2] eqn:H2. injection Hr as <- <- <-. destruct (Hm _ _ _ _ Hwf H1) as [W1 D1]; [done|].
  destruct (Hk _ _ _ _ _ W1 H2 Hok) as [W2 D2]. split; [done|]. intros [F1 F2]%list.Forall_app Hd. auto.
Qed.
Lemma dns_read {A} (q : est E -> outcome A) : dns (cread q).
Proof. intros s s' ev r Hwf [= <- <- _] _. done. Qed.
Lemma dns_ret {A} (a : A) : dns (cret a).
Proof. intros s s' ev r Hwf [= <- <- _] _. done. Qed.
Lemma dns_notify x : dns (cnotify x).
Proof. intros s s' ev r Hwf [= <- <- _] _. done. Qed.
Lemma dns_gstep ord op : op_noself op -> dns (lift (gstep ∅ einv ord op)).
Proof.
  intros Hns s s' ev r Hwf [Hs _]%lift_inv Hok. pose proof (gstep_lsteps ∅ einv ord op _ _ _ _ Hwf Hns Hs Hok) as Hl.
  split; [by eapply lsteps_wf|]. intros Hf. by eapply lsteps_dense.
Qed.
Lemma dns_write v m : dns (write_items v m).
Proof. exact (dns_gstep (fun _ _ _ l => l) (OSetFrameData v m) I). Qed.
Lemma dns_set_item_frame i f : dns (set_item_frame i f).
Proof. intros s s' ev r Hwf. unfold set_item_frame. destruct (es_heap s !! i); by intros [= <- <- _]. Qed.
Lemma dns_new_item i X f : dns (new_item i X f).
Proof. intros s s' ev r Hwf. unfold new_item. destruct (es_heap s !! i); by intros [= <- <- _]. Qed.
Lemma dns_for_frames (m : frameid -> call (est E) unit) fs : (forall f, dns (m f)) -> dns (for_frames m fs).
Proof. intros Hm. induction fs as [|f fs IH]; cbn; [apply dns_ret|]. apply dns_bind; [apply Hm|done]. Qed.

Ltac den := repeat first [apply dns_bind; [|intros ?] | apply dns_read | apply dns_ret | apply dns_notify | apply dns_write
  | apply dns_set_item_frame | apply dns_new_item | match goal with |- dns (match ?x with _ => _ end) => destruct x end | done].

Lemma dns_estep ord io op : eop_ok op -> dns (estep einv ord io op).
Proof.
  assert (Hcf : forall f, dns (clear_frame (E := E) io f)).
  { assert (Hcl : forall f v k l, dns (clear_list (E := E) f v k l)).
    { intros f v k l. induction l as [|i l IH]; cbn [clear_list]; den. }
    assert (Hct : forall f v ks, dns (clear_types (E := E) f v ks)).
    { intros f v ks. induction ks as [|k ks IH]; cbn [clear_types]; den. }
    intros f. unfold clear_frame. den. }
  assert (Hrf : forall f, dns (eg_remove_frame (E := E) io f))
    by (intros f; apply dns_bind; [apply Hcf|intros ?; exact (dns_gstep ord (ORemoveFrame f) I)]).
  intros Hop. destruct op as [op|i c f|i f|i|f i|i|f alias X itf k|f|]; cbn [estep].
  - assert (Hns : op_noself op) by by destruct op. destruct op; try (by apply (dns_gstep ord _ Hns)). apply Hrf.
  - den.
  - den.
  - unfold add_item, add_item_to_frame. den.
  - unfold add_item_to_frame. den.
  - unfold remove_item. den.
  - unfold remove_item_it. den.
  - apply Hcf.
  - apply dns_bind; [apply dns_read|intros ?]. apply dns_bind; [|intros ?]; apply dns_for_frames; intros f'; [|apply Hrf].
    exact (dns_gstep ord (ODisconnect f') I).
Qed.

Lemma copy_defined h s ev : ehist_ok h -> erun einv h (est_new ∅) = (s, ev, Ret tt) ->
  (forall f, EvFrameRemoved f ∉ ev) -> exists c, eg_copy s = Ret c.
Proof.
  intros Hh Hr Hn. assert (Hd : dns (erun einv h)).
  { clear -Hh. induction h as [|[[ord io] op] h IH]; [apply dns_ret|]. apply list.Forall_cons in Hh as [[_ Hop] Hh]. specialize (IH Hh).
    intros s s' ev r Hwf Hr Hok. cbn [erun] in Hr. destruct (estep einv ord io op s) as [[s1 ev1] r1] eqn:H1.
    destruct r1 as [u|x| |].
    1-2: destruct (erun einv h s1) as [[s2 ev2] r2] eqn:H2; injection Hr as <- <- <-;
      (destruct (dns_estep ord io op Hop _ _ _ _ Hwf H1) as [W1 D1]; [done|]); destruct (IH _ _ _ _ W1 H2 Hok) as [W2 D2];
      (split; [done|]); intros [F1 F2]%list.Forall_app Hd0; auto.
    all: injection Hr as <- <- <-; by destruct Hok. }
  destruct (Hd (est_new ∅) _ _ _ (dg_wf_empty einv) Hr) as [Hwf Hde]; [done|]. destruct (dense_copy (es_g s)) as [c Hc]; [done| |].
  - apply Hde; [|done]. apply list.Forall_forall. intros x Hx. destruct x; try done. by apply Hn in Hx.
  - exists (ESt c (es_heap s)). unfold eg_copy. by rewrite Hc.
Qed.

(** One call on a graph without subscribed views, seen from the store. *)
Lemma sim_step (d0 : imap) ord op (g g' : gst imap E) st ev r : dg_wf (gs_dg g) -> dgrepr (gs_dg g) st -> gs_subs g = [] -> sop_noself op ->
  gstep d0 einv ord (call_of op) g = (g', ev, r) ->
  dg_wf (gs_dg g') /\ gs_subs g' = [] /\ dgrepr (gs_dg g') (spec_step d0 einv op st).1 /\ r = (spec_step d0 einv op st).2.
Proof.
  intros Hwf Hr Hsub Hns Hs. destruct (sop_sim d0 einv ord op g st g' ev r Hwf Hr Hns Hs) as (H & Hsub' & _).
  assert (Hwf' : ok r -> dg_wf (gs_dg g')).
  { intros Hok. eapply lsteps_wf; [done|]. eapply gstep_lsteps; [done| |done|done]. by destruct op. }
  destruct r as [[]|x| |]; [| |done..].
  - destruct H as [H1 H2]. split; [by apply Hwf'|]. split; [by rewrite Hsub'|]. done.
  - destruct H as [(H1 & H2 & -> & _)|[_ ?]]; [|done]. split; [done|]. split; [done|]. rewrite H2. done.
Qed.

Lemma spec_step_add (d0 : imap) f d (st : store imap E) :
  spec_step d0 einv (SEmplaceFrame f d) st = if decide (known st f) then (st, Throw (XFrameAlreadyExists f))
      else (Store (<[f := d]> (st_frames st)) (st_edges st), Ret tt).
Proof. done. Qed.

End plain.

Section structural.
Context {T : Type} (one : T) (mul : T -> T -> T) (inv : T -> T).
Local Notation E := (tf T).
Local Notation einv := (tf_inverse inv).
Local Notation dg_wf := (dg_wf (D := imap) einv).
Local Notation dg s := (gs_dg (es_g s)).
Local Notation ereachable := (ereachable einv).
Implicit Types s d : est E.

Lemma copy_frames_run (src : gst imap E) vs d st : dg_wf (gs_dg src) -> (forall r, r ∈ vs -> r ∈ dg_verts (gs_dg src)) ->
  NoDup (v_name <$> vs) -> dg_wf (dg d) -> gs_subs (es_g d) = [] -> dgrepr (dg d) st -> (forall f, f ∈ v_name <$> vs -> ~ known st f) ->
  exists d' ev, copy_frames src vs d = (d', ev, Ret tt) /\ dg_wf (dg d') /\ gs_subs (es_g d') = [] /\ es_heap d' = es_heap d /\
    exists fr, dgrepr (dg d') (Store fr (st_edges st)) /\
      forall f, fr !! f = if decide (f ∈ v_name <$> vs) then Some ∅ else st_frames st !! f.
Proof.
  intros Hwfs. revert d st. induction vs as [|r vs IH]; intros d st Hin Hnd Hwf Hsub Hrep Hnew; cbn [copy_frames].
  { exists d, []. do 4 (split; [done|]). exists (st_frames st). split; [by destruct st|]. intros f. by rewrite decide_False by apply not_elem_of_nil. }
  cbn [fmap list_fmap] in *. apply list.NoDup_cons in Hnd as [Hn Hnd].
  assert (Hr : get_frame_id src (v_id r) = Ret (v_name r)).
  { apply (get_frame_id_some einv); [done|]. apply (wf_map einv _ Hwfs). exists r. split; [apply Hin; left|done]. }
  erewrite cbind_read_ret by done.
  destruct (gstep ∅ einv (fun _ _ _ l => l) (OEmplaceFrame (v_name r) ∅) (es_g d)) as [[g1 ev1] r1] eqn:H1.
  pose proof (sim_step einv ∅ _ (SEmplaceFrame (v_name r) ∅) _ _ _ _ _ Hwf Hrep Hsub I H1) as (Hwf1 & Hsub1 & Hrep1 & ->).
  assert (Hk : ~ known st (v_name r)) by (apply Hnew; left). rewrite spec_step_add, decide_False in Hrep1, H1 by done. cbn [fst snd] in Hrep1, H1.
  cbn [gstep] in H1. apply cbind_ret_void_inv in H1 as (r' & H1 & Hr').
  destruct (IH (ESt g1 (es_heap d)) (Store (<[v_name r := ∅]> (st_frames st)) (st_edges st))) as (d2 & ev2 & H2 & Hwf2 & Hsub2 & Hh2 & fr & Hrep2 & Hfr).
  { intros q Hq. apply Hin. by right. }
  { done. } { exact Hwf1. } { exact Hsub1. } { exact Hrep1. }
  { intros f Hf. unfold known. cbn [st_frames]. rewrite lookup_insert_is_Some. intros [<-|[_ Hkn]]; [done|]. apply (Hnew f); [by right|done]. }
  exists d2, (ev1 ++ ev2). split; [|split; [done|split; [done|split; [done|]]]].
  - unfold cbind, lift, add_frame. rewrite H1. destruct r'; [|done..]. by rewrite H2.
  - exists fr. split; [done|]. intros f. rewrite Hfr. cbn [st_frames]. destruct (decide (f ∈ v_name <$> vs)) as [Hf|Hf].
    + by rewrite decide_True by by right.
    + destruct (decide (f = v_name r)) as [->|Hne]; [rewrite lookup_insert; by rewrite decide_True by left|].
      rewrite lookup_insert_ne by done. by rewrite decide_False by (rewrite not_elem_of_cons; done).
Qed.

Lemma copy_edges_run (src : gst imap E) sst es d st : (forall x, inv (inv x) = x) -> dg_wf (gs_dg src) -> dgrepr (gs_dg src) sst ->
  (forall e, e ∈ es -> e ∈ dg_edges (gs_dg src)) ->
  dg_wf (dg d) -> gs_subs (es_g d) = [] -> dgrepr (dg d) st -> (forall f, known sst f -> known st f) ->
  (forall a b p, st_edges st !! (a, b) = Some p -> st_edges sst !! (a, b) = Some p) ->
  (forall a b, is_Some (st_edges st !! (a, b)) -> is_Some (st_edges st !! (b, a))) ->
  exists d' ev, copy_edges one mul inv src es d = (d', ev, Ret tt) /\ dg_wf (dg d') /\ gs_subs (es_g d') = [] /\ es_heap d' = es_heap d /\
    exists ed, dgrepr (dg d') (Store (st_frames st) ed) /\
      (forall a b p, ed !! (a, b) = Some p -> st_edges sst !! (a, b) = Some p) /\
      (forall a b, is_Some (st_edges st !! (a, b)) -> is_Some (ed !! (a, b))) /\
      (forall e, e ∈ es -> is_Some (ed !! ends (gs_dg src) e)).
Proof.
  intros Hinv Hwfs Hreps. revert d st. induction es as [|e es IH]; intros d st Hin Hwf Hsub Hrep Hkn Hsame Hsym; cbn [copy_edges].
  { exists d, []. do 4 (split; [done|]). exists (st_edges st). split; [by destruct st|]. do 2 (split; [done|]). by intros ? ?%elem_of_nil. }
  assert (He : e ∈ dg_edges (gs_dg src)) by (apply Hin; left).
  destruct (name_alive einv src (e_src e) Hwfs (wf_src einv _ Hwfs e He)) as [Ha Hma].
  destruct (name_alive einv src (e_tgt e) Hwfs (wf_tgt einv _ Hwfs e He)) as [Hb Hmb].
  set (a := bg_name (gs_dg src) (e_src e)) in *. set (b := bg_name (gs_dg src) (e_tgt e)) in *.
  assert (Hx : get_transform_v one mul src (e_src e) (e_tgt e) = Ret (e_prop e)).
  { unfold get_transform_v. destruct (Nat.eqb_spec (num_edges src) 0) as [H0|_].
    - exfalso. unfold num_edges in H0. rewrite (wf_ne einv _ Hwfs) in H0. apply nil_length_inv in H0. rewrite H0 in He. by apply elem_of_nil in He.
    - rewrite find_edge_alive by by eapply wf_src_alive. cbn [obind].
      assert (bg_edge (gs_dg src) (e_src e) (e_tgt e) = Some e) as -> by by apply (bg_edge_iff einv). done. }
  erewrite cbind_read_ret by done. erewrite cbind_read_ret by done. erewrite cbind_read_ret by done.
  assert (Hab : a <> b). { intros Heq. rewrite Heq in Hma. rewrite Hma in Hmb. injection Hmb as Heq2. by apply (wf_noself einv _ Hwfs e He). }
  assert (Hsab : st_edges sst !! (a, b) = Some (e_prop e)) by (apply (dr_edges _ _ Hreps); eauto).
  assert (Hka : known st a). { apply Hkn. by apply (dgrepr_edge_known einv _ _ _ _ _ Hwfs Hreps) in Hsab as [Ha1%(dgrepr_known einv _ _ _ Hwfs Hreps) _]. }
  assert (Hkb : known st b). { apply Hkn. by apply (dgrepr_edge_known einv _ _ _ _ _ Hwfs Hreps) in Hsab as [_ Hb1%(dgrepr_known einv _ _ _ Hwfs Hreps)]. }
  assert (Hsba : st_edges sst !! (b, a) = Some (einv (e_prop e))).
  { destruct (wf_inv einv _ Hwfs e He) as (e' & He' & Hs & Ht & Hp).
    assert (Hp' : e_prop e' = einv (e_prop e)).
    { destruct Hp as [Hp|Hp]; [done|]. rewrite Hp. unfold tf_inverse. cbn. rewrite Hinv. by destruct (e_prop e'). }
    rewrite <- Hp'. apply (dr_edges _ _ Hreps). exists e'. rewrite Hs, Ht. done. }
  destruct (gstep ∅ einv (fun _ _ _ l => l) (OAddEdge a b (e_prop e)) (es_g d)) as [[g1 ev1] r1] eqn:H1.
  pose proof (sim_step einv ∅ _ (SAddEdge a b (e_prop e)) _ _ _ _ _ Hwf Hrep Hsub Hab H1) as (Hwf1 & Hsub1 & Hrep1 & ->).
  cbn [spec_step] in Hrep1, H1. set (d1 := ESt g1 (es_heap d)).
  assert (Hstep : exists st1, dgrepr (dg d1) st1 /\ ignore_existing (lift (add_transform inv ∅ a b (e_prop e))) d = (d1, ev1, Ret tt) /\
     st_frames st1 = st_frames st /\ (forall a b p, st_edges st1 !! (a, b) = Some p -> st_edges sst !! (a, b) = Some p) /\
     (forall a b, is_Some (st_edges st1 !! (a, b)) -> is_Some (st_edges st1 !! (b, a))) /\
     (forall a b, is_Some (st_edges st !! (a, b)) -> is_Some (st_edges st1 !! (a, b))) /\ is_Some (st_edges st1 !! (a, b))).
  { cbn [gstep] in H1. destruct (st_edges st !! (a, b)) as [q|] eqn:Hq.
    - exists st. split; [done|]. split; [|by eauto 6]. unfold ignore_existing, lift, add_transform. by rewrite H1.
    - cbn [fst snd] in *. assert (Hen : ensure ∅ b (ensure ∅ a (st_frames st)) = st_frames st).
      { unfold ensure. destruct Hka as [x1 Hka], Hkb as [x2 Hkb]. rewrite Hka. by rewrite Hkb. }
      rewrite Hen in Hrep1. eexists. split; [exact Hrep1|]. cbn [st_frames st_edges].
      split; [unfold ignore_existing, lift, add_transform; by rewrite H1|]. split; [done|]. split.
      { intros a' b' p. rewrite !lookup_insert_Some. intros [[[= <- <-] <-]|[_ [[[= <- <-] <-]|[_ Hp]]]]; auto. }
      split; [|split].
      + intros a' b'. rewrite !lookup_insert_is_Some'. intros [[= <- <-]|[[= <- <-]|Hs]]; [by right; left|by left|].
        right. right. by apply Hsym.
      + intros a' b' Hs. rewrite !lookup_insert_is_Some'. auto.
      + rewrite lookup_insert. eauto. }
  destruct Hstep as (st1 & Hrep1' & Hrun & Hfr1 & Hsame1 & Hsym1 & Hmono1 & Hin1).
  destruct (IH d1 st1) as (d2 & ev2 & H2 & Hwf2 & Hsub2 & Hh2 & ed & Hrep2 & He1 & He2 & He3).
  { intros e' He'. apply Hin. by right. }
  { exact Hwf1. } { exact Hsub1. } { exact Hrep1'. } { intros f Hf. unfold known. rewrite Hfr1. by apply Hkn. } { done. } { done. }
  exists d2, (ev1 ++ ev2). split; [|split; [done|split; [done|split; [done|]]]].
  - unfold cbind at 1. rewrite Hrun. by rewrite H2.
  - exists ed. rewrite <- Hfr1. split; [done|]. split; [done|]. split; [auto|].
    intros e' [->|He']%elem_of_cons; [|by apply He3]. unfold ends. fold a b. by apply He2.
Qed.

Lemma structural_copy_spec s d : (forall x, inv (inv x) = x) -> ereachable s -> ereachable d ->
  num_vertices (es_g d) = 0 -> gs_subs (es_g d) = [] ->
  exists d' ev, create_structural_copy one mul inv s d = (d', ev, Ret tt) /\ same_shape s d' /\
    (forall f X, items_in d' f X = []) /\ (forall i, deref d' i = deref d i).
Proof.
  intros Hinv Hs%(ereachable_wf einv) Hd%(ereachable_wf einv) H0 Hsub.
  destruct (store_exists einv (es_g s) Hs) as [sst Hos]. pose proof (observes_dgrepr einv _ _ Hs Hos) as Hreps.
  assert (Hv0 : dg_verts (dg d) = []) by (apply nil_length_inv; rewrite <- (wf_nv einv _ Hd); done).
  assert (He0 : dg_edges (dg d) = []).
  { destruct (dg_edges (dg d)) as [|e l] eqn:He; [done|]. assert (Hsrc : e ∈ dg_edges (dg d)) by (rewrite He; left).
    apply (wf_src einv _ Hd) in Hsrc. rewrite Hv0 in Hsrc. by apply elem_of_nil in Hsrc. }
  assert (Hrep0 : dgrepr (dg d) store0).
  { split; [intros f x; rewrite Hv0|intros a b p; rewrite He0]; cbn; rewrite lookup_empty; (split; [done|]); by intros (? & ?%elem_of_nil & _). }
  destruct (copy_frames_run (es_g s) (dg_verts (dg s)) d store0) as (d1 & ev1 & H1 & Hwf1 & Hsub1 & Hh1 & fr & Hrep1 & Hfr); try done.
  { apply (wf_vname einv _ Hs). }
  { intros f _ [x Hx]. cbn in Hx. by rewrite lookup_empty in Hx. }
  assert (Hkn : forall f, is_Some (fr !! f) <-> known sst f).
  { intros f. rewrite Hfr. rewrite (dgrepr_known einv _ _ _ Hs Hreps). rewrite <- (names_all einv) by done. unfold names.
    destruct (decide (f ∈ v_name <$> dg_verts (dg s))); [by split; eauto|]. cbn. rewrite lookup_empty. split; [by intros [? ?]|done]. }
  destruct (copy_edges_run (es_g s) sst (dg_edges (dg s)) d1 (Store fr ∅)) as (d2 & ev2 & H2 & Hwf2 & Hsub2 & Hh2 & ed & Hrep2 & He1 & _ & He3); try done.
  { intros f Hf. by apply Hkn. }
  assert (Hed : ed = st_edges sst).
  { apply map_eq. intros [a b]. apply option_eq. intros p. split; [apply He1|]. intros Hp. pose proof Hp as (e & He & Ha & Hb & _)%(dr_edges _ _ Hreps).
    destruct (He3 e He) as [q Hq]. assert (Hends : ends (dg s) e = (a, b)).
    { unfold ends. by rewrite (bg_name_map einv _ a), (bg_name_map einv _ b) by done. }
    rewrite Hends in Hq. rewrite Hq. apply He1 in Hq. congruence. }
  assert (Ho2 : observes (es_g d2) (Store fr ed)) by by apply (dgrepr_observes einv).
  exists d2, (ev1 ++ ev2). split; [|split; [|split]].
  - unfold create_structural_copy, cbind. by rewrite H1, H2.
  - eapply observes_shape; [done|done|done| |]; cbn [st_frames].
    + apply Hkn.
    + rewrite <- !size_dom. f_equal. apply set_eq. intros f. rewrite !elem_of_dom. apply Hkn.
  - intros f X. rewrite (items_in_eq einv) by done. assert (items_of (dg d2) f = ∅) as ->; [|by rewrite lookup_empty].
    unfold items_of. destruct (dg_map (dg d2) !! f) as [v|] eqn:Hf; [|done]. destruct (map_vrec einv _ f v Hwf2 Hf) as (r & Hr & Hn).
    rewrite Hr. apply (bg_vrec_iff einv) in Hr as [Hr _]; [|done]. assert (Hfd : fr !! f = Some (v_data r)).
    { apply (dr_frames _ _ Hrep2). eauto. }
    rewrite Hfr in Hfd. destruct (decide _); [by injection Hfd|]. cbn in Hfd. by rewrite lookup_empty in Hfd.
  - intros i. unfold deref. by rewrite Hh2, Hh1.
Qed.

End structural.
