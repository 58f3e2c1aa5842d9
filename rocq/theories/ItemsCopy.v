(** Copies of graphs with items and programs with several graphs. *)
From stdpp Require Import prelude strings gmap gmultiset.
From Verif Require Import ListLib Outcome ItemClass Digraph Bfs TreeView GraphModel GraphOps GraphWf GraphStep
  SpecStore SpecObs GraphStore GraphRefine GraphThms GraphCopy ItemsModel SpecItems ItemsData ItemsOps ItemsLog.

Section copies.
Context {E : Type} (einv : E -> E).
Local Notation dg_wf := (dg_wf (D := imap) einv).
Local Notation dg s := (gs_dg (es_g s)).
Local Notation Inv := (Inv einv).
Implicit Types s c : est E.

Lemma cgraph_items (g : digraph imap E) f : dg_wf g -> items_of (cgraph g) f = items_of g f.
Proof.
  intros Hwf. unfold items_of at 1. rewrite (cgraph_map einv) by done. unfold items_of. destruct (dg_map g !! f) as [v|] eqn:Hf; [|done].
  cbn [fmap option_fmap option_map]. destruct (map_vrec einv g f v Hwf Hf) as (r & Hr & _). rewrite Hr.
  destruct (cgraph_vrec einv g f v r Hwf Hf Hr) as (r' & -> & _ & ->). done.
Qed.

(** *** Filtering *)

Definition selected (fl : list tyid) (inclusive : bool) (T : tyid) : bool :=
  if inclusive then bool_decide (T ∈ fl) else negb (bool_decide (T ∈ fl)).

Lemma filter_types_lookup fl incl ks m T :
  filter_types fl incl ks m !! T = if decide (T ∈ ks) then (if selected fl incl T then m !! T else None) else m !! T.
Proof.
  revert m. induction ks as [|k ks IH]; intros m; cbn [filter_types]; [by rewrite decide_False by apply not_elem_of_nil|].
  rewrite IH. destruct (decide (k = T)) as [->|Hne].
  - rewrite (decide_True (P := T ∈ T :: ks)) by left. unfold selected.
    destruct (decide (T ∈ ks)) as [H|H]; destruct incl, (bool_decide (T ∈ fl)); cbn [negb]; try done; by rewrite lookup_delete.
  - assert (H : forall b : bool, (if b then m else delete k m) !! T = m !! T /\ (if b then delete k m else m) !! T = m !! T)
      by (intros []; split; try done; by rewrite lookup_delete_ne).
    destruct (decide (T ∈ ks)) as [Hin|Hin].
    + rewrite decide_True by by right. destruct (selected fl incl T); [|done]. destruct incl; apply H.
    + rewrite decide_False by (rewrite not_elem_of_cons; split; [congruence|done]). destruct incl; apply H.
Qed.

Lemma filter_types_all io v fl incl (m : imap) T : iorder_ok io ->
  filter_types fl incl (io v m) m !! T = if selected fl incl T then m !! T else None.
Proof.
  intros Hio. rewrite filter_types_lookup. destruct (decide (T ∈ io v m)) as [Hin|Hin]; [done|].
  destruct (m !! T) as [l|] eqn:Hl; [|by destruct (selected fl incl T)]. exfalso. apply Hin. rewrite (Hio v m).
  apply elem_of_list_fmap. exists (T, l). split; [done|]. by apply elem_of_map_to_list.
Qed.

(** Changing nothing but the content of the frames. *)
Definition redata (F : vrec imap -> imap) (g : digraph imap E) : digraph imap E :=
  Digraph ((fun r => VRec (v_id r) (v_index r) (v_name r) (F r)) <$> dg_verts g) (dg_edges g) (dg_map g) (dg_nextv g) (dg_nexte g)
    (dg_maxvi g) (dg_nv g) (dg_ne g).
Lemma redata_wf F g : dg_wf g -> dg_wf (redata F g).
Proof.
  intros Hwf. assert (Hf : forall A (k : vrec imap -> A), (forall r, k (VRec (v_id r) (v_index r) (v_name r) (F r)) = k r) ->
    k <$> dg_verts (redata F g) = k <$> dg_verts g).
  { intros A k Hk. cbn. rewrite <- list_fmap_compose. apply list_fmap_ext. intros ? r _. apply Hk. }
  assert (Hin : forall r, r ∈ dg_verts (redata F g) <-> exists q, q ∈ dg_verts g /\ r = VRec (v_id q) (v_index q) (v_name q) (F q)).
  { intros r. cbn [redata dg_verts]. rewrite elem_of_list_fmap. naive_solver. }
  pose proof (Hf _ v_id ltac:(done)) as H1. pose proof (Hf _ v_name ltac:(done)) as H2. pose proof (Hf _ v_index ltac:(done)) as H3.
  destruct Hwf. split; try (rewrite ?H1, ?H2, ?H3; done).
  - intros f v. cbn [redata dg_map]. rewrite wf_map. split.
    + intros (r & Hr & Hv & Hn). exists (VRec (v_id r) (v_index r) (v_name r) (F r)). split; [apply Hin; eauto|done].
    + intros (r & (q & Hq & ->)%Hin & Hv & Hn). eauto.
  - intros r (q & Hq & ->)%Hin. by apply (wf_vbound q).
  - cbn [redata dg_nv dg_verts]. by rewrite fmap_length.
  - intros r (q & Hq & ->)%Hin. by apply (wf_idxb q).
Qed.
Lemma redata_items F g f : dg_wf g -> (forall r, v_data r = ∅ -> F r = ∅) ->
  items_of (redata F g) f = match dg_map g !! f with
    | Some v => match bg_vrec g v with Some r => F r | None => ∅ end | None => ∅ end.
Proof.
  intros Hwf HF. unfold items_of. cbn [redata dg_map]. destruct (dg_map g !! f) as [v|] eqn:Hf; [|done].
  destruct (map_vrec einv g f v Hwf Hf) as (r & Hr & _). rewrite Hr. fold (redata F g).
  assert (bg_vrec (redata F g) v = Some (VRec (v_id r) (v_index r) (v_name r) (F r))) as ->; [|done].
  apply (bg_vrec_iff einv) in Hr as [Hr Hv]; [|done]. apply (bg_vrec_iff einv); [by apply redata_wf|].
  cbn [redata dg_verts]. split; [|done]. by apply (elem_of_list_fmap_1 (fun r => VRec (v_id r) (v_index r) (v_name r) (F r))).
Qed.

Definition filter_all (io : iorder) fl incl (r : vrec imap) : imap := filter_types fl incl (io (v_id r) (v_data r)) (v_data r).
Lemma filter_copy_eq io fl incl s c : eg_filter_copy io (Some fl) incl s = Ret c ->
  c = ESt (GSt (redata (filter_all io fl incl) (cgraph (dg s))) [] ∅) (es_heap s).
Proof.
  unfold eg_filter_copy. destruct (copy_graph (es_g s)) as [g| | |] eqn:Hg; cbn [obind]; try done.
  apply copy_graph_eq in Hg as ->. by intros [= <-].
Qed.
Lemma filter_copy_none io incl s : eg_filter_copy io None incl s = eg_copy s.
Proof. done. Qed.
Lemma eg_copy_eq s c : eg_copy s = Ret c -> c = ESt (GSt (cgraph (dg s)) [] ∅) (es_heap s).
Proof.
  unfold eg_copy. destruct (copy_graph (es_g s)) as [g| | |] eqn:Hg; cbn [obind]; try done.
  apply copy_graph_eq in Hg as ->. by intros [= <-].
Qed.

Lemma filter_all_empty io fl incl r : iorder_ok io -> v_data r = ∅ -> filter_all io fl incl r = ∅.
Proof.
  intros Hio Hr. unfold filter_all. rewrite Hr. apply map_eq. intros T. rewrite filter_types_all, lookup_empty by done.
  by destruct (selected fl incl T).
Qed.
Lemma filter_copy_items io fl incl g f T : iorder_ok io -> dg_wf g ->
  items_of (redata (filter_all io fl incl) g) f !! T = if selected fl incl T then items_of g f !! T else None.
Proof.
  intros Hio Hwf. rewrite redata_items by (try done; intros; by apply filter_all_empty). unfold items_of.
  assert (H0 : (∅ : imap) !! T = if selected fl incl T then (∅ : imap) !! T else None)
    by (rewrite lookup_empty; by destruct (selected fl incl T)).
  destruct (dg_map g !! f) as [v|]; [|done]. destruct (bg_vrec g v) as [r|]; [|done].
  by apply filter_types_all.
Qed.

Lemma Inv_copy s c : Inv s -> eg_copy s = Ret c -> Inv c.
Proof.
  intros [Hwf Hit] ->%eg_copy_eq. split; [by apply cgraph_wf|]. intros f. cbn [es_g gs_dg es_heap]. rewrite cgraph_items by done. apply Hit.
Qed.
Lemma Inv_filter_copy io fl incl s c : iorder_ok io -> Inv s -> eg_filter_copy io fl incl s = Ret c -> Inv c.
Proof.
  intros Hio Hi. destruct fl as [fl|]; [|rewrite filter_copy_none; by apply Inv_copy]. destruct Hi as [Hwf Hit].
  intros ->%filter_copy_eq. assert (Hc : dg_wf (cgraph (dg s))) by by apply cgraph_wf.
  split; [by apply redata_wf|]. intros f T l. cbn [es_g gs_dg es_heap].
  rewrite filter_copy_items by done. rewrite cgraph_items by done. destruct (selected fl incl T); [|done]. apply Hit.
Qed.

(** *** Items keep their type *)

Definition keeps {A} (m : call (est E) A) : Prop := forall s s' ev r, m s = (s', ev, r) -> typed (es_heap s) (es_heap s').
Lemma typed_trans h1 h2 h3 : typed h1 h2 -> typed h2 h3 -> typed h1 h3.
Proof. intros H1 H2 i x Hx. destruct (H1 i x Hx) as (y & Hy & ?). destruct (H2 i y Hy) as (z & Hz & ?). exists z. split; congruence. Qed.
Lemma keeps_bind {A B} (m : call (est E) A) (k : A -> call (est E) B) : keeps m -> (forall a, keeps (k a)) -> keeps (cbind m k).
Proof.
  intros Hm Hk s s' ev r Hr. unfold cbind in Hr. destruct (m s) as [[s1 ev1] r1] eqn:H1. pose proof (Hm _ _ _ _ H1) as T1.
  destruct r1 as [a|x| |]; [|by injection Hr as <- _ _..].
  destruct (k a s1) as [[s2 ev2] r2] eqn:H2. injection Hr as <- _ _. eapply typed_trans; [done|]. by eapply Hk.
Qed.
Lemma keeps_read {A} (q : est E -> outcome A) : keeps (cread q).
Proof. intros s s' ev r [= <- _ _]. apply typed_refl. Qed.
Lemma keeps_ret {A} (a : A) : keeps (cret a).
Proof. intros s s' ev r [= <- _ _]. apply typed_refl. Qed.
Lemma keeps_notify x : keeps (cnotify x).
Proof. intros s s' ev r [= <- _ _]. apply typed_refl. Qed.
Lemma keeps_lift {A} (m : call (gst imap E) A) : keeps (lift m).
Proof. intros s s' ev r. unfold lift. destruct (m (es_g s)) as [[g ev'] r']. intros [= <- _ _]. apply typed_refl. Qed.
Lemma keeps_set_item_frame i f : keeps (set_item_frame i f).
Proof.
  intros s s' ev r. unfold set_item_frame. destruct (es_heap s !! i) as [x|] eqn:Hx; intros [= <- _ _]; [|apply typed_refl].
  by apply typed_frame.
Qed.
Lemma keeps_new_item i T f : keeps (new_item i T f).
Proof.
  intros s s' ev r. unfold new_item. destruct (es_heap s !! i) as [x|] eqn:Hx; intros [= <- _ _]; [apply typed_refl|].
  by apply typed_new.
Qed.
Lemma keeps_for_frames (m : frameid -> call (est E) unit) fs : (forall f, keeps (m f)) -> keeps (for_frames m fs).
Proof. intros Hm. induction fs as [|f fs IH]; cbn; [apply keeps_ret|]. apply keeps_bind; [apply Hm|done]. Qed.

Ltac keep := repeat first [apply keeps_bind; [|intros ?] | apply keeps_read | apply keeps_ret | apply keeps_notify | apply keeps_lift
  | apply keeps_set_item_frame | apply keeps_new_item | match goal with |- keeps (match ?x with _ => _ end) => destruct x end | done].

Lemma keeps_estep ord io op : keeps (estep einv ord io op).
Proof.
  assert (Hcf : forall f, keeps (clear_frame (E := E) io f)).
  { assert (Hcl : forall f v k l, keeps (clear_list (E := E) f v k l)).
    { intros f v k l. induction l as [|i l IH]; cbn [clear_list]; [keep|]. unfold write_items. keep. }
    assert (Hct : forall f v ks, keeps (clear_types (E := E) f v ks)).
    { intros f v ks. induction ks as [|k ks IH]; cbn [clear_types]; [keep|]. unfold write_items. keep. }
    intros f. unfold clear_frame. keep. }
  assert (Hrf : forall f, keeps (eg_remove_frame (E := E) io f)) by (intros f; apply keeps_bind; [apply Hcf|intros ?; apply keeps_lift]).
  destruct op as [op|i c f|i f|i|f i|i|f alias T itf k|f|]; cbn [estep].
  - destruct op; try apply keeps_lift. apply Hrf.
  - keep.
  - keep.
  - unfold add_item, add_item_to_frame, write_items. keep.
  - unfold add_item_to_frame, write_items. keep.
  - unfold remove_item, write_items. keep.
  - unfold remove_item_it, write_items. keep.
  - apply Hcf.
  - apply keeps_bind; [apply keeps_read|intros ?]. apply keeps_bind; [|intros ?]; apply keeps_for_frames; intros f'; [apply keeps_lift|apply Hrf].
Qed.

(** *** Programs with several graphs *)

Definition WInv (w : world E) : Prop := forall g G, w_graphs w !! g = Some G -> Inv (ESt G (w_heap w)).

Lemma Inv_typed s h : Inv s -> typed (es_heap s) h -> Inv (ESt (es_g s) h).
Proof. intros [Hwf Hit] Ht. split; [done|]. intros f. cbn. eapply listed_mono; [done|]. apply Hit. Qed.

Lemma w_construct_inv g x (w w' : world E) ev r : WInv w -> (forall s, x = Ret s -> Inv s /\ es_heap s = w_heap w) ->
  w_construct g x w = (w', ev, r) -> ok r -> WInv w'.
Proof.
  intros Hw Hx Hr Hok. unfold w_construct in Hr. destruct x as [s|y| |], (w_graphs w !! g); injection Hr as <- _ <-; try done.
  destruct (Hx s) as [Hi Hh]; [done|]. intros g' G. cbn. rewrite lookup_insert_Some. intros [[<- <-]|[_ HG]]; [|by eapply Hw].
  rewrite <- Hh. by destruct s.
Qed.

Lemma wstep_inv ord io op (w w' : world E) ev r : WInv w -> iorder_ok io -> wop_ok op -> wstep einv ord io op w = (w', ev, r) -> ok r ->
  WInv w'.
Proof.
  intros Hw Hio Hop Hr Hok. destruct op as [g|g op|src dst|fl incl src dst]; cbn [wstep] in Hr.
  - eapply w_construct_inv; [done| |exact Hr|done]. intros s [= <-]. split; [|done]. split; [apply dg_wf_empty|]. intros f. apply listed_empty.
  - destruct (w_graphs w !! g) as [G|] eqn:HG; [|injection Hr as _ _ <-; by destruct Hok].
    destruct (estep einv ord io op (ESt G (w_heap w))) as [[s' ev'] r'] eqn:Hs. injection Hr as <- <- <-.
    destruct (estep_fine einv ord io op _ _ _ _ (Hw g G HG) Hio Hop Hs Hok) as [Hi _].
    pose proof (keeps_estep ord io op _ _ _ _ Hs) as Ht. cbn in Ht.
    intros g' G'. cbn. rewrite lookup_insert_Some. intros [[<- <-]|[_ HG']]; [by destruct s'|].
    by apply (Inv_typed (ESt G' (w_heap w))); [by eapply Hw|].
  - destruct (w_graphs w !! src) as [G|] eqn:HG; [|injection Hr as _ _ <-; by destruct Hok].
    eapply w_construct_inv; [done| |exact Hr|done]. intros s Hs. split; [by eapply Inv_copy; [by eapply Hw|]|].
    by apply eg_copy_eq in Hs as ->.
  - destruct (w_graphs w !! src) as [G|] eqn:HG; [|injection Hr as _ _ <-; by destruct Hok].
    eapply w_construct_inv; [done| |exact Hr|done]. intros s Hs. split; [by eapply Inv_filter_copy; [done|by eapply Hw|]|].
    destruct fl as [fl|]; [by apply filter_copy_eq in Hs as ->|]. by apply eg_copy_eq in Hs as ->.
Qed.

Lemma wrun_inv h (w w' : world E) : WInv w -> whist_ok h -> wrun einv h w = (w', Ret tt) -> WInv w'.
Proof.
  revert w. induction h as [|[[ord io] op] h IH]; intros w Hw Hh Hr; cbn [wrun] in Hr; [by injection Hr as <-|].
  apply list.Forall_cons in Hh as [[Hio Hop] Hh]. cbn in Hio, Hop. destruct (wstep einv ord io op w) as [[w1 ev1] r1] eqn:H1.
  destruct r1 as [u|x| |]; try done; (eapply (IH w1); [|done..]; by eapply wstep_inv).
Qed.

Lemma ereachable_inv s : ereachable einv s -> Inv s.
Proof.
  intros (w & g & (h & Hh & Hr) & HG & Hheap). assert (Hw : WInv w) by (eapply wrun_inv; [|done..]; intros ?? H; cbn in H; by rewrite lookup_empty in H).
  specialize (Hw _ _ HG). rewrite <- Hheap in Hw. by destruct s.
Qed.

(** Histories of one graph. *)
Lemma erun_world g h s s' ev r (w : world E) : erun einv h s = (s', ev, r) -> in_world w g s ->
  exists w', wrun einv ((fun x => (x.1, WCall g x.2)) <$> h) w = (w', r) /\ in_world w' g s'.
Proof.
  revert s ev w. induction h as [|[[ord io] op] h IH]; intros s ev w Hr [HG Hh]; cbn [erun] in Hr; cbn [fmap list_fmap wrun].
  { injection Hr as <- _ <-. exists w. split; [done|]. by split. }
  cbn [fst snd wstep]. rewrite HG, <- Hh. assert (ESt (es_g s) (es_heap s) = s) as -> by by destruct s.
  destruct (estep einv ord io op s) as [[s1 ev1] r1] eqn:H1.
  set (w1 := World (<[g := es_g s1]> (w_graphs w)) (es_heap s1)).
  assert (Hw1 : in_world w1 g s1) by (split; [apply lookup_insert|done]).
  destruct r1 as [u|x| |].
  - destruct (erun einv h s1) as [[s2 ev2] r2] eqn:H2. injection Hr as <- _ <-. by eapply IH.
  - destruct (erun einv h s1) as [[s2 ev2] r2] eqn:H2. injection Hr as <- _ <-. by eapply IH.
  - injection Hr as <- _ <-. by exists w1.
  - injection Hr as <- _ <-. by exists w1.
Qed.

Lemma wrun_app h1 h2 (w w1 : world E) : wrun einv h1 w = (w1, Ret tt) -> wrun einv (h1 ++ h2) w = wrun einv h2 w1.
Proof.
  revert w. induction h1 as [|[[ord io] op] h1 IH]; intros w Hr; cbn [wrun app] in *; [by injection Hr as <-|].
  destruct (wstep einv ord io op w) as [[w2 ev2] r2]. destruct r2; try done; by apply IH.
Qed.

Lemma ereachable_run h s s' ev : ereachable einv s -> ehist_ok h -> erun einv h s = (s', ev, Ret tt) -> ereachable einv s'.
Proof.
  intros (w & g & (h0 & Hh0 & Hr0) & Hw) Hh Hr. destruct (erun_world g h s s' ev (Ret tt) w Hr Hw) as (w' & Hr' & Hw').
  exists w', g. split; [|done]. exists (h0 ++ ((fun x => (x.1, WCall g x.2)) <$> h)). split.
  - apply list.Forall_app. split; [done|]. apply list.Forall_fmap. exact Hh.
  - by rewrite (wrun_app _ _ _ w).
Qed.
Lemma ereachable_new : ereachable einv (est_new ∅).
Proof.
  exists (World {[0 := gst0]} ∅), 0. split; [|done]. exists [((fun _ _ _ l => l), (fun _ m => (map_to_list m).*1), WNew 0)].
  split; [|done]. apply list.Forall_singleton. split; [|done]. first [done | by intros ??].
Qed.
Lemma ereachable_copy s c : ereachable einv s -> eg_copy s = Ret c -> ereachable einv c.
Proof.
  intros (w & g & (h0 & Hh0 & Hr0) & HG & Hh) Hc. set (dst := fresh (dom (w_graphs w))).
  assert (Hd : w_graphs w !! dst = None) by (apply not_elem_of_dom; apply is_fresh).
  exists (World (<[dst := es_g c]> (w_graphs w)) (w_heap w)), dst. split.
  - exists (h0 ++ [((fun _ _ _ l => l), (fun _ m => (map_to_list m).*1), WCopy g dst)]). split.
    + apply list.Forall_app. split; [done|]. apply list.Forall_singleton. split; [|done]. first [done | by intros ??].
    + rewrite (wrun_app _ _ _ w) by done. cbn [wrun wstep]. rewrite HG, <- Hh.
      assert (ESt (es_g s) (es_heap s) = s) as -> by by destruct s. rewrite Hc. unfold w_construct. by rewrite Hd, Hh.
  - split; [apply lookup_insert|]. cbn. by apply eg_copy_eq in Hc as ->.
Qed.
Lemma ereachable_filter_copy io fl incl s c : iorder_ok io -> ereachable einv s -> eg_filter_copy io fl incl s = Ret c -> ereachable einv c.
Proof.
  intros Hio (w & g & (h0 & Hh0 & Hr0) & HG & Hh) Hc. set (dst := fresh (dom (w_graphs w))).
  assert (Hd : w_graphs w !! dst = None) by (apply not_elem_of_dom; apply is_fresh).
  exists (World (<[dst := es_g c]> (w_graphs w)) (w_heap w)), dst. split.
  - exists (h0 ++ [((fun _ _ _ l => l), io, WFilterCopy fl incl g dst)]). split.
    + apply list.Forall_app. split; [done|]. apply list.Forall_singleton. split; [|done]. first [done | by intros ??].
    + rewrite (wrun_app _ _ _ w) by done. cbn [wrun wstep]. rewrite HG, <- Hh.
      assert (ESt (es_g s) (es_heap s) = s) as -> by by destruct s. rewrite Hc. unfold w_construct. by rewrite Hd, Hh.
  - split; [apply lookup_insert|]. cbn. destruct fl as [fl|]; [by apply filter_copy_eq in Hc as ->|by apply eg_copy_eq in Hc as ->].
Qed.

(** A step on one graph does not touch the others, and no item is destroyed or changes its type. *)
Lemma wstep_others ord io op (w w' : world E) ev r : wstep einv ord io op w = (w', ev, r) ->
  (forall g, g <> acts_on op -> w_graphs w' !! g = w_graphs w !! g) /\ typed (w_heap w) (w_heap w').
Proof.
  assert (Hc : forall d x, w_construct d x w = (w', ev, r) ->
    (forall g, g <> d -> w_graphs w' !! g = w_graphs w !! g) /\ typed (w_heap w) (w_heap w')).
  { intros d x Hr. unfold w_construct in Hr. destruct x, (w_graphs w !! d); injection Hr as <- _ _; (split; [|apply typed_refl]); try done.
    intros g Hg. cbn. by rewrite lookup_insert_ne. }
  destruct op as [g|g op|src dst|fl incl src dst]; cbn [wstep acts_on]; intros Hr.
  - by eapply Hc.
  - destruct (w_graphs w !! g) as [G|]; [|injection Hr as <- _ _; split; [done|apply typed_refl]].
    destruct (estep einv ord io op _) as [[s' ev'] r'] eqn:Hs. injection Hr as <- _ _. split.
    + intros g' Hg'. cbn. by rewrite lookup_insert_ne.
    + apply (keeps_estep ord io op _ _ _ _ Hs).
  - destruct (w_graphs w !! src) as [G|]; [|injection Hr as <- _ _; split; [done|apply typed_refl]]. by eapply Hc.
  - destruct (w_graphs w !! src) as [G|]; [|injection Hr as <- _ _; split; [done|apply typed_refl]]. by eapply Hc.
Qed.
Lemma wrun_others h g (w w' : world E) r : wrun einv h w = (w', r) -> Forall (fun x => acts_on x.2 <> g) h ->
  w_graphs w' !! g = w_graphs w !! g /\ typed (w_heap w) (w_heap w').
Proof.
  revert w. induction h as [|[[ord io] op] h IH]; intros w Hr Hf; cbn [wrun] in Hr; [injection Hr as <- _; split; [done|apply typed_refl]|].
  apply list.Forall_cons in Hf as [Hg Hf]. cbn in Hg. destruct (wstep einv ord io op w) as [[w1 ev1] r1] eqn:H1.
  destruct (wstep_others _ _ _ _ _ _ _ H1) as [Ho Ht].
  assert (Hrec : wrun einv h w1 = (w', r) -> w_graphs w' !! g = w_graphs w !! g /\ typed (w_heap w) (w_heap w')).
  { intros H2. destruct (IH w1 H2 Hf) as [Hg2 Ht2]. split; [rewrite Hg2; by apply Ho|]. by eapply typed_trans. }
  destruct r1 as [u|x| |]; [by apply Hrec..| |]; injection Hr as <- _; (split; [by apply Ho|done]).
Qed.

End copies.
