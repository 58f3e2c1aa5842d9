(** Lemmas about when copying a graph is defined. *)
From stdpp Require Import prelude strings gmap gmultiset.
From Verif Require Import ListLib Outcome ItemClass Digraph Bfs TreeView GraphModel GraphOps GraphWf GraphStep
  SpecStore SpecObs GraphStore GraphRefine GraphThms GraphCopy SpecReplica TransformModel ItemsModel SpecItems ItemsData ItemsOps
  ItemsLog ItemsCopy ItemsThms ItemsPublish CopyModel SpecRank.

Section rank.
Context {E : Type} (einv : E -> E).
Local Notation dg s := (gs_dg (es_g s)).

(** The vertex indices are the positions in the list of slots. *)
Definition numbered {D} (l : list (option frameid)) (g : digraph D E) : Prop :=
  dg_maxvi g = length l /\
  forall i f, l !! i = Some (Some f) <-> exists r, r ∈ dg_verts g /\ v_index r = i /\ v_name r = f.

Lemma numbered_verts {D} l (g g' : digraph D E) : dg_maxvi g' = dg_maxvi g -> dg_verts g' = dg_verts g -> numbered l g -> numbered l g'.
Proof. unfold numbered. by intros -> ->. Qed.

Lemma lstep_numbered {D} (g : digraph D E) ev g' l : dg_wf einv g -> lstep einv g ev g' -> numbered l g -> numbered (foldl slot l ev) g'.
Proof.
  intros Hwf H1. destruct H1 as [g f d Hm| | | |g v f Hm Hd|g v d]; cbn [foldl slot]; try (by apply numbered_verts).
  - unfold bg_add_vertex. rewrite Hm. cbn [fst]. intros [Hl Hn]. split; cbn [dg_maxvi dg_verts]; [rewrite app_length; cbn; lia|].
    intros i f'. destruct (decide (i < length l)) as [Hi|Hi].
    + rewrite lookup_app_l by done. rewrite Hn. split; intros (r & Hr & Hx & Hy); exists r; (split; [|done]).
      * apply elem_of_app. by left.
      * apply elem_of_app in Hr as [Hr|Hr%elem_of_list_singleton]; [done|]. subst. cbn in Hi. lia.
    + rewrite lookup_app_r by lia. split.
      * intros Hx. destruct (i - length l) as [|k] eqn:Hk; [|done]. injection Hx as <-. eexists. split; [apply elem_of_app; right; by apply elem_of_list_singleton|].
        cbn. split; [lia|done].
      * intros (r & [Hr|Hr%elem_of_list_singleton]%elem_of_app & Hx & Hy).
        { exfalso. apply Hi. assert (Hq : l !! i = Some (Some f')) by (apply Hn; eauto). by eapply lookup_lt_Some. }
        subst. cbn [v_index v_name]. rewrite Hl, Nat.sub_diag. done.
  - intros [Hl Hn]. split; cbn [bg_remove_vertex dg_maxvi dg_verts]; [by rewrite fmap_length|]. intros i f'.
    assert (Hid : forall r, r ∈ dg_verts g -> v_id r = v <-> v_name r = f).
    { intros r Hr. apply (wf_map einv _ Hwf) in Hm as (q & Hq & Hqv & Hqf). split; intros Hx.
      - assert (dg_map g !! v_name r = Some v) as Ha by (apply (wf_map einv _ Hwf); eauto).
        assert (r = q) as ->; [|done]. eapply (NoDup_fmap_inj v_id); [apply (wf_vid einv _ Hwf)|done..|congruence].
      - assert (r = q) as ->; [|done]. eapply (NoDup_fmap_inj v_name); [apply (wf_vname einv _ Hwf)|done..|congruence]. }
    rewrite list_lookup_fmap. split.
    + intros Hx. destruct (l !! i) as [x|] eqn:Hli; [|done]. cbn in Hx. destruct (decide (x = Some f)) as [|Hne]; [done|]. injection Hx as ->.
      apply Hn in Hli as (r & Hr & Hri & Hrf). exists r. split; [|done]. apply elem_of_list_filter. split; [|done].
      intros Hv. apply Hne. f_equal. rewrite <- Hrf. by apply Hid.
    + intros (r & [Hv Hr]%elem_of_list_filter & Hri & Hrf). assert (Hli : l !! i = Some (Some f')) by (apply Hn; eauto).
      rewrite Hli. cbn. rewrite decide_False; [done|]. intros [= ->]. apply Hv. by apply Hid.
  - intros [Hl Hn]. split; cbn [bg_set_data dg_maxvi dg_verts]; [done|]. intros i f'. rewrite Hn. split.
    + intros (r & Hr & Hi & Hf). eexists. split; [apply elem_of_list_fmap_1, Hr|]. cbn. by destruct (Nat.eqb _ _).
    + intros (r & (q & -> & Hq)%elem_of_list_fmap & Hi & Hf). exists q. split; [done|]. revert Hi Hf. cbn. by destruct (Nat.eqb _ _).
Qed.

Lemma lsteps_numbered {D} (g : digraph D E) ev g' l : dg_wf einv g -> lsteps einv g ev g' -> numbered l g -> numbered (foldl slot l ev) g'.
Proof.
  intros Hwf H. revert l Hwf. induction H as [|g1 ev1 g2 ev2 g3 H1 H2 IH]; intros l Hwf Hn; [done|]. rewrite foldl_app.
  apply IH; [|by eapply lstep_numbered]. eapply lsteps_wf; [exact Hwf|by apply lsteps_one].
Qed.

Lemma numbered_defined {D} l (s : gst D E) : dg_wf einv (gs_dg s) -> numbered l (gs_dg s) ->
  (no_gap l -> exists c, copy_graph s = Ret c) /\ (~ no_gap l -> copy_graph s = UB).
Proof.
  intros Hwf [Hl Hn]. set (g := gs_dg s) in *.
  assert (Hiff : (forall r, r ∈ dg_verts g -> v_index r < length (dg_verts g)) <-> no_gap l).
  { split.
    - intros Hall i j f Hij Hj Hi. apply Hn in Hj as (r & Hr & Hrj & Hrf). pose proof (Hall r Hr) as Hlt.
      assert (Hni : i ∉ v_index <$> dg_verts g).
      { intros (q & -> & Hq)%elem_of_list_fmap. assert (l !! v_index q = Some (Some (v_name q))) by (apply Hn; eauto). congruence. }
      assert (Hle : length (i :: (v_index <$> dg_verts g)) <= length (seq 0 (length (dg_verts g)))).
      { apply submseteq_length, NoDup_submseteq; [apply list.NoDup_cons; split; [done|apply (wf_idx einv _ Hwf)]|].
        intros x [->|(q & -> & Hq)%elem_of_list_fmap]%elem_of_cons; apply elem_of_seq; [lia|]. specialize (Hall q Hq). lia. }
      rewrite seq_length in Hle. cbn [length] in Hle. rewrite fmap_length in Hle. lia.
    - intros Hg r Hr. assert (Hrl : l !! v_index r = Some (Some (v_name r))) by (apply Hn; eauto).
      assert (Hle : length (seq 0 (S (v_index r))) <= length (v_index <$> dg_verts g)).
      { apply submseteq_length, NoDup_submseteq; [apply NoDup_seq|]. intros i Hi%elem_of_seq.
        assert (Hli : exists f, l !! i = Some (Some f)).
        { destruct (decide (i = v_index r)) as [->|Hne]; [eauto|]. assert (is_Some (l !! i)) as [x Hx].
          { apply lookup_lt_is_Some. apply lookup_lt_Some in Hrl. lia. }
          destruct x as [f|]; [eauto|]. exfalso. eapply (Hg i (v_index r)); [lia|done|done]. }
        destruct Hli as [f (q & Hq & <- & _)%Hn]. by apply elem_of_list_fmap_1. }
      rewrite seq_length, fmap_length in Hle. lia. }
  split.
  - intros Hg. eexists. apply (copy_graph_ok einv); [done|]. by apply Hiff.
  - intros Hg. unfold copy_graph. fold g. destruct (forallb _ _) eqn:Hf; [|done]. exfalso. apply Hg, Hiff. intros r Hr.
    rewrite <- Is_true_true, forallb_True, list.Forall_forall in Hf. specialize (Hf r Hr). rewrite Is_true_true, Nat.ltb_lt in Hf.
    by rewrite (wf_nv einv _ Hwf) in Hf.
Qed.

Lemma numbered_new {D} : numbered (D := D) [] (gs_dg gst0).
Proof. split; [done|]. intros i f. split; [done|]. by intros (r & ?%elem_of_nil & _). Qed.
Lemma numbered_cgraph {D} (g : digraph D E) : numbered (Some <$> (v_name <$> dg_verts g)) (cgraph g).
Proof.
  split; [cbn; by rewrite !fmap_length|]. intros i f. rewrite !list_lookup_fmap. split.
  - destruct (dg_verts g !! i) as [q|] eqn:Hq; [|done]. intros [= <-]. eexists. split; [apply cverts_in; eauto|done].
  - intros (r & (k & q & Hq & ->)%cverts_in & <- & <-). cbn [v_index v_name]. by rewrite Hq.
Qed.

Lemma plain_defined_iff {D} (d0 : D) h (s : gst D E) ev : hist_noself h -> run d0 einv h gst0 = (s, ev, Ret tt) ->
  (no_gap (slots ev) -> exists c, copy_graph s = Ret c) /\ (~ no_gap (slots ev) -> copy_graph s = UB).
Proof.
  intros Hh Hr. assert (Hl : lsteps einv (gs_dg (D := D) gst0) ev (gs_dg s)) by (eapply run_lsteps; [apply dg_wf_empty|done..]).
  apply numbered_defined; [eapply lsteps_wf; [apply dg_wf_empty|done]|]. eapply lsteps_numbered; [apply dg_wf_empty|done|apply numbered_new].
Qed.

(** *** Graphs with items *)
Definition ranks {A} (m : call (est E) A) : Prop := forall s s' ev r, dg_wf einv (dg s) -> m s = (s', ev, r) -> ok r ->
  dg_wf einv (dg s') /\ (forall l, numbered l (dg s) -> numbered (foldl slot l ev) (dg s')).
Lemma ranks_bind {A B} (m : call (est E) A) (k : A -> call (est E) B) : ranks m -> (forall a, ranks (k a)) -> ranks (cbind m k).
Proof.
  intros Hm Hk s s' ev r Hwf Hr Hok. unfold cbind in Hr. destruct (m s) as [[s1 ev1] r1] eqn:H1.
  destruct r1 as [a|x| |]; [|injection Hr as <- <- <-; by eapply Hm..].
  destruct (k a s1) as [[s2 ev2] r2] eqn:H2. injection Hr as <- <- <-. destruct (Hm _ _ _ _ Hwf H1) as [W1 D1]; [done|].
  destruct (Hk _ _ _ _ _ W1 H2 Hok) as [W2 D2]. split; [done|]. intros l Hl. rewrite foldl_app. auto.
Qed.
Lemma ranks_read {A} (q : est E -> outcome A) : ranks (cread q).
Proof. intros s s' ev r Hwf [= <- <- _] _. done. Qed.
Lemma ranks_ret {A} (a : A) : ranks (cret a).
Proof. intros s s' ev r Hwf [= <- <- _] _. done. Qed.
Lemma ranks_notify x : (forall l, slot l x = l) -> ranks (cnotify x).
Proof. intros Hx s s' ev r Hwf [= <- <- _] _. split; [done|]. intros l Hl. cbn [foldl]. by rewrite Hx. Qed.
Lemma ranks_gstep ord op : op_noself op -> ranks (lift (gstep ∅ einv ord op)).
Proof.
  intros Hns s s' ev r Hwf [Hs _]%lift_inv Hok. pose proof (gstep_lsteps ∅ einv ord op _ _ _ _ Hwf Hns Hs Hok) as Hl.
  split; [by eapply lsteps_wf|]. intros l Hn. by eapply lsteps_numbered.
Qed.
Lemma ranks_write v m : ranks (write_items v m).
Proof. exact (ranks_gstep (fun _ _ _ l => l) (OSetFrameData v m) I). Qed.
Lemma ranks_set_item_frame i f : ranks (set_item_frame i f).
Proof. intros s s' ev r Hwf. unfold set_item_frame. destruct (es_heap s !! i); by intros [= <- <- _]. Qed.
Lemma ranks_new_item i X f : ranks (new_item i X f).
Proof. intros s s' ev r Hwf. unfold new_item. destruct (es_heap s !! i); by intros [= <- <- _]. Qed.
Lemma ranks_for_frames (m : frameid -> call (est E) unit) fs : (forall f, ranks (m f)) -> ranks (for_frames m fs).
Proof. intros Hm. induction fs as [|f fs IH]; cbn; [apply ranks_ret|]. apply ranks_bind; [apply Hm|done]. Qed.

Ltac rnk := repeat first [apply ranks_bind; [|intros ?] | apply ranks_read | apply ranks_ret | apply ranks_notify; done | apply ranks_write
  | apply ranks_set_item_frame | apply ranks_new_item | match goal with |- ranks (match ?x with _ => _ end) => destruct x end | done].

Lemma ranks_estep ord io op : eop_ok op -> ranks (estep einv ord io op).
Proof.
  assert (Hcf : forall f, ranks (clear_frame (E := E) io f)).
  { assert (Hcl : forall f v k l, ranks (clear_list (E := E) f v k l)).
    { intros f v k l. induction l as [|i l IH]; cbn [clear_list]; rnk. }
    assert (Hct : forall f v ks, ranks (clear_types (E := E) f v ks)).
    { intros f v ks. induction ks as [|k ks IH]; cbn [clear_types]; rnk. }
    intros f. unfold clear_frame. rnk. }
  assert (Hrf : forall f, ranks (eg_remove_frame (E := E) io f))
    by (intros f; apply ranks_bind; [apply Hcf|intros ?; exact (ranks_gstep ord (ORemoveFrame f) I)]).
  intros Hop. destruct op as [op|i c f|i f|i|f i|i|f alias X itf k|f|]; cbn [estep].
  - assert (Hns : op_noself op) by by destruct op. destruct op; try (by apply (ranks_gstep ord _ Hns)). apply Hrf.
  - rnk.
  - rnk.
  - unfold add_item, add_item_to_frame. rnk.
  - unfold add_item_to_frame. rnk.
  - unfold remove_item. rnk.
  - unfold remove_item_it. rnk.
  - apply Hcf.
  - apply ranks_bind; [apply ranks_read|intros ?]. apply ranks_bind; [|intros ?]; apply ranks_for_frames; intros f'; [|apply Hrf].
    exact (ranks_gstep ord (ODisconnect f') I).
Qed.

Lemma ranks_erun h : ehist_ok h -> ranks (erun einv h).
Proof.
  intros Hh. induction h as [|[[ord io] op] h IH]; [apply ranks_ret|]. apply list.Forall_cons in Hh as [[_ Hop] Hh]. specialize (IH Hh).
  intros s s' ev r Hwf Hr Hok. cbn [erun] in Hr. destruct (estep einv ord io op s) as [[s1 ev1] r1] eqn:H1.
  destruct r1 as [u|x| |].
  1-2: destruct (erun einv h s1) as [[s2 ev2] r2] eqn:H2; injection Hr as <- <- <-;
    (destruct (ranks_estep ord io op Hop _ _ _ _ Hwf H1) as [W1 D1]; [done|]); destruct (IH _ _ _ _ W1 H2 Hok) as [W2 D2];
    (split; [done|]); intros l Hl; rewrite foldl_app; auto.
  all: injection Hr as <- <- <-; by destruct Hok.
Qed.

Lemma eg_defined l s : dg_wf einv (dg s) -> numbered l (dg s) ->
  (no_gap l -> exists c, eg_copy s = Ret c) /\ (~ no_gap l -> eg_copy s = UB).
Proof.
  intros Hwf Hn. destruct (numbered_defined l (es_g s) Hwf Hn) as [H1 H2]. split.
  - intros Hg. destruct (H1 Hg) as [c Hc]. exists (ESt c (es_heap s)). unfold eg_copy. by rewrite Hc.
  - intros Hg. unfold eg_copy. by rewrite (H2 Hg).
Qed.

Lemma items_defined_iff h s ev : ehist_ok h -> erun einv h (est_new ∅) = (s, ev, Ret tt) ->
  (no_gap (slots ev) -> exists c, eg_copy s = Ret c) /\ (~ no_gap (slots ev) -> eg_copy s = UB).
Proof.
  intros Hh Hr. destruct (ranks_erun h Hh (est_new ∅) _ _ _ (dg_wf_empty einv) Hr) as [Hwf Hn]; [done|]. apply eg_defined; [done|].
  apply (Hn []). apply numbered_new.
Qed.

(** Copies of copies. *)
Lemma slots_quiet l evs : Forall (fun e => match e with EvFrameAdded _ | EvFrameRemoved _ => False | _ => True end) evs -> foldl slot l evs = l.
Proof. intros H. revert l. induction H as [|e evs He H IH]; intros l; [done|]. cbn [foldl]. rewrite IH. by destruct e. Qed.
Lemma slots_added l fs : foldl slot l (EvFrameAdded <$> fs) = l ++ (Some <$> fs).
Proof. revert l. induction fs as [|f fs IH]; intros l; cbn; [by rewrite app_nil_r|]. rewrite IH. by rewrite <- app_assoc. Qed.
Lemma slots_publish io s : dg_wf einv (dg s) -> slots (eg_publish io s).1 = Some <$> names (dg s).
Proof.
  intros Hwf. unfold eg_publish. rewrite (publish_eq einv) by done. cbn iota. cbn [fst]. unfold slots. rewrite !foldl_app, slots_added.
  rewrite !slots_quiet; [done| |].
  - apply list.Forall_fmap, list.Forall_true. done.
  - unfold item_events. induction (dg_verts _) as [|r vs IH]; [by apply list.Forall_nil|]. cbn [fmap list_fmap concat].
    apply list.Forall_app. split; [apply list.Forall_fmap, list.Forall_true; done|exact IH].
Qed.

Lemma copied_defined_iff io s0 c h s ev : ereachable einv s0 -> eg_copy s0 = Ret c -> ehist_ok h -> erun einv h c = (s, ev, Ret tt) ->
  (no_gap (slots ((eg_publish io c).1 ++ ev)) -> exists c', eg_copy s = Ret c') /\ (~ no_gap (slots ((eg_publish io c).1 ++ ev)) -> eg_copy s = UB).
Proof.
  intros Hre Hc Hh Hr. pose proof (ereachable_wf einv _ (ereachable_copy einv _ _ Hre Hc)) as Hwfc.
  destruct (ranks_erun h Hh _ _ _ _ Hwfc Hr) as [Hwf Hn]; [done|]. apply eg_defined; [done|]. unfold slots. rewrite foldl_app.
  apply Hn. change (foldl slot [] (eg_publish io c).1) with (slots (eg_publish io c).1). rewrite slots_publish by done.
  apply eg_copy_eq in Hc as ->. cbn [es_g gs_dg]. replace (names (cgraph (dg s0))) with (v_name <$> dg_verts (dg s0)); [apply numbered_cgraph|].
  unfold names. cbn [cgraph dg_verts]. by rewrite cverts_names.
Qed.

End rank.
