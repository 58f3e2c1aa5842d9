(** Publishing and unpublishing the state of a graph, and clearing it. *)
From stdpp Require Import prelude strings gmap gmultiset.
From Verif Require Import ListLib Outcome ItemClass Digraph Bfs TreeView GraphModel GraphOps GraphWf GraphStep
  SpecStore SpecObs GraphStore GraphRefine GraphThms GraphThms2 GraphEmit SpecReplica SpecQueue QueueThms
  ItemsModel SpecItems ItemsData ItemsOps GraphCopy ItemsLog ItemsCopy ItemsThms.

(** *** How often a replayed log mentions something *)

Definition one (P : Prop) `{!Decision P} : nat := if decide P then 1 else 0.

Lemma times_cons x y l : times x (y :: l) = one (y = x) + times x l.
Proof. unfold times, one. destruct (decide (y = x)) as [->|]; [by rewrite filter_cons_True|by rewrite filter_cons_False]. Qed.
Lemma times_edge_cons a b y l : times_edge a b (y :: l) = (if about_edge a b y then 1 else 0) + times_edge a b l.
Proof.
  unfold times_edge. destruct (about_edge a b y) eqn:H.
  - rewrite filter_cons_True; [done|]. rewrite H. exact I.
  - rewrite filter_cons_False; [done|]. rewrite H. by intros [].
Qed.

Definition symmetric (r : replica) : Prop := forall a b, (a, b) ∈ r_edges r -> (b, a) ∈ r_edges r.

Lemma replay_added_count evs r r' : symmetric r -> Forall is_added evs -> replay evs r = Some r' ->
  symmetric r' /\
  (forall f, one (f ∈ r_frames r') = one (f ∈ r_frames r) + times (EvFrameAdded f) evs) /\
  (forall a b, one ((a, b) ∈ r_edges r') = one ((a, b) ∈ r_edges r) + times_edge a b evs) /\
  (forall f i, multiplicity (f, i) (r_items r') = multiplicity (f, i) (r_items r) + times (EvItemAdded f i) evs).
Proof.
  revert r. induction evs as [|ev evs IH]; intros r Hsym Hall Hr; cbn [replay] in Hr.
  - injection Hr as ->. unfold times, times_edge. cbn. split; [done|]. split; [|split]; intros; lia.
  - destruct (apply_event ev r) as [r1|] eqn:H1; [|done]. apply list.Forall_cons in Hall as [Hev Hall].
    apply apply_inv in H1.
    assert (Hs1 : symmetric r1).
    { destruct ev; try done; destruct_and?; subst r1; unfold symmetric in *; cbn; set_solver. }
    destruct (IH r1 Hs1 Hall Hr) as (Hs & H2 & H3 & H4). split; [done|]. split; [|split].
    + intros f. rewrite H2, times_cons. unfold one. destruct ev as [f0|f0|o t e|o t e1 e2|o t|f0 i|f0 i]; try done; destruct_and?; subst r1; cbn;
        repeat case_decide; try congruence; try lia; set_solver.
    + intros a b. rewrite H3, times_edge_cons. unfold one. destruct ev as [f0|f0|o t e|o t e1 e2|o t|f0 i|f0 i]; try done; destruct_and?; subst r1; cbn;
        try lia. unfold symmetric in Hsym.
      destruct (bool_decide_reflect ((o, t) = (a, b))) as [[= -> ->]|Ne1]; cbn.
      { rewrite decide_True by set_solver. rewrite decide_False by done. lia. }
      destruct (bool_decide_reflect ((o, t) = (b, a))) as [[= -> ->]|Ne2].
      { rewrite decide_True by set_solver. rewrite decide_False by done. lia. }
      repeat case_decide; try lia; set_solver.
    + intros f i. rewrite H4, times_cons. unfold one. destruct ev as [f0|f0|o t e|o t e1 e2|o t|f0 j|f0 j]; try done; destruct_and?; subst r1; cbn [r_items];
        try (rewrite decide_False by done; lia). rewrite multiplicity_disj_union.
      destruct (decide ((f0, j) = (f, i))) as [[= -> ->]|Hne].
      * rewrite multiplicity_singleton, decide_True by done. lia.
      * rewrite multiplicity_singleton_ne, decide_False by congruence. lia.
Qed.

Lemma replay_removed_count evs r r' : symmetric r -> Forall is_removed evs -> replay evs r = Some r' ->
  symmetric r' /\
  (forall f, one (f ∈ r_frames r) = one (f ∈ r_frames r') + times (EvFrameRemoved f) evs) /\
  (forall a b, one ((a, b) ∈ r_edges r) = one ((a, b) ∈ r_edges r') + times_edge a b evs) /\
  (forall f i, multiplicity (f, i) (r_items r) = multiplicity (f, i) (r_items r') + times (EvItemRemoved f i) evs).
Proof.
  revert r. induction evs as [|ev evs IH]; intros r Hsym Hall Hr; cbn [replay] in Hr.
  - injection Hr as ->. unfold times, times_edge. cbn. split; [done|]. split; [|split]; intros; lia.
  - destruct (apply_event ev r) as [r1|] eqn:H1; [|done]. apply list.Forall_cons in Hall as [Hev Hall].
    apply apply_inv in H1.
    assert (Hs1 : symmetric r1).
    { destruct ev; try done; destruct_and?; subst r1; unfold symmetric in *; cbn; set_solver. }
    destruct (IH r1 Hs1 Hall Hr) as (Hs & H2 & H3 & H4). split; [done|]. split; [|split].
    + intros f. rewrite times_cons. specialize (H2 f). revert H2. unfold one. destruct ev as [f0|f0|o t e|o t e1 e2|o t|f0 i|f0 i]; try done; destruct_and?; subst r1; cbn;
        repeat case_decide; try congruence; try lia; set_solver.
    + intros a b. rewrite times_edge_cons. specialize (H3 a b). revert H3. unfold one. destruct ev as [f0|f0|o t e|o t e1 e2|o t|f0 i|f0 i]; try done; destruct_and?; subst r1; cbn;
        try lia. unfold symmetric in Hsym.
      destruct (bool_decide_reflect ((o, t) = (a, b))) as [[= -> ->]|Ne1]; cbn.
      { rewrite decide_False by set_solver. rewrite (decide_True (P := (a, b) ∈ r_edges r)) by done. lia. }
      destruct (bool_decide_reflect ((o, t) = (b, a))) as [[= -> ->]|Ne2].
      { rewrite decide_False by set_solver. rewrite (decide_True (P := (a, b) ∈ r_edges r)) by done. lia. }
      repeat case_decide; try lia; set_solver.
    + intros f i. rewrite times_cons. specialize (H4 f i). revert H4. unfold one. destruct ev as [f0|f0|o t e|o t e1 e2|o t|f0 j|f0 j]; try done; destruct_and?; subst r1; cbn [r_items];
        try (intros; rewrite (decide_False (P := _ = EvItemRemoved f i)) by done; lia). rewrite multiplicity_difference.
      destruct (decide ((f0, j) = (f, i))) as [[= -> ->]|Hne].
      * rewrite multiplicity_singleton, decide_True by done.
        assert (0 < multiplicity (f, i) (r_items r)) by by apply elem_of_multiplicity. lia.
      * rewrite multiplicity_singleton_ne, (decide_False (P := _ = EvItemRemoved f i)) by congruence. lia.
Qed.

(** *** Replaying lists of events of one kind *)

Lemma replay_frames_added fs r : NoDup fs -> (forall f, f ∈ fs -> f ∉ r_frames r) ->
  replay (EvFrameAdded <$> fs) r = Some (Replica (list_to_set fs ∪ r_frames r) (r_edges r) (r_items r)).
Proof.
  revert r. induction fs as [|f fs IH]; intros r Hnd Hn; cbn [fmap list_fmap replay].
  - destruct r. cbn. do 2 f_equal. set_solver.
  - apply list.NoDup_cons in Hnd as [Hf Hnd].
    rewrite (apply_intro (EvFrameAdded f) r _ (conj (Hn f (elem_of_list_here _ _)) eq_refl)). rewrite IH; [|done|].
    + cbn. do 2 f_equal. set_solver.
    + cbn. intros g Hg. assert (g <> f) by (intros ->; done). pose proof (Hn g (elem_of_list_further _ _ _ Hg)). set_solver.
Qed.

Lemma replay_frames_removed fs r : NoDup fs -> r_frames r = list_to_set fs -> r_edges r = ∅ -> r_items r = ∅ ->
  replay (EvFrameRemoved <$> fs) r = Some empty_replica.
Proof.
  revert r. induction fs as [|f fs IH]; intros r Hnd Hf He Hi; cbn [fmap list_fmap replay].
  - destruct r. cbn in *. by subst.
  - apply list.NoDup_cons in Hnd as [Hni Hnd].
    assert (Hb : bare r f = true).
    { apply bare_spec. rewrite He, Hi. split; [set_solver|]. intros g i H. by apply gmultiset_not_elem_of_empty in H. }
    assert (Hm : f ∈ r_frames r) by (rewrite Hf; set_solver).
    rewrite (apply_intro (EvFrameRemoved f) r _ (conj Hm (conj Hb eq_refl))). apply IH; cbn; try done.
    rewrite Hf. set_solver.
Qed.

Definition swap2 (p : frameid * frameid) : frameid * frameid := (p.2, p.1).
Definition both (ps : list (frameid * frameid)) : gset (frameid * frameid) := list_to_set ps ∪ list_to_set (swap2 <$> ps).
Lemma elem_of_both ps a b : (a, b) ∈ both ps <-> (a, b) ∈ ps \/ (b, a) ∈ ps.
Proof.
  unfold both. rewrite elem_of_union, !elem_of_list_to_set, elem_of_list_fmap. split.
  - intros [H|([c d] & [= -> ->] & H)]; auto.
  - intros [H|H]; [by left|]. right. by exists (b, a).
Qed.
Lemma both_cons p ps : both (p :: ps) = {[p; swap2 p]} ∪ both ps.
Proof. unfold both. cbn. set_solver. Qed.

(** No undirected edge is mentioned twice. *)
Definition once (ps : list (frameid * frameid)) : Prop := NoDup ps /\ forall a b, (a, b) ∈ ps -> (b, a) ∉ ps.
Lemma once_cons a b ps : once ((a, b) :: ps) -> once ps /\ (a, b) ∉ both ps /\ (b, a) ∉ both ps.
Proof.
  intros [Hnd Hs]. apply list.NoDup_cons in Hnd as [Hn Hnd]. rewrite !elem_of_both.
  assert (Hs1 : (b, a) ∉ ps). { intros H. eapply Hs; [left|right; exact H]. }
  split; [|tauto]. split; [done|]. intros c d H1 H2. eapply Hs; right; eassumption.
Qed.

Lemma replay_edges_added (ps : list (frameid * frameid)) (ids : frameid * frameid -> eid) r :
  once ps -> (forall a b, (a, b) ∈ ps -> a ∈ r_frames r /\ b ∈ r_frames r) -> r_edges r ## both ps ->
  replay ((fun p => EvEdgeAdded p.1 p.2 (ids p)) <$> ps) r = Some (Replica (r_frames r) (both ps ∪ r_edges r) (r_items r)).
Proof.
  revert r. induction ps as [|[a b] ps IH]; intros r Ho Hf Hd; cbn [fmap list_fmap replay].
  - destruct r. cbn. do 2 f_equal. unfold both. set_solver.
  - apply once_cons in Ho as (Ho & Hab & Hba). destruct (Hf a b) as [Hfa Hfb]; [left|]. rewrite both_cons in Hd. cbn in Hd.
    assert (H1 : (a, b) ∉ r_edges r) by set_solver. assert (H2 : (b, a) ∉ r_edges r) by set_solver.
    cbn [fst snd].
    rewrite (apply_intro (EvEdgeAdded a b (ids (a, b))) r _ (conj Hfa (conj Hfb (conj H1 (conj H2 eq_refl))))).
    rewrite IH; [|done| |].
    + cbn. do 2 f_equal. rewrite both_cons. cbn. set_solver.
    + intros c d H. apply Hf. by right.
    + cbn. set_solver.
Qed.

Lemma replay_edges_removed (ps : list (frameid * frameid)) r : once ps -> r_edges r = both ps ->
  replay ((fun p => EvEdgeRemoved p.1 p.2) <$> ps) r = Some (Replica (r_frames r) ∅ (r_items r)).
Proof.
  revert r. induction ps as [|[a b] ps IH]; intros r Ho He; cbn [fmap list_fmap replay].
  - destruct r. cbn in *. subst. do 2 f_equal. unfold both. set_solver.
  - apply once_cons in Ho as (Ho & Hab & Hba). rewrite both_cons in He. cbn in He.
    assert (H1 : (a, b) ∈ r_edges r) by set_solver. assert (H2 : (b, a) ∈ r_edges r) by set_solver.
    cbn [fst snd].
    rewrite (apply_intro (EvEdgeRemoved a b) r _ (conj H1 (conj H2 eq_refl))). rewrite IH; [done|done|].
    cbn. rewrite He. set_solver.
Qed.

Lemma replay_items_added (l : list (frameid * iptr)) r : (forall f i, (f, i) ∈ l -> f ∈ r_frames r) ->
  replay ((fun p => EvItemAdded p.1 p.2) <$> l) r = Some (Replica (r_frames r) (r_edges r) (r_items r ⊎ list_to_set_disj l)).
Proof.
  revert r. induction l as [|[f i] l IH]; intros r Hf; cbn [fmap list_fmap replay fst snd].
  - destruct r. cbn. do 2 f_equal. multiset_solver.
  - assert (H1 : f ∈ r_frames r) by (eapply Hf; left).
    rewrite (apply_intro (EvItemAdded f i) r _ (conj H1 eq_refl)). rewrite IH.
    + rewrite list_to_set_disj_cons. cbn [r_frames r_edges r_items]. do 2 f_equal. multiset_solver.
    + intros g j H. cbn. eapply Hf. by right.
Qed.
Lemma replay_items_removed (l : list (frameid * iptr)) r : r_items r = list_to_set_disj l ->
  replay ((fun p => EvItemRemoved p.1 p.2) <$> l) r = Some (Replica (r_frames r) (r_edges r) ∅).
Proof.
  revert r. induction l as [|[f i] l IH]; intros r Hi; cbn [fmap list_fmap replay fst snd].
  - destruct r. cbn in *. by subst.
  - rewrite list_to_set_disj_cons in Hi. assert (H1 : (f, i) ∈ r_items r) by (rewrite Hi; multiset_solver).
    rewrite (apply_intro (EvItemRemoved f i) r _ (conj H1 eq_refl)). rewrite IH; [done|]. cbn [r_items]. rewrite Hi. multiset_solver.
Qed.

(** *** One edge of every pair *)

Section pick.
Context {E : Type} (rv : erec E -> eid).

Fixpoint pick (dn : list eid) (es : list (erec E)) : list (erec E) :=
  match es with
  | [] => []
  | e :: es' => if bool_decide (e_id e ∈ dn) then pick dn es' else e :: pick (dn ++ [rv e]) es'
  end.

Lemma pick_sublist dn es : sublist (pick dn es) es.
Proof. revert dn. induction es as [|e es IH]; intros dn; cbn; [done|]. case_bool_decide; by constructor. Qed.

Lemma pick_not dn es e : e ∈ pick dn es -> e_id e ∉ dn.
Proof.
  revert dn. induction es as [|h es IH]; intros dn; cbn; [by intros ?%elem_of_nil|]. case_bool_decide as Hh.
  - apply IH.
  - intros [->|H]%elem_of_cons; [done|]. apply IH in H. set_solver.
Qed.

Lemma pick_one dn es e e' : NoDup (e_id <$> es) -> e ∈ es -> e' ∈ es -> rv e = e_id e' -> rv e' = e_id e -> e_id e <> e_id e' ->
  e ∈ pick dn es -> e' ∉ pick dn es.
Proof.
  revert dn. induction es as [|h es IH]; intros dn Hnd He He' Hr Hr' Hne; cbn [pick]; [by intros ?%elem_of_nil|].
  cbn in Hnd. apply list.NoDup_cons in Hnd as [Hh Hnd].
  assert (Hin : forall x dn, x ∈ pick dn es -> x ∈ es) by (intros x dn0 Hx; by eapply elem_of_sublist, Hx; apply pick_sublist).
  apply elem_of_cons in He as [->|He], He' as [->|He']; [done| | |].
  - case_bool_decide as Hd.
    + intros H _. apply Hin in H. apply Hh. by apply elem_of_list_fmap_1.
    + intros _ [->|H]%elem_of_cons; [done|]. apply pick_not in H. apply H, elem_of_app. right. rewrite Hr. by left.
  - case_bool_decide as Hd.
    + intros _ H. apply Hin in H. apply Hh. by apply elem_of_list_fmap_1.
    + intros [->|H]%elem_of_cons; [done|]. apply pick_not in H. exfalso. apply H, elem_of_app. right. rewrite Hr'. by left.
  - case_bool_decide as Hd; [by apply IH|]. intros [->|H]%elem_of_cons.
    { exfalso. apply Hh. by apply elem_of_list_fmap_1. }
    intros [->|H']%elem_of_cons.
    { apply Hh. by apply elem_of_list_fmap_1. }
    by apply (IH (dn ++ [rv h])).
Qed.

Lemma pick_some dn es e e' : NoDup (e_id <$> es) ->
  (forall h, h ∈ es -> rv h = e_id e -> e_id h = e_id e') -> (forall h, h ∈ es -> rv h = e_id e' -> e_id h = e_id e) ->
  e ∈ es -> e' ∈ es -> e_id e ∉ dn -> e_id e' ∉ dn -> e ∈ pick dn es \/ e' ∈ pick dn es.
Proof.
  revert dn. induction es as [|h es IH]; intros dn Hnd Hi1 Hi2 He He' Hd Hd'; cbn [pick]; [by apply elem_of_nil in He|].
  assert (Hid : forall x, x ∈ h :: es -> e_id h = e_id x -> h = x).
  { intros x Hx Hhx. eapply (NoDup_fmap_inj e_id); [exact Hnd|left|done|done]. }
  destruct (decide (e_id h = e_id e)) as [H1|H1].
  { apply Hid in H1 as ->; [|done]. rewrite bool_decide_eq_false_2 by done. left. left. }
  destruct (decide (e_id h = e_id e')) as [H2|H2].
  { apply Hid in H2 as ->; [|done]. rewrite bool_decide_eq_false_2 by done. right. left. }
  assert (e ∈ es) by (by apply elem_of_cons in He as [->|]). assert (e' ∈ es) by (by apply elem_of_cons in He' as [->|]).
  cbn in Hnd. apply list.NoDup_cons in Hnd as [Hh Hnd].
  assert (forall h, h ∈ es -> rv h = e_id e -> e_id h = e_id e') by (intros; apply Hi1; [by right|done]).
  assert (forall h, h ∈ es -> rv h = e_id e' -> e_id h = e_id e) by (intros; apply Hi2; [by right|done]).
  case_bool_decide as Hdn; [by apply IH|].
  destruct (IH (dn ++ [rv h])) as [?|?]; try done; [| |by left; right|by right; right].
  - rewrite elem_of_app. intros [?|Hx%elem_of_list_singleton]; [done|]. apply H2, Hi1; [left|done].
  - rewrite elem_of_app. intros [?|Hx%elem_of_list_singleton]; [done|]. apply H1, Hi2; [left|done].
Qed.

End pick.

Section publish.
Context {D E : Type} (einv : E -> E).
Local Notation dg_wf := (dg_wf (D := D) einv).
Implicit Types s : gst D E.
Implicit Types g : digraph D E.

(** Address of the inverse edge. *)
Definition inv_id g (e : erec E) : eid := match bg_edge g (e_tgt e) (e_src e) with Some e' => e_id e' | None => 0 end.
Definition ends g (e : erec E) : frameid * frameid := (bg_name g (e_src e), bg_name g (e_tgt e)).

Lemma name_alive s v : dg_wf (gs_dg s) -> v ∈ v_id <$> dg_verts (gs_dg s) ->
  get_frame_id s v = Ret (bg_name (gs_dg s) v) /\ dg_map (gs_dg s) !! bg_name (gs_dg s) v = Some v.
Proof.
  intros Hwf (r & -> & Hr)%elem_of_list_fmap.
  assert (Hm : dg_map (gs_dg s) !! v_name r = Some (v_id r)) by (apply (wf_map einv _ Hwf); eauto).
  rewrite (bg_name_map einv _ (v_name r)) by done. split; [|done]. by apply (get_frame_id_some einv).
Qed.
Lemma name_map g v : dg_wf g -> v ∈ v_id <$> dg_verts g -> dg_map g !! bg_name g v = Some v.
Proof. intros Hwf Hv. by apply (name_alive (GSt g [] ∅)). Qed.

Lemma publish_frames_eq s mk vs : dg_wf (gs_dg s) -> (forall r, r ∈ vs -> r ∈ dg_verts (gs_dg s)) ->
  publish_frames s mk vs = (mk <$> (v_name <$> vs), Ret tt).
Proof.
  intros Hwf. induction vs as [|r vs IH]; intros Hin; cbn; [done|].
  rewrite (get_frame_id_some einv s (v_name r)); [|done|].
  - rewrite IH; [done|]. intros r' H. apply Hin. by right.
  - apply (wf_map einv _ Hwf). exists r. split; [|done]. apply Hin. left.
Qed.

Lemma inv_edge g e : dg_wf g -> e ∈ dg_edges g ->
  exists e', e' ∈ dg_edges g /\ bg_edge g (e_tgt e) (e_src e) = Some e' /\ inv_id g e = e_id e' /\ inv_id g e' = e_id e /\ e_id e <> e_id e' /\
    e_src e' = e_tgt e /\ e_tgt e' = e_src e.
Proof.
  intros Hwf He. destruct (wf_inv einv _ Hwf e He) as (e' & He' & Hs & Ht & _). exists e'.
  assert (H1 : bg_edge g (e_tgt e) (e_src e) = Some e') by by apply (bg_edge_iff einv).
  assert (H2 : bg_edge g (e_tgt e') (e_src e') = Some e) by (apply (bg_edge_iff einv); [done|]; split; [done|]; split; congruence).
  split; [done|]. split; [done|]. unfold inv_id. rewrite H1, H2. split; [done|]. split; [done|].
  split; [|done]. intros Hid. assert (e = e') as <- by (eapply (NoDup_fmap_inj e_id); [apply (wf_eid einv _ Hwf)|done..]).
  by apply (wf_noself einv _ Hwf e He).
Qed.

Lemma publish_edges_eq s mk dn es : dg_wf (gs_dg s) -> (forall e, e ∈ es -> e ∈ dg_edges (gs_dg s)) ->
  publish_edges s mk dn es =
    ((fun e => mk (ends (gs_dg s) e).1 (ends (gs_dg s) e).2 (e_id e)) <$> pick (inv_id (gs_dg s)) dn es, Ret tt).
Proof.
  intros Hwf. revert dn. induction es as [|e es IH]; intros dn Hin; cbn [publish_edges pick fmap list_fmap]; [done|].
  assert (He : e ∈ dg_edges (gs_dg s)) by (apply Hin; left).
  assert (Hin' : forall e, e ∈ es -> e ∈ dg_edges (gs_dg s)) by (intros; apply Hin; by right).
  case_bool_decide; [by apply IH|].
  destruct (name_alive s (e_src e)) as [-> _]; [done|by apply (wf_src einv)|].
  destruct (name_alive s (e_tgt e)) as [-> _]; [done|by apply (wf_tgt einv)|]. cbn [obind].
  destruct (inv_edge _ e Hwf He) as (e' & _ & H1 & H2 & _). rewrite (get_edge_v_some einv _ _ _ e') by done.
  rewrite <- H2, IH by done. done.
Qed.

(** The published edges: one of each pair, in both directions they are all edges. *)
Definition picked g : list (erec E) := pick (inv_id g) [] (dg_edges g).

Lemma ends_inj g e e' : dg_wf g -> e ∈ dg_edges g -> e' ∈ dg_edges g -> ends g e = ends g e' -> e = e'.
Proof.
  intros Hwf He He' [= H1 H2].
  pose proof (name_map g (e_src e) Hwf (wf_src einv _ Hwf e He)). pose proof (name_map g (e_tgt e) Hwf (wf_tgt einv _ Hwf e He)).
  pose proof (name_map g (e_src e') Hwf (wf_src einv _ Hwf e' He')). pose proof (name_map g (e_tgt e') Hwf (wf_tgt einv _ Hwf e' He')).
  eapply (NoDup_fmap_inj (fun e => (e_src e, e_tgt e))); [apply (wf_pair einv _ Hwf)|done..|]. f_equal; congruence.
Qed.

Lemma picked_in g e : e ∈ picked g -> e ∈ dg_edges g.
Proof. intros He. eapply elem_of_sublist, He. apply pick_sublist. Qed.

Lemma picked_once g : dg_wf g -> once (ends g <$> picked g).
Proof.
  intros Hwf. split.
  - assert (Hnd : NoDup (picked g)).
    { eapply sublist_NoDup; [|apply pick_sublist]. eapply NoDup_fmap_1, (wf_eid einv _ Hwf). }
    assert (G : forall l, NoDup l -> (forall e, e ∈ l -> e ∈ dg_edges g) -> NoDup (ends g <$> l)).
    { clear Hnd. induction l as [|e l IH]; intros Hnd Hl; cbn; [constructor|]. apply list.NoDup_cons in Hnd as [Hn Hnd]. constructor.
      - intros (e' & He' & Hin)%elem_of_list_fmap. apply ends_inj in He' as ->; [done|done|apply Hl; left|apply Hl; by right].
      - apply IH; [done|]. intros; apply Hl; by right. }
    apply G; [done|]. apply picked_in.
  - intros a b (e & [= -> ->] & He)%elem_of_list_fmap (e2 & [= H1 H2] & He2)%elem_of_list_fmap.
    pose proof (picked_in _ _ He) as Hin. pose proof (picked_in _ _ He2) as Hin2.
    destruct (inv_edge g e Hwf Hin) as (e' & He' & _ & Hi1 & Hi2 & Hne & Hs & Ht).
    assert (e2 = e') as ->. { apply (ends_inj g); try done. unfold ends. by rewrite Hs, Ht, H1, H2. }
    eapply (pick_one (inv_id g) [] (dg_edges g) e e'); try done. apply (wf_eid einv _ Hwf).
Qed.

Lemma picked_all g a b : dg_wf g ->
  (a, b) ∈ both (ends g <$> picked g) <->
  exists e, e ∈ dg_edges g /\ dg_map g !! a = Some (e_src e) /\ dg_map g !! b = Some (e_tgt e).
Proof.
  intros Hwf. rewrite elem_of_both.
  assert (Hmem : forall a b, (a, b) ∈ ends g <$> picked g ->
    exists e, e ∈ picked g /\ dg_map g !! a = Some (e_src e) /\ dg_map g !! b = Some (e_tgt e)).
  { intros a' b' (e & [= -> ->] & He)%elem_of_list_fmap. exists e. split; [done|]. apply picked_in in He.
    split; apply name_map; try done; [by apply (wf_src einv)|by apply (wf_tgt einv)]. }
  split.
  - intros [H|H]; apply Hmem in H as (e & He & Ha & Hb); apply picked_in in He; [by exists e|].
    destruct (inv_edge g e Hwf He) as (e' & He' & _ & _ & _ & _ & Hs & Ht). exists e'. split; [done|]. split; congruence.
  - intros (e & He & Ha & Hb). destruct (inv_edge g e Hwf He) as (e' & He' & _ & Hi1 & Hi2 & Hne & Hs & Ht).
    assert (Hab : ends g e = (a, b)) by (unfold ends; f_equal; by apply (bg_name_map einv)).
    assert (Hba : ends g e' = (b, a)) by (unfold ends; rewrite Hs, Ht; f_equal; by apply (bg_name_map einv)).
    rewrite <- Hab, <- Hba.
    assert (Hid : forall x y, x ∈ dg_edges g -> y ∈ dg_edges g -> e_id x = e_id y -> x = y).
    { intros. eapply (NoDup_fmap_inj e_id); [apply (wf_eid einv _ Hwf)|done..]. }
    assert (Hrv : forall h x, h ∈ dg_edges g -> x ∈ dg_edges g -> inv_id g h = e_id x -> e_id h = inv_id g x).
    { intros h x Hh Hx Heq. destruct (inv_edge g h Hwf Hh) as (k & Hk & _ & Hk1 & Hk2 & _).
      assert (k = x) as -> by (apply Hid; [done..|congruence]). done. }
    destruct (pick_some (inv_id g) [] (dg_edges g) e e') as [H|H]; try done;
      [apply (wf_eid einv _ Hwf)| | |by apply not_elem_of_nil|by apply not_elem_of_nil|by left; apply elem_of_list_fmap_1|by right; apply elem_of_list_fmap_1].
    + intros h Hh Heq. rewrite (Hrv h e) by done. done.
    + intros h Hh Heq. rewrite (Hrv h e') by done. done.
Qed.

(** Names of all frames. *)
Definition names g : list frameid := v_name <$> dg_verts g.
Lemma names_all g f : dg_wf g -> f ∈ names g <-> is_Some (dg_map g !! f).
Proof.
  intros Hwf. unfold names. rewrite elem_of_list_fmap. split.
  - intros (r & -> & Hr). exists (v_id r). apply (wf_map einv _ Hwf). eauto.
  - intros [v (r & Hr & _ & Hn)%(wf_map einv _ Hwf)]. eauto.
Qed.

Lemma publish_eq s : dg_wf (gs_dg s) ->
  publish_current_state s =
    ((EvFrameAdded <$> names (gs_dg s)) ++
     ((fun e => EvEdgeAdded (ends (gs_dg s) e).1 (ends (gs_dg s) e).2 (e_id e)) <$> picked (gs_dg s)), Ret tt).
Proof.
  intros Hwf. unfold publish_current_state. rewrite publish_frames_eq by done. cbn iota.
  rewrite publish_edges_eq by done. done.
Qed.
Lemma unpublish_eq s : dg_wf (gs_dg s) ->
  unpublish_current_state s =
    (((fun p => EvEdgeRemoved p.1 p.2) <$> (ends (gs_dg s) <$> picked (gs_dg s))) ++ (EvFrameRemoved <$> names (gs_dg s)), Ret tt).
Proof.
  intros Hwf. unfold unpublish_current_state. rewrite (publish_edges_eq s (fun o t _ => EvEdgeRemoved o t)) by done. cbn iota.
  rewrite publish_frames_eq by done. do 2 f_equal. by rewrite <- list_fmap_compose.
Qed.

End publish.

Section items_publish.
Context {E : Type} (einv : E -> E).
Local Notation dg_wf := (dg_wf (D := imap) einv).
Local Notation dg s := (gs_dg (es_g s)).
Local Notation ereachable := (ereachable einv).
Implicit Types s : est E.

Definition pairs (io : iorder) (vs : list (vrec imap)) : list (frameid * iptr) :=
  concat ((fun r => (v_name r,.) <$> concat (lists_of io (v_id r) (v_data r))) <$> vs).

Lemma item_events_pairs mk io s : item_events mk io s = (fun p => mk p.1 p.2) <$> pairs io (dg_verts (dg s)).
Proof.
  unfold item_events, pairs. induction (dg_verts (dg s)) as [|r vs IH]; cbn; [done|]. rewrite IH.
  rewrite fmap_app. f_equal. by rewrite <- list_fmap_compose.
Qed.

Lemma mult_fst (f g : frameid) i (l : list iptr) :
  multiplicity (f, i) (list_to_set_disj ((g,.) <$> l) : gmultiset (frameid * iptr)) = if decide (g = f) then occurrences i l else 0.
Proof.
  induction l as [|j l IH].
  - cbn [fmap list_fmap]. change (list_to_set_disj []) with (∅ : gmultiset (frameid * iptr)). rewrite multiplicity_empty.
    by destruct (decide (g = f)).
  - cbn [fmap list_fmap]. rewrite list_to_set_disj_cons, multiplicity_disj_union, IH, occurrences_cons.
    destruct (decide (g = f)) as [->|Hne].
    + destruct (decide (j = i)) as [->|Hj]; [by rewrite multiplicity_singleton|].
      rewrite multiplicity_singleton_ne by congruence. done.
    + rewrite multiplicity_singleton_ne by congruence. done.
Qed.

Lemma mult_pairs io vs f i : NoDup (v_name <$> vs) ->
  (forall r, r ∈ vs -> v_name r = f -> multiplicity (f, i) (list_to_set_disj (pairs io vs)) = occurrences i (concat (lists_of io (v_id r) (v_data r)))) /\
  (f ∉ v_name <$> vs -> multiplicity (f, i) (list_to_set_disj (pairs io vs)) = 0).
Proof.
  induction vs as [|r vs IH]; intros Hnd; cbn [pairs fmap list_fmap concat] in *.
  { split; [by intros ? ?%elem_of_nil|]. intros _. apply multiplicity_empty. }
  apply list.NoDup_cons in Hnd as [Hn Hnd]. destruct (IH Hnd) as [H1 H2]. unfold pairs in *.
  split.
  - intros r' [->|Hr']%elem_of_cons Hf.
    + rewrite list_to_set_disj_app, multiplicity_disj_union, mult_fst, decide_True, H2; [lia|congruence|done].
    + rewrite list_to_set_disj_app, multiplicity_disj_union, mult_fst, decide_False; [by apply H1|].
      intros Heq. apply Hn. rewrite Heq, <- Hf. by apply elem_of_list_fmap_1.
  - intros Hni. rewrite list_to_set_disj_app, multiplicity_disj_union, mult_fst, decide_False, H2; set_solver.
Qed.

Lemma mult_items io s f i : dg_wf (dg s) -> iorder_ok io ->
  multiplicity (f, i) (list_to_set_disj (pairs io (dg_verts (dg s)))) = cnt (items_of (dg s) f) i.
Proof.
  intros Hwf Hio. destruct (mult_pairs io (dg_verts (dg s)) f i (wf_vname einv _ Hwf)) as [H1 H2].
  unfold items_of. destruct (dg_map (dg s) !! f) as [v|] eqn:Hf.
  - destruct (map_vrec einv _ f v Hwf Hf) as (r & Hr & Hn). rewrite Hr. apply (bg_vrec_iff einv) in Hr as [Hr Hid]; [|done].
    rewrite (H1 r) by done. apply occurrences_perm. by apply bag_lists.
  - rewrite cnt_empty. apply H2. intros H. apply (names_all einv) in H; [|done]. rewrite Hf in H. by destruct H.
Qed.

(** The replica of a graph. *)
Definition replica_of (io : iorder) s : replica :=
  Replica (list_to_set (names (dg s))) (both (ends (dg s) <$> picked (dg s))) (list_to_set_disj (pairs io (dg_verts (dg s)))).

Lemma mirrors_eq io s r : dg_wf (dg s) -> iorder_ok io -> mirrors s r <-> r = replica_of io s.
Proof.
  intros Hwf Hio. rewrite (mirrors_mir einv) by done. split.
  - intros [[H1 H2] H3]. apply replica_eq.
    + apply set_eq. intros f. rewrite H1. cbn [r_frames replica_of]. rewrite elem_of_list_to_set. by rewrite (names_all einv).
    + apply set_eq. intros [a b]. rewrite H2. cbn [r_edges replica_of]. by rewrite (picked_all einv).
    + apply gmultiset_eq. intros [f i]. rewrite H3. cbn [r_items replica_of]. by rewrite mult_items.
  - intros ->. split; [split|].
    + intros f. cbn [r_frames replica_of]. rewrite elem_of_list_to_set. by rewrite (names_all einv).
    + intros a b. cbn [r_edges replica_of]. by rewrite (picked_all einv).
    + intros f i. cbn [r_items replica_of]. by rewrite mult_items.
Qed.

Lemma mirrors_exists s : dg_wf (dg s) -> exists r, mirrors s r.
Proof.
  intros Hwf. assert (Hio : iorder_ok (fun _ m => (map_to_list m).*1)) by (intros ??; done).
  eexists. by apply (mirrors_eq _ s _ Hwf Hio).
Qed.
Lemma mirrors_symmetric s r : dg_wf (dg s) -> mirrors s r -> symmetric r.
Proof.
  intros Hwf Hm. apply (mirrors_mir einv) in Hm as [[_ H2] _]; [|done]. intros a b (e & He & Ha & Hb)%H2. apply H2.
  destruct (wf_inv einv _ Hwf e He) as (e' & He' & Hs & Ht & _). exists e'. split; [done|]. split; congruence.
Qed.

(** Replica counts as observations. *)
Lemma mirrors_counts io s r : dg_wf (dg s) -> iorder_ok io -> mirrors s r ->
  (forall f, one (f ∈ r_frames r) = if contains_frame (es_g s) f then 1 else 0) /\
  (forall a b, one ((a, b) ∈ r_edges r) = match contains_edge (es_g s) a b with Ret true => 1 | _ => 0 end) /\
  (forall f i, multiplicity (f, i) (r_items r) = occurrences i (all_items io s f)).
Proof.
  intros Hwf Hio (H1 & H2 & H3). split; [|split].
  - intros f. unfold one. destruct (decide (f ∈ r_frames r)) as [H|H]; rewrite H1 in H; [by rewrite H|]. by destruct (contains_frame _ f).
  - intros a b. unfold one. destruct (decide ((a, b) ∈ r_edges r)) as [H|H]; rewrite H2 in H; [by rewrite H|].
    destruct (contains_edge _ a b) as [[]| | |]; done.
  - intros f i. by apply H3.
Qed.

Lemma publish_spec io s : ereachable s -> iorder_ok io ->
  exists ev r, eg_publish io s = (ev, Ret tt) /\ Forall is_added ev /\
    replay ev empty_replica = Some r /\ mirrors s r /\
    (forall f, times (EvFrameAdded f) ev = if contains_frame (es_g s) f then 1 else 0) /\
    (forall a b, times_edge a b ev = match contains_edge (es_g s) a b with Ret true => 1 | _ => 0 end) /\
    (forall f i, times (EvItemAdded f i) ev = occurrences i (all_items io s f)) /\
    (forall a b k, EvEdgeAdded a b k ∈ ev -> exists e, get_edge (es_g s) a b = Ret e /\ e_id e = k).
Proof.
  intros Hre Hio. pose proof (ereachable_wf einv s Hre) as Hwf.
  set (ev := ((EvFrameAdded <$> names (dg s)) ++
     ((fun e => EvEdgeAdded (ends (dg s) e).1 (ends (dg s) e).2 (e_id e)) <$> picked (dg s))) ++
     ((fun p => EvItemAdded p.1 p.2) <$> pairs io (dg_verts (dg s)))).
  set (ids := fun p : frameid * frameid => match dg_map (dg s) !! p.1, dg_map (dg s) !! p.2 with
     | Some u, Some v => match bg_edge (dg s) u v with Some e => e_id e | None => 0 end | _, _ => 0 end).
  assert (Hends : forall e, e ∈ picked (dg s) -> ids (ends (dg s) e) = e_id e).
  { intros e He%picked_in. unfold ids, ends. cbn [fst snd].
    rewrite (name_map einv) by (try done; by apply (wf_src einv)). rewrite (name_map einv) by (try done; by apply (wf_tgt einv)).
    assert (bg_edge (dg s) (e_src e) (e_tgt e) = Some e) as -> by by apply (bg_edge_iff einv). done. }
  assert (Hedges : ((fun e => EvEdgeAdded (ends (dg s) e).1 (ends (dg s) e).2 (e_id e)) <$> picked (dg s)) =
     ((fun p => EvEdgeAdded p.1 p.2 (ids p)) <$> (ends (dg s) <$> picked (dg s)))).
  { rewrite <- list_fmap_compose. apply list_fmap_ext. intros n e He%elem_of_list_lookup_2. cbn. by rewrite Hends. }
  assert (Hadd : Forall is_added ev).
  { unfold ev. repeat rewrite list.Forall_app. split; [split|]; apply list.Forall_fmap, list.Forall_true; done. }
  assert (Hrep : replay ev empty_replica = Some (replica_of io s)).
  { unfold ev. rewrite !replay_app. rewrite replay_frames_added; [|apply (wf_vname einv _ Hwf)|intros; apply not_elem_of_empty].
    cbn [r_frames r_edges r_items empty_replica]. rewrite Hedges, replay_edges_added.
    - cbn [r_frames r_edges r_items]. rewrite replay_items_added.
      + cbn [r_frames r_edges r_items]. unfold replica_of. f_equal. apply replica_eq; cbn [r_frames r_edges r_items]; [set_solver|set_solver|by rewrite ?(left_id_L ∅ disj_union), ?(right_id_L ∅ disj_union)].
      + intros f i Hi. cbn [r_frames]. rewrite union_empty_r_L, elem_of_list_to_set. unfold pairs in Hi.
        apply elem_of_concat in Hi as (l & Hi & (r & -> & Hr)%elem_of_list_fmap).
        apply elem_of_list_fmap in Hi as (j & [= -> _] & _). by apply elem_of_list_fmap_1.
    - by apply (picked_once einv).
    - intros a b (e & [= -> ->] & He)%elem_of_list_fmap. cbn [r_frames]. rewrite union_empty_r_L, !elem_of_list_to_set.
      apply picked_in in He. rewrite !(names_all einv) by done.
      rewrite (name_map einv) by (try done; by apply (wf_src einv)). rewrite (name_map einv) by (try done; by apply (wf_tgt einv)). eauto.
    - cbn. set_solver. }
  assert (Hm : mirrors s (replica_of io s)) by by apply (mirrors_eq io s _ Hwf Hio).
  exists ev, (replica_of io s). split; [|split; [done|split; [done|split; [done|]]]].
  - unfold eg_publish. rewrite (publish_eq einv) by done. cbn iota. unfold ev. by rewrite item_events_pairs.
  - assert (Hs0 : symmetric empty_replica) by (intros a b H; by apply not_elem_of_empty in H).
    destruct (replay_added_count ev empty_replica _ Hs0 Hadd Hrep) as (_ & C1 & C2 & C3).
    destruct (mirrors_counts io s _ Hwf Hio Hm) as (M1 & M2 & M3). split; [|split; [|split]].
    + intros f. rewrite <- M1, C1. unfold one. by rewrite decide_False by apply not_elem_of_empty.
    + intros a b. rewrite <- M2, C2. unfold one. by rewrite decide_False by apply not_elem_of_empty.
    + intros f i. rewrite <- M3, C3. cbn [r_items empty_replica]. by rewrite multiplicity_empty.
    + intros a b k Hk. unfold ev in Hk. rewrite !elem_of_app in Hk. destruct Hk as [[Hk|Hk]|Hk].
      * apply elem_of_list_fmap in Hk as (? & ? & _). done.
      * apply elem_of_list_fmap in Hk as (e & [= -> -> ->] & He). apply picked_in in He. exists e. split; [|done].
        unfold get_edge. rewrite (get_vertex_some einv _ _ (e_src e)); [|done|by apply (name_map einv); [|by apply (wf_src einv)]].
        rewrite (get_vertex_some einv _ _ (e_tgt e)); [|done|by apply (name_map einv); [|by apply (wf_tgt einv)]]. cbn [obind].
        apply (get_edge_v_some einv); [done|]. by apply (bg_edge_iff einv).
      * apply elem_of_list_fmap in Hk as (? & ? & _). done.
Qed.

Lemma unpublish_spec io s : ereachable s -> iorder_ok io ->
  exists ev, eg_unpublish io s = (ev, Ret tt) /\ Forall is_removed ev /\
    (forall r, mirrors s r -> replay ev r = Some empty_replica) /\
    (forall f, times (EvFrameRemoved f) ev = if contains_frame (es_g s) f then 1 else 0) /\
    (forall a b, times_edge a b ev = match contains_edge (es_g s) a b with Ret true => 1 | _ => 0 end) /\
    (forall f i, times (EvItemRemoved f i) ev = occurrences i (all_items io s f)).
Proof.
  intros Hre Hio. pose proof (ereachable_wf einv s Hre) as Hwf.
  set (ev := ((fun p => EvItemRemoved p.1 p.2) <$> pairs io (dg_verts (dg s))) ++
     ((fun p => EvEdgeRemoved p.1 p.2) <$> (ends (dg s) <$> picked (dg s))) ++ (EvFrameRemoved <$> names (dg s))).
  assert (Hadd : Forall is_removed ev).
  { unfold ev. repeat rewrite list.Forall_app. split; [|split]; apply list.Forall_fmap, list.Forall_true; done. }
  assert (Hrep : replay ev (replica_of io s) = Some empty_replica).
  { unfold ev. rewrite !replay_app. rewrite replay_items_removed by done. cbn [r_frames r_edges r_items replica_of].
    rewrite replay_app, replay_edges_removed; [|by apply (picked_once einv)|done]. cbn [r_frames r_edges r_items].
    apply replay_frames_removed; try done. apply (wf_vname einv _ Hwf). }
  assert (Hm : mirrors s (replica_of io s)) by by apply (mirrors_eq io s _ Hwf Hio).
  exists ev. split; [|split; [done|split]].
  - unfold eg_unpublish. rewrite (unpublish_eq einv) by done. cbn iota. unfold ev. by rewrite item_events_pairs.
  - intros r Hr. by apply (mirrors_eq io) in Hr as ->.
  - assert (Hs0 : symmetric (replica_of io s)) by by eapply mirrors_symmetric.
    destruct (replay_removed_count ev _ empty_replica Hs0 Hadd Hrep) as (_ & C1 & C2 & C3).
    destruct (mirrors_counts io s _ Hwf Hio Hm) as (M1 & M2 & M3). split; [|split].
    + intros f. rewrite <- M1, C1. unfold one. by rewrite decide_False by apply not_elem_of_empty.
    + intros a b. rewrite <- M2, C2. unfold one. by rewrite decide_False by apply not_elem_of_empty.
    + intros f i. rewrite <- M3, C3. cbn [r_items empty_replica]. by rewrite multiplicity_empty.
Qed.

(** *** clear *)

Lemma disconnect_all ord fs s : dg_wf (dg s) -> gs_subs (es_g s) = [] -> (forall f, f ∈ fs -> is_Some (dg_map (dg s) !! f)) ->
  exists s' ev, for_frames (fun f => lift (disconnect_frame ord f)) fs s = (s', ev, Ret tt) /\ Forall is_edge_removed ev /\
    dg_wf (dg s') /\ gs_subs (es_g s') = [] /\ gs_views (es_g s') = gs_views (es_g s) /\ es_heap s' = es_heap s /\
    dg_verts (dg s') = dg_verts (dg s) /\ dg_map (dg s') = dg_map (dg s) /\
    (forall e, e ∈ dg_edges (dg s') -> e ∈ dg_edges (dg s) /\ forall f, f ∈ fs -> dg_map (dg s) !! f <> Some (e_src e)).
Proof.
  revert s. induction fs as [|f fs IH]; intros s Hwf Hsub Hfs; cbn [for_frames].
  { exists s, []. do 8 (split; [done|]). intros e He. split; [done|]. by intros ? ?%elem_of_nil. }
  destruct (Hfs f) as [v Hf]; [left|].
  destruct (disconnect_frame_nosub einv ord f v (es_g s) Hwf Hsub Hf) as (g1 & H1 & Hwf1 & Hsub1 & Hv1 & Hvs1 & Hm1 & _ & _ & _ & He1).
  set (s1 := ESt g1 (es_heap s)).
  destruct (IH s1) as (s2 & ev2 & H2 & Hr2 & Hwf2 & Hsub2 & Hv2 & Hh2 & Hvs2 & Hm2 & He2); [done|done| |].
  { intros f' Hf'. unfold s1. cbn [es_g]. rewrite Hm1. apply Hfs. by right. }
  eexists s2, _. split.
  { unfold cbind, lift. rewrite H1. fold s1. unfold lift in H2. rewrite H2. done. }
  unfold s1 in *. cbn [es_g es_heap] in *.
  split; [apply list.Forall_app; split; [|done]; by apply list.Forall_fmap, list.Forall_true|].
  split; [done|]. split; [done|]. split; [congruence|]. split; [done|]. split; [congruence|]. split; [congruence|].
  intros e He. destruct (He2 e He) as [Hin Hn]. rewrite He1 in Hin. apply elem_of_list_filter in Hin as [[Hs _] Hin].
  split; [done|]. intros f' [->|Hf']%elem_of_cons; [congruence|]. rewrite <- Hm1. by apply Hn.
Qed.

Lemma remove_head io s r vs : iorder_ok io -> Inv einv s -> dg_edges (dg s) = [] -> dg_verts (dg s) = r :: vs ->
  exists s', eg_remove_frame io (v_name r) s =
      (s', (EvItemRemoved (v_name r) <$> concat (lists_of io (v_id r) (v_data r))) ++ [EvFrameRemoved (v_name r)], Ret tt) /\
    dg_edges (dg s') = [] /\ dg_verts (dg s') = vs /\ es_heap s' = es_heap s /\
    gs_subs (es_g s') = gs_subs (es_g s) /\ gs_views (es_g s') = gs_views (es_g s).
Proof.
  intros Hio Hi He Hv. pose proof Hi as [Hwf Hit].
  assert (Hf : dg_map (dg s) !! v_name r = Some (v_id r)) by (apply (wf_map einv _ Hwf); exists r; rewrite Hv; set_solver).
  assert (Hits : items_of (dg s) (v_name r) = v_data r).
  { unfold items_of. rewrite Hf. assert (bg_vrec (dg s) (v_id r) = Some r) as ->; [|done].
    apply (bg_vrec_iff einv); [done|]. rewrite Hv. split; [left|done]. }
  set (s1 := put (v_name r) ∅ s). assert (Hwf1 : dg_wf (dg s1)) by by apply wf_put.
  assert (Hd1 : bg_degree (dg s1) (v_id r) = 0).
  { unfold bg_degree, bg_in, bg_out. change (dg_edges (dg s1)) with (dg_edges (dg s)). by rewrite He. }
  eexists. split.
  { unfold eg_remove_frame, cbind. rewrite (clear_frame_eq einv io _ (v_id r)) by (try done; by apply (Inv_nonempty einv)).
    rewrite Hits. fold s1. unfold lift. rewrite (remove_frame_eq einv (v_name r) (v_id r)) by done.
    rewrite bool_decide_eq_false_2 by lia. done. }
  cbn [es_g es_heap gs_dg gs_set_dg gs_subs gs_views]. split; [done|]. split; [|done].
  cbn [bg_remove_vertex dg_verts]. unfold s1, put. cbn [es_g gs_dg gs_set_dg bg_set_data dg_verts].
  rewrite (bg_vertex_some _ _ _ Hf), Hv. cbn [fmap list_fmap]. rewrite Nat.eqb_refl.
  rewrite filter_cons_False by (cbn; intros H; by apply H). pose proof (wf_vid einv _ Hwf) as Hnd. rewrite Hv in Hnd. cbn in Hnd.
  apply list.NoDup_cons in Hnd as [Hn _]. clear -Hn. induction vs as [|q vs IH]; cbn; [done|].
  cbn in Hn. rewrite not_elem_of_cons in Hn. destruct Hn as [Hne Hn].
  rewrite (proj2 (Nat.eqb_neq (v_id q) (v_id r))) by done. rewrite decide_True by done. f_equal. by apply IH.
Qed.

Lemma remove_all io vs s : iorder_ok io -> Inv einv s -> dg_edges (dg s) = [] -> dg_verts (dg s) = vs ->
  exists s', for_frames (eg_remove_frame io) (v_name <$> vs) s =
      (s', concat ((fun r => (EvItemRemoved (v_name r) <$> concat (lists_of io (v_id r) (v_data r))) ++ [EvFrameRemoved (v_name r)]) <$> vs), Ret tt) /\
    Inv einv s' /\ dg_edges (dg s') = [] /\ dg_verts (dg s') = [] /\ es_heap s' = es_heap s /\
    gs_subs (es_g s') = gs_subs (es_g s) /\ gs_views (es_g s') = gs_views (es_g s).
Proof.
  intros Hio. revert s. induction vs as [|r vs IH]; intros s Hi He Hv; cbn [for_frames fmap list_fmap concat].
  { exists s. done. }
  destruct (remove_head io s r vs Hio Hi He Hv) as (s1 & H1 & He1 & Hv1 & Hh1 & Hs1 & Hw1).
  assert (Hi1 : Inv einv s1). { eapply (fine_eg_remove_frame einv io); [done|exact Hi|exact H1|done]. }
  destruct (IH s1 Hi1 He1 Hv1) as (s2 & H2 & Hi2 & He2 & Hv2 & Hh2 & Hs2 & Hw2). exists s2.
  split; [unfold cbind; by rewrite H1, H2|]. repeat (split; [congruence || done|]). congruence.
Qed.

Lemma clear_spec ord io s : ereachable s -> iorder_ok io -> gs_subs (es_g s) = [] ->
  exists s' evE fs, clear ord io s =
      (s', evE ++ concat ((fun f => (EvItemRemoved f <$> all_items io s f) ++ [EvFrameRemoved f]) <$> fs), Ret tt) /\
    Forall is_edge_removed evE /\ (forall a b, times_edge a b evE = match contains_edge (es_g s) a b with Ret true => 1 | _ => 0 end) /\
    NoDup fs /\ (forall f, f ∈ fs <-> contains_frame (es_g s) f = true) /\
    num_vertices (es_g s') = 0 /\ num_edges (es_g s') = 0 /\
    (forall f, contains_frame (es_g s') f = false) /\
    (forall i, deref s' i = deref s i) /\
    gs_subs (es_g s') = [] /\ gs_views (es_g s') = gs_views (es_g s) /\
    (forall r, mirrors s r -> replay (evE ++ concat ((fun f => (EvItemRemoved f <$> all_items io s f) ++ [EvFrameRemoved f]) <$> fs)) r = Some empty_replica).
Proof.
  intros Hre Hio Hsub. pose proof (ereachable_inv einv s Hre) as Hi. pose proof Hi as [Hwf Hit].
  destruct (disconnect_all ord (names (dg s)) s Hwf Hsub) as (s1 & evE & H1 & HevE & Hwf1 & Hsub1 & Hv1 & Hh1 & Hvs1 & Hm1 & He1).
  { intros f Hf. by apply (names_all einv). }
  assert (Hfe : fine einv (for_frames (E := E) (fun f => lift (disconnect_frame ord f)) (names (dg s)))).
  { apply fine_for_frames. intros f. apply fine_disconnect. }
  destruct (Hfe _ _ _ _ Hi H1) as [Hi1 Hfo1]; [done|].
  assert (He0 : dg_edges (dg s1) = []).
  { destruct (dg_edges (dg s1)) as [|e l] eqn:He; [done|]. exfalso. destruct (He1 e) as [Hin Hn]; [left|].
    pose proof (wf_src einv _ Hwf e Hin) as Hsrc. pose proof (name_map einv _ _ Hwf Hsrc) as Hnm.
    apply (Hn (bg_name (dg s) (e_src e))); [|done]. apply (names_all einv); [done|]. eauto. }
  destruct (remove_all io (dg_verts (dg s)) s1 Hio Hi1 He0 Hvs1) as (s2 & H2 & Hi2 & He2 & Hv2 & Hh2 & Hs2 & Hw2).
  assert (HevF : concat ((fun r => (EvItemRemoved (v_name r) <$> concat (lists_of io (v_id r) (v_data r))) ++ [EvFrameRemoved (v_name r)]) <$> dg_verts (dg s)) =
    concat ((fun f => (EvItemRemoved f <$> all_items io s f) ++ [EvFrameRemoved f]) <$> names (dg s))).
  { unfold names. f_equal. rewrite <- list_fmap_compose. apply list_fmap_ext. intros n r Hr%elem_of_list_lookup_2. cbn.
    assert (Hf : dg_map (dg s) !! v_name r = Some (v_id r)) by (apply (wf_map einv _ Hwf); eauto).
    rewrite (all_items_eq einv) by done. rewrite (bg_vertex_some _ _ _ Hf). do 5 f_equal. unfold items_of. rewrite Hf.
    assert (bg_vrec (dg s) (v_id r) = Some r) as -> by by apply (bg_vrec_iff einv). done. }
  pose proof Hi2 as [Hwf2 _].
  assert (Hun : forall f, contains_frame (es_g s2) f = false).
  { intros f. rewrite (contains_frame_map einv) by done. apply bool_decide_eq_false_2. intros H%(names_all einv); [|done].
    unfold names in H. rewrite Hv2 in H. by apply elem_of_nil in H. }
  assert (Hclear : clear ord io s = (s2, evE ++ concat ((fun f => (EvItemRemoved f <$> all_items io s f) ++ [EvFrameRemoved f]) <$> names (dg s)), Ret tt)).
  { unfold clear. erewrite cbind_read_ret by done. unfold cbind at 1. fold (names (dg s)). rewrite H1.
    unfold names at 1. by rewrite H2, HevF. }
  exists s2, evE, (names (dg s)). split; [done|]. split; [done|]. split; [|split; [|split; [|split; [|split; [|split; [done|split; [|split; [|split]]]]]]]].
  - intros a b. destruct (mirrors_exists s Hwf) as [r Hr]. apply (mirrors_mir einv) in Hr as Hr0; [|done].
    destruct (Hfo1 r Hr0) as (r1 & Hr1 & Hm). apply (mirrors_mir einv) in Hm; [|done].
    assert (Hrem : Forall is_removed evE) by (eapply list.Forall_impl; [done|]; by intros []).
    destruct (replay_removed_count evE r r1) as (_ & _ & C2 & _); [exact (mirrors_symmetric s r Hwf Hr)|done|done|].
    destruct (mirrors_counts io s r Hwf Hio Hr) as (_ & M2 & _). rewrite <- M2, C2.
    unfold one. rewrite decide_False; [done|]. destruct Hm as (_ & Hm2 & _). rewrite Hm2.
    rewrite (contains_edge_eq einv) by done. destruct (dg_map (dg s1) !! a) as [u|]; [|done]. destruct (dg_map (dg s1) !! b) as [v|]; [|done].
    rewrite bool_decide_eq_false_2; [done|]. intros [e He]. apply (bg_edge_iff einv) in He as [He _]; [|done].
    rewrite He0 in He. by apply elem_of_nil in He.
  - apply (wf_vname einv _ Hwf).
  - intros f. rewrite (names_all einv) by done. rewrite (contains_frame_map einv) by done. by rewrite bool_decide_eq_true.
  - unfold num_vertices. rewrite (wf_nv einv _ Hwf2), Hv2. done.
  - unfold num_edges. rewrite (wf_ne einv _ Hwf2), He2. done.
  - intros i. unfold deref. by rewrite Hh2, Hh1.
  - congruence.
  - congruence.
  - intros r Hr. apply (mirrors_mir einv) in Hr; [|done].
    destruct (fine_clear einv ord io Hio _ _ _ _ Hi Hclear) as [_ Hfo]; [done|].
    destruct (Hfo r Hr) as (r' & Hr' & Hm'). rewrite Hr'. f_equal. apply (mirrors_mir einv) in Hm'; [|done].
    apply (mirrors_eq io) in Hm' as ->; [|done..]. unfold replica_of, names, picked. rewrite Hv2, He2. apply replica_eq; [done|apply set_eq; intros []; unfold both; set_solver|done].
Qed.

End items_publish.
