(** Edge descriptors in events: proofs. *)
From stdpp Require Import prelude strings gmap.
From Verif Require Import ListLib Outcome ItemClass Digraph Bfs TreeView GraphModel GraphOps GraphWf GraphStep SpecStore SpecObs
  GraphStore GraphRefine ItemsPublish GraphThms GraphThms2 ViewSync ItemsModel SpecReplica SpecQueue SpecItems ItemsLog ItemsThms QueueModel QueueThms SpecDesc.

(** *** The queue *)

(** The events of a queue are received ones after which no edge removal for the same frames was received. *)
Lemma scan_sub new q : snd (q_scan new q) = filter (fun e => mergeable e new = false) q.
Proof.
  induction q as [|e q IH]; [done|]. cbn [q_scan]. rewrite filter_cons. destruct (q_scan new q) as [skip q'] eqn:Hq. cbn in IH. subst q'.
  destruct (mergeable e new) eqn:Hm; cbn [snd]; [rewrite decide_False by done|rewrite decide_True by done]; done.
Qed.

Lemma notify_elem q new e : e ∈ q_notify q new -> e = new \/ (e ∈ q /\ mergeable e new = false).
Proof.
  unfold q_notify. pose proof (scan_sub new q) as Hs. destruct (q_scan new q) as [skip q']. cbn in Hs. subst q'.
  assert (H : forall x, x ∈ filter (fun e => mergeable e new = false) q -> x ∈ q /\ mergeable x new = false).
  { by intros x [? ?]%elem_of_list_filter. }
  destruct skip; [by intros ?%H; right|]. intros [Hx%H|Hx%elem_of_list_singleton]%elem_of_app; auto.
Qed.

Lemma removal_mergeable e x : removal_of e x -> mergeable e x = true.
Proof.
  destruct e; cbn; try done; intros [->| ->]; cbn; unfold same_edge; rewrite !String.eqb_refl; cbn; try done;
    apply orb_true_r.
Qed.

Lemma foldl_elem evs q e : e ∈ foldl q_notify q evs ->
  (e ∈ q /\ forall x, x ∈ evs -> ~ removal_of e x) \/
  exists ev1 ev2, evs = ev1 ++ e :: ev2 /\ forall x, x ∈ ev2 -> ~ removal_of e x.
Proof.
  revert q. induction evs as [|y evs IH]; intros q; cbn; [intros H; left; split; [done|by intros ? ?%elem_of_nil]|].
  intros [[Hq Hx]|(ev1 & ev2 & -> & Hx)]%IH.
  - apply notify_elem in Hq as [->|[Hq Hm]].
    + right. by exists [], evs.
    + left. split; [done|]. intros x [->|Hin]%elem_of_cons; [|by apply Hx].
      intros Hr%removal_mergeable. congruence.
  - right. exists (y :: ev1), ev2. done.
Qed.

Lemma receive_elem evs e : e ∈ q_receive evs ->
  exists ev1 ev2, evs = ev1 ++ e :: ev2 /\ forall x, x ∈ ev2 -> ~ removal_of e x.
Proof. unfold q_receive. intros [[?%elem_of_nil _]|H]%foldl_elem; done. Qed.

(** *** The graph *)

Section desc.
Context {D E : Type} (einv : E -> E).
Local Notation dg_wf := (dg_wf einv).
Local Notation lstep := (lstep (D := D) einv).
Local Notation lsteps := (lsteps (D := D) einv).
Implicit Types (s : gst D E) (g : digraph D E).

(** [i] is the edge from [o] to [t]. *)
Definition gedge g (o t : frameid) (i : eid) : Prop :=
  exists a b e, dg_map g !! o = Some a /\ dg_map g !! t = Some b /\ bg_edge g a b = Some e /\ e_id e = i.
Definition gcurrent g (e : event) : Prop :=
  match e with
  | EvEdgeAdded o t i => gedge g o t i
  | EvEdgeModified o t i j => gedge g o t i /\ gedge g t o j
  | _ => True
  end.

Lemma gedge_is s o t i : dg_wf (gs_dg s) -> gedge (gs_dg s) o t i -> is_edge s o t i.
Proof. intros Hwf (a & b & e & Ha & Hb & He & Hi). exists e. split; [|done]. by eapply (get_edge_some einv). Qed.

Lemma gcurrent_is s e : dg_wf (gs_dg s) -> gcurrent (gs_dg s) e -> current s e.
Proof. intros Hwf. destruct e; cbn; try done; [by apply gedge_is|]. intros [H1 H2]. split; by apply gedge_is. Qed.

Lemma gedge_steps g ev g' o t i : dg_wf g -> lsteps g ev g' -> EvEdgeRemoved o t ∉ ev -> EvEdgeRemoved t o ∉ ev ->
  gedge g o t i -> gedge g' o t i.
Proof.
  intros Hwf Hl H1 H2 (a & b & e & Ha & Hb & He & Hi).
  destruct (lsteps_edge einv _ _ _ o t a b e Hwf Hl Ha Hb He H1 H2) as (Ha' & Hb' & e' & He' & Hid).
  exists a, b, e'. split_and!; try done. congruence.
Qed.

Lemma gcurrent_steps g ev g' e : dg_wf g -> lsteps g ev g' -> (forall x, x ∈ ev -> ~ removal_of e x) ->
  gcurrent g e -> gcurrent g' e.
Proof.
  intros Hwf Hl Hx. destruct e as [| |o t i|o t i j|o t| |]; cbn in *; try done.
  - apply (gedge_steps g ev); try done; intros Hin; apply (Hx _ Hin); auto.
  - intros [H1 H2]. split; [apply (gedge_steps g ev _ o t i); try done|apply (gedge_steps g ev _ t o j); try done];
      intros Hin; apply (Hx _ Hin); auto.
Qed.

Lemma gcurrent_raised g e g' : dg_wf g -> lstep g [e] g' -> gcurrent g' e.
Proof.
  intros Hwf Hl. pose proof (lstep_wf einv _ _ _ Hwf Hl) as Hwf'.
  inversion Hl as [?|? o t p fo ft Ho Ht Hne Hn|? o t e1 e2 fo ft Ho Ht H1 H2|? o t p e1 e2 fo ft Ho Ht H1 H2|?|?]; subst; cbn [gcurrent]; try done.
  - exists o, t, (ERec (dg_nexte g) o t p). split; [done|]. split; [done|]. split; [|done].
    apply (bg_edge_iff einv); [done|]. split; [|done]. rewrite (add2_edges einv). apply elem_of_app. right. left.
  - assert (Hm : forall e u v, bg_edge g u v = Some e ->
      exists e', bg_edge (bg_set_prop (e_id e2) (einv p) (bg_set_prop (e_id e1) p g)) u v = Some e' /\ e_id e' = e_id e).
    { intros e u v He. rewrite !set_prop_edge, He. cbn. eexists. split; [done|]. repeat (case_match; cbn); done. }
    split.
    + destruct (Hm e1 o t H1) as (e' & He' & Hi). exists o, t, e'. done.
    + destruct (Hm e2 t o H2) as (e' & He' & Hi). exists t, o, e'. done.
Qed.

Lemma lstep_one g ev g' : lstep g ev g' -> ev = [] \/ exists e, ev = [e].
Proof. destruct 1; eauto. Qed.

Lemma lsteps_split g ev1 e ev2 g' : lsteps g (ev1 ++ e :: ev2) g' ->
  exists g1 g2, lsteps g ev1 g1 /\ lstep g1 [e] g2 /\ lsteps g2 ev2 g'.
Proof.
  intros Hl. remember (ev1 ++ e :: ev2) as ev eqn:Hev. revert ev1 Hev.
  induction Hl as [g|g eva gm evb g' Hs Hl IH]; intros ev1 Hev; [by destruct ev1|].
  destruct (lstep_one _ _ _ Hs) as [->|[x ->]].
  - cbn in Hev. destruct (IH ev1 Hev) as (g1 & g2 & H1 & H2 & H3). exists g1, g2. split; [|done].
    change ev1 with ([] ++ ev1). by econstructor.
  - destruct ev1 as [|y ev1]; injection Hev as -> Hev.
    + subst evb. exists g, gm. split; [constructor|done].
    + destruct (IH ev1 Hev) as (g1 & g2 & H1 & H2 & H3). exists g1, g2. split; [|done].
      change (y :: ev1) with ([y] ++ ev1). by econstructor.
Qed.

Lemma gcurrent_later g ev1 e ev2 g' : dg_wf g -> lsteps g (ev1 ++ e :: ev2) g' ->
  (forall x, x ∈ ev2 -> ~ removal_of e x) -> gcurrent g' e.
Proof.
  intros Hwf Hl Hx. apply lsteps_split in Hl as (g1 & g2 & H1 & H2 & H3).
  pose proof (lsteps_wf einv _ _ _ Hwf H1) as Hwf1. pose proof (lstep_wf einv _ _ _ Hwf1 H2) as Hwf2.
  apply (gcurrent_steps g2 ev2); try done. by apply (gcurrent_raised g1).
Qed.

(** *** Destroyed edges *)
Definition gone g (i : eid) : Prop := i < dg_nexte g /\ forall e, e ∈ dg_edges g -> e_id e <> i.

Lemma gone_step g ev g' i : lstep g ev g' -> gone g i -> gone g' i.
Proof.
  intros Hl [Hlt Hg]. destruct Hl as [g f d Hn|g o t p fo ft Ho Ht Hne Hn|g o t e1 e2 fo ft Ho Ht H1 H2|g o t p e1 e2 fo ft Ho Ht H1 H2|g v f Hv Hd|g v d].
  - unfold bg_add_vertex. rewrite Hn. done.
  - split; [cbn; lia|]. intros e. rewrite (add2_edges einv). intros [He|He]%elem_of_app; [by apply Hg|].
    apply elem_of_cons in He as [->|He]; [cbn; lia|]. apply elem_of_list_singleton in He as ->. cbn. lia.
  - split; [done|]. intros e [_ He]%elem_of_list_filter. by apply Hg.
  - split; [done|]. intros e (e' & -> & (e'' & -> & He)%elem_of_list_fmap)%elem_of_list_fmap.
    apply Hg in He. repeat (case_match; cbn in *); done.
  - done.
  - done.
Qed.
Lemma gone_steps g ev g' i : lsteps g ev g' -> gone g i -> gone g' i.
Proof. induction 1 as [|????? Hs _ IH]; [done|]. intros H. apply IH. by eapply gone_step. Qed.

Lemma removed_gone g o t g' i : dg_wf g -> lstep g [EvEdgeRemoved o t] g' -> gedge g o t i \/ gedge g t o i -> gone g' i.
Proof.
  intros Hwf Hl Hi. inversion Hl as [?|?|? vo vt e1 e2 fo ft Ho Ht H1 H2|?|?|?]; subst.
  assert (Hii : exists e, e ∈ dg_edges g /\ e_id e = i /\ (i = e_id e1 \/ i = e_id e2)).
  { destruct Hi as [(a & b & e & Ha & Hb & He & Hi)|(a & b & e & Ha & Hb & He & Hi)].
    - assert (a = vo) by congruence. assert (b = vt) by congruence. subst a b. rewrite H1 in He. injection He as <-.
      exists e1. apply (bg_edge_iff einv) in H1 as [? _]; [|done]. auto.
    - assert (a = vt) by congruence. assert (b = vo) by congruence. subst a b. rewrite H2 in He. injection He as <-.
      exists e2. apply (bg_edge_iff einv) in H2 as [? _]; [|done]. auto. }
  destruct Hii as (e & He & Hid & Hor). split.
  - cbn. rewrite <- Hid. by apply (wf_ebound einv _ Hwf).
  - intros x [[Hx1 Hx2] _]%elem_of_list_filter. destruct Hor; congruence.
Qed.

Lemma gone_ub s i : gone (gs_dg s) i -> get_edge_property_e s i = UB.
Proof.
  intros [_ Hg]. unfold get_edge_property_e. destruct (bg_erec (gs_dg s) i) as [e|] eqn:He; [|done].
  apply find_some in He as [He Hi]. apply elem_of_list_In, Hg in He. by apply Nat.eqb_eq in Hi.
Qed.

Lemma gedge_gone g o t i : dg_wf g -> gedge g o t i -> ~ gone g i.
Proof.
  intros Hwf (a & b & e & _ & _ & He & Hi) [_ Hg]. apply (bg_edge_iff einv) in He as [He _]; [|done]. by apply Hg in He.
Qed.

Lemma removal_dec e x : Decision (removal_of e x).
Proof. destruct e; cbn; apply _. Defined.

Lemma gcurrent_dangling g ev1 e ev2 g' x : dg_wf g -> lsteps g (ev1 ++ e :: ev2) g' -> x ∈ ev2 -> removal_of e x ->
  forall i, i ∈ descriptors e -> gone g' i.
Proof.
  intros Hwf Hl Hx Hr i Hi.
  (* the first removal *)
  assert (Hf : exists evA y evB, ev2 = evA ++ y :: evB /\ removal_of e y /\ forall z, z ∈ evA -> ~ removal_of e z).
  { clear Hl. induction ev2 as [|z ev2 IH]; [by apply elem_of_nil in Hx|].
    destruct (removal_dec e z) as [Hz|Hz].
    - exists [], z, ev2. split; [done|]. split; [done|]. by intros ? ?%elem_of_nil.
    - apply elem_of_cons in Hx as [->|Hx]; [done|]. destruct (IH Hx) as (evA & y & evB & -> & Hy & HA).
      exists (z :: evA), y, evB. split; [done|]. split; [done|]. intros w [->|Hw]%elem_of_cons; [done|by apply HA]. }
  destruct Hf as (evA & y & evB & -> & Hy & HA).
  apply lsteps_split in Hl as (g1 & g2 & H1 & H2 & H3). apply lsteps_split in H3 as (g3 & g4 & H3 & H4 & H5).
  pose proof (lsteps_wf einv _ _ _ Hwf H1) as Hwf1. pose proof (lstep_wf einv _ _ _ Hwf1 H2) as Hwf2.
  pose proof (lsteps_wf einv _ _ _ Hwf2 H3) as Hwf3.
  assert (Hc : gcurrent g3 e) by (apply (gcurrent_steps g2 evA); try done; by apply (gcurrent_raised g1)).
  apply (gone_steps _ _ _ i H5).
  destruct e as [| |o t a|o t a b|o t| |]; cbn in *; try done.
  - apply elem_of_list_singleton in Hi as ->. destruct Hy as [->| ->]; eapply removed_gone; eauto.
  - destruct Hc as [Ha Hb]. apply elem_of_cons in Hi as [->|Hi]; [|apply elem_of_list_singleton in Hi as ->];
      destruct Hy as [->| ->]; eapply removed_gone; eauto.
Qed.

Lemma gedge_readable s o t i : dg_wf (gs_dg s) -> gedge (gs_dg s) o t i -> exists p, get_edge_property_e s i = Ret p.
Proof.
  intros Hwf (a & b & e & _ & _ & He & Hi). apply (bg_edge_iff einv) in He as [He _]; [|done].
  unfold get_edge_property_e. rewrite (proj2 (bg_erec_iff einv _ i e Hwf)); eauto.
Qed.

Lemma desc_iff s' g ev1 e ev2 : dg_wf g -> lsteps g (ev1 ++ e :: ev2) (gs_dg s') ->
  ((forall x, x ∈ ev2 -> ~ removal_of e x) ->
    current s' e /\ forall i, i ∈ descriptors e -> exists p, get_edge_property_e s' i = Ret p) /\
  ((exists x, x ∈ ev2 /\ removal_of e x) -> forall i, i ∈ descriptors e -> get_edge_property_e s' i = UB).
Proof.
  intros Hwf Hl. split.
  - intros Hx. pose proof (lsteps_wf einv _ _ _ Hwf Hl) as Hwf'. assert (Hc : gcurrent (gs_dg s') e) by by apply (gcurrent_later g ev1 e ev2).
    split; [by apply gcurrent_is|]. intros i Hi.
    destruct e as [| |o t a|o t a b|o t| |]; cbn in *; try (by apply elem_of_nil in Hi).
    + apply elem_of_list_singleton in Hi as ->. by eapply gedge_readable.
    + destruct Hc. apply elem_of_cons in Hi as [->|Hi]; [|apply elem_of_list_singleton in Hi as ->]; by eapply gedge_readable.
  - intros (x & Hx & Hr) i Hi. apply gone_ub. by eapply gcurrent_dangling.
Qed.

(** *** publishCurrentState *)
Lemma publish_gcurrent s ev e : dg_wf (gs_dg s) -> publish_current_state s = (ev, Ret tt) -> e ∈ ev -> gcurrent (gs_dg s) e.
Proof.
  intros Hwf Hp He. rewrite (publish_eq einv) in Hp by done. injection Hp as <-.
  apply elem_of_app in He as [(f & -> & _)%elem_of_list_fmap|(r & -> & Hr)%elem_of_list_fmap]; [done|].
  assert (Hin : r ∈ dg_edges (gs_dg s)).
  { unfold picked in Hr. eapply elem_of_submseteq; [done|]. apply sublist_submseteq, pick_sublist. }
  cbn. exists (e_src r), (e_tgt r), r. split; [by apply (name_alive einv), (wf_src einv)|].
  split; [by apply (name_alive einv), (wf_tgt einv)|]. split; [|done]. by apply (bg_edge_iff einv).
Qed.
Lemma queued g ev0 ev s' : dg_wf g -> lsteps g ev (gs_dg s') -> (forall e, e ∈ ev0 -> gcurrent g e) ->
  forall e, e ∈ q_receive (ev0 ++ ev) -> current s' e.
Proof.
  intros Hwf Hl H0 e (ev1 & ev2 & Heq & Hx)%receive_elem.
  apply gcurrent_is; [by eapply (lsteps_wf einv)|].
  assert (Hc : (exists k, ev1 = ev0 ++ k /\ ev = k ++ e :: ev2) \/ (exists k, ev0 = ev1 ++ e :: k /\ ev2 = k ++ ev)).
  { apply app_eq_inv in Heq as [(k & H1 & H2)|(k & H1 & H2)].
    - destruct k as [|y k]; cbn in H2.
      + left. exists []. rewrite app_nil_r in H1. rewrite app_nil_r. auto.
      + injection H2 as -> ->. right. exists k. auto.
    - left. exists k. auto. }
  destruct Hc as [(k & -> & ->)|(k & -> & ->)].
  - by eapply gcurrent_later.
  - apply (gcurrent_steps g ev); try done.
    + intros x Hxx. apply Hx. apply elem_of_app. by right.
    + apply H0. apply elem_of_app. right. left.
Qed.
End desc.

(** *** Graphs with items *)
Section items.
Context {E : Type} (einv : E -> E).
Local Notation dg s := (gs_dg (es_g s)).
Local Notation dg_wf := (dg_wf einv).
Local Notation lsteps := (lsteps (D := imap) einv).
Implicit Types (s : est E).

Definition graph_part (ev : list event) : list event :=
  filter (fun e => match e with EvItemAdded _ _ | EvItemRemoved _ _ => false | _ => true end = true) ev.

Definition traced {A} (m : call (est E) A) : Prop := forall s s' ev r, dg_wf (dg s) -> m s = (s', ev, r) -> ok r ->
  lsteps (dg s) (graph_part ev) (dg s').

Lemma graph_part_app ev1 ev2 : graph_part (ev1 ++ ev2) = graph_part ev1 ++ graph_part ev2.
Proof. apply list.filter_app. Qed.

Lemma traced_bind {A B} (m : call (est E) A) (k : A -> call (est E) B) : traced m -> (forall a, traced (k a)) -> traced (cbind m k).
Proof.
  intros Hm Hk s s' ev r Hi Hr Hok.
  apply cbind_inv in Hr as [(s1 & ev1 & a & ev2 & H1 & H2 & ->)|[(x & Hx & ->)|[[H ->]|[H ->]]]];
    [| |by destruct Hok..].
  - rewrite graph_part_app. pose proof (Hm _ _ _ _ Hi H1 I) as L1. eapply lsteps_app; [done|].
    eapply (Hk a); [by eapply (lsteps_wf einv)|done..].
  - by eapply Hm.
Qed.
Lemma traced_read {A} (f : est E -> outcome A) : traced (cread f).
Proof. intros s s' ev r Hi [= <- <- <-] _. constructor. Qed.
Lemma traced_ret {A} (a : A) : traced (cret a).
Proof. intros s s' ev r Hi [= <- <- <-] _. constructor. Qed.
Lemma traced_added f i : traced (cnotify (EvItemAdded f i)).
Proof. intros s s' ev r Hi [= <- <- <-] _. constructor. Qed.
Lemma traced_removed f i : traced (cnotify (EvItemRemoved f i)).
Proof. intros s s' ev r Hi [= <- <- <-] _. constructor. Qed.

Lemma graph_part_elem ev e : e ∈ graph_part ev -> e ∈ ev.
Proof. by intros [_ ?]%elem_of_list_filter. Qed.
Lemma graph_part_id ev : (forall f i, EvItemAdded f i ∉ ev /\ EvItemRemoved f i ∉ ev) -> graph_part ev = ev.
Proof.
  unfold graph_part. induction ev as [|e ev IH]; intros Hn; [done|]. rewrite filter_cons.
  rewrite IH by (intros f i; destruct (Hn f i); set_solver).
  destruct e as [| | | | |f i|f i]; try done; destruct (Hn f i) as [H1 H2]; [destruct H1|destruct H2]; left.
Qed.

Lemma lsteps_no_items {D} (g : digraph D E) ev g' : GraphWf.lsteps einv g ev g' ->
  forall f i, EvItemAdded f i ∉ ev /\ EvItemRemoved f i ∉ ev.
Proof.
  induction 1 as [|g1 ev1 g2 ev2 g3 Hs _ IH]; intros f i; [split; apply not_elem_of_nil|].
  destruct (IH f i) as [H1 H2]. destruct Hs; split; intros Hin; apply elem_of_app in Hin as [Hin|Hin]; try done;
    try (by apply elem_of_list_singleton in Hin); by apply elem_of_nil in Hin.
Qed.

Lemma traced_lift ord op : op_noself op -> traced (lift (gstep ∅ einv ord op)).
Proof.
  intros Hns s s' ev r Hwf [Hs _]%lift_inv Hok. pose proof (gstep_lsteps ∅ einv _ _ _ _ _ _ Hwf Hns Hs Hok) as Hl.
  by rewrite (graph_part_id _ (lsteps_no_items _ _ _ Hl)).
Qed.
Lemma traced_write v m : traced (write_items v m).
Proof. exact (traced_lift (fun _ _ _ l => l) (OSetFrameData v m) I). Qed.
Lemma traced_set_frame i f : traced (set_item_frame (E := E) i f).
Proof.
  intros s s' ev r Hwf. unfold set_item_frame. destruct (es_heap s !! i); intros [= <- <- <-] Hok; [|done]. constructor.
Qed.
Lemma traced_new i c f : traced (new_item (E := E) i c f).
Proof.
  intros s s' ev r Hwf. unfold new_item. destruct (es_heap s !! i); intros [= <- <- <-] Hok; [done|]. constructor.
Qed.

Ltac trace := repeat first
  [ apply traced_bind; [|intros ?] | apply traced_read | apply traced_ret | apply traced_added | apply traced_removed
  | apply traced_write | apply traced_set_frame | apply traced_new ].

Lemma traced_add_item_to f i : traced (add_item_to_frame (E := E) f i).
Proof. unfold add_item_to_frame. trace. Qed.
Lemma traced_add_item i : traced (add_item (E := E) i).
Proof. unfold add_item. trace. Qed.
Lemma traced_clear_list f v k l : traced (clear_list (E := E) f v k l).
Proof. induction l; cbn [clear_list]; trace. done. Qed.
Lemma traced_clear_types f v ks : traced (clear_types (E := E) f v ks).
Proof. induction ks; cbn [clear_types]; trace; [apply traced_clear_list|done]. Qed.
Lemma traced_clear_frame io f : traced (clear_frame (E := E) io f).
Proof. unfold clear_frame. trace; apply traced_clear_types. Qed.
Lemma traced_remove_item i : traced (remove_item (E := E) i).
Proof. unfold remove_item. trace. destruct (erase_first _ _); trace. case_match; trace. Qed.
Lemma traced_remove_item_it f alias T itf k : traced (remove_item_it (E := E) f alias T itf k).
Proof. unfold remove_item_it. trace. case_match; trace. case_match; trace. Qed.
Lemma traced_remove_frame io f : traced (eg_remove_frame (E := E) io f).
Proof.
  unfold eg_remove_frame. apply traced_bind; [apply traced_clear_frame|intros _].
  exact (traced_lift (fun _ _ _ l => l) (ORemoveFrame f) I).
Qed.
Lemma traced_frames m fs : (forall f, traced (m f)) -> traced (for_frames (E := E) m fs).
Proof. intros Hm. induction fs; cbn [for_frames]; trace; done. Qed.
Lemma traced_clear ord io : traced (clear (E := E) ord io).
Proof.
  unfold clear. apply traced_bind; [apply traced_read|intros fs].
  apply traced_bind; [|intros _]; apply traced_frames; intros f; [|apply traced_remove_frame].
  exact (traced_lift ord (ODisconnect f) I).
Qed.

Lemma traced_estep ord io op : match op with EGraph op => op_noself op | _ => True end -> traced (estep einv ord io op).
Proof.
  destruct op as [op|i c f|i f|i|f i|i|f alias T itf k|f|]; intros Hop; cbn [estep].
  - destruct op; try (by apply traced_lift). apply traced_remove_frame.
  - apply traced_new.
  - apply traced_set_frame.
  - apply traced_add_item.
  - apply traced_add_item_to.
  - apply traced_remove_item.
  - apply traced_remove_item_it.
  - apply traced_clear_frame.
  - apply traced_clear.
Qed.

Lemma traced_erun h : enoself h -> traced (erun einv h).
Proof.
  induction h as [|[[ord io] op] h IH]; intros Hh s s' ev r Hwf Hr Hok; cbn [erun] in Hr.
  - injection Hr as <- <- _. constructor.
  - apply list.Forall_cons in Hh as [Hop Hh]. cbn [snd] in Hop. specialize (IH Hh).
    destruct (estep einv ord io op s) as [[s1 ev1] r1] eqn:H1.
    assert (Hl : ok r1 -> lsteps (dg s) (graph_part ev1) (dg s1)) by by eapply traced_estep.
    destruct r1 as [u|x| |]; try (injection Hr as <- <- <-; by destruct Hok);
      destruct (erun einv h s1) as [[s2 ev2] r2] eqn:H2; injection Hr as <- <- <-; rewrite graph_part_app;
      (eapply lsteps_app; [by apply Hl|]); (eapply IH; [by eapply (lsteps_wf einv), Hl|done..]).
Qed.

Lemma graph_part_split ev1 e ev2 : (forall f i, e <> EvItemAdded f i /\ e <> EvItemRemoved f i) ->
  graph_part (ev1 ++ e :: ev2) = graph_part ev1 ++ e :: graph_part ev2.
Proof.
  intros He. rewrite graph_part_app. f_equal. unfold graph_part. rewrite filter_cons.
  destruct e as [| | | | |f i|f i]; try done; by destruct (He f i).
Qed.
Lemma graph_part_mem ev e x : removal_of e x -> x ∈ ev -> x ∈ graph_part ev.
Proof.
  intros Hr Hx. apply elem_of_list_filter. split; [|done]. destruct e; cbn in Hr; try done; by destruct Hr as [->| ->].
Qed.

Lemma desc_items s h s' ev r ev1 e ev2 : dg_wf (dg s) -> enoself h -> erun einv h s = (s', ev, r) -> ok r -> ev = ev1 ++ e :: ev2 ->
  ((forall x, x ∈ ev2 -> ~ removal_of e x) ->
    current (es_g s') e /\ forall i, i ∈ descriptors e -> exists p, get_edge_property_e (es_g s') i = Ret p) /\
  ((exists x, x ∈ ev2 /\ removal_of e x) -> forall i, i ∈ descriptors e -> get_edge_property_e (es_g s') i = UB).
Proof.
  intros Hwf Hh Hr Hok ->. pose proof (traced_erun h Hh _ _ _ _ Hwf Hr Hok) as Hl.
  assert (Hi : (exists f i, e = EvItemAdded f i \/ e = EvItemRemoved f i) \/ forall f i, e <> EvItemAdded f i /\ e <> EvItemRemoved f i).
  { destruct e; eauto; by right. }
  destruct Hi as [(f & i & [->| ->])|Hi].
  - split; [|by intros (? & _ & [])]. intros _. split; [done|]. by intros ? ?%elem_of_nil.
  - split; [|by intros (? & _ & [])]. intros _. split; [done|]. by intros ? ?%elem_of_nil.
  - rewrite graph_part_split in Hl by done. destruct (desc_iff einv _ _ _ _ _ Hwf Hl) as [H1 H2]. split.
    + intros Hx. apply H1. intros x Hin. apply Hx. by apply graph_part_elem.
    + intros (x & Hx & Hrm). apply H2. exists x. split; [|done]. by eapply graph_part_mem.
Qed.

Lemma publish_items_current s io ev0 : dg_wf (dg s) -> eg_publish io s = (ev0, Ret tt) -> forall e, e ∈ ev0 -> gcurrent (dg s) e.
Proof.
  intros Hwf H0 x Hin. unfold eg_publish in H0.
  destruct (publish_current_state (es_g s)) as [evp rp] eqn:Hp. destruct rp as [[]| | |]; try done. injection H0 as <-.
  apply elem_of_app in Hin as [Hin|Hin]; [by eapply (publish_gcurrent einv)|].
  unfold item_events in Hin. apply elem_of_concat in Hin as (l & Hxl & Hl2).
  apply elem_of_list_fmap in Hl2 as (rr & -> & _). by apply elem_of_list_fmap in Hxl as (j & -> & _).
Qed.

Lemma queued_items s io ev0 h s' ev r : dg_wf (dg s) -> enoself h -> ev0 = [] \/ eg_publish io s = (ev0, Ret tt) ->
  erun einv h s = (s', ev, r) -> ok r -> forall e, e ∈ q_receive (ev0 ++ ev) -> current (es_g s') e.
Proof.
  intros Hwf Hh H0 Hr Hok e He.
  pose proof (traced_erun h Hh _ _ _ _ Hwf Hr Hok) as Hl.
  apply receive_elem in He as (ev1 & ev2 & Heq & Hx).
  assert (Hwf' : dg_wf (dg s')) by by eapply (lsteps_wf einv).
  assert (Hc0 : forall e, e ∈ ev0 -> gcurrent (dg s) e).
  { destruct H0 as [->|H0]; [by intros ? ?%elem_of_nil|]. by apply (publish_items_current s io). }
  assert (Hc : (exists k, ev1 = ev0 ++ k /\ ev = k ++ e :: ev2) \/ (exists k, ev0 = ev1 ++ e :: k /\ ev2 = k ++ ev)).
  { apply app_eq_inv in Heq as [(k & H1 & H2)|(k & H1 & H2)].
    - destruct k as [|y k]; cbn in H2.
      + left. exists []. rewrite app_nil_r in H1. rewrite app_nil_r. auto.
      + injection H2 as -> ->. right. exists k. auto.
    - left. exists k. auto. }
  destruct Hc as [(k & -> & ->)|(k & -> & ->)].
  - by eapply (desc_items s h s' _ r k e ev2).
  - apply (gcurrent_is einv); [done|]. apply (gcurrent_steps einv (dg s) (graph_part ev)); try done.
    + intros x Hxx. apply Hx. apply elem_of_app. right. by apply graph_part_elem.
    + apply Hc0. apply elem_of_app. right. left.
Qed.

Lemma gcurrent_item (g : digraph imap E) e f i : e = EvItemAdded f i \/ e = EvItemRemoved f i -> gcurrent g e.
Proof. by intros [->| ->]. Qed.

Lemma gqueued s h s' ev r q : dg_wf (dg s) -> enoself h -> erun einv h s = (s', ev, r) -> ok r ->
  (forall e, e ∈ q -> gcurrent (dg s) e) -> forall e, e ∈ foldl q_notify q ev -> gcurrent (dg s') e.
Proof.
  intros Hwf Hh Hr Hok Hq e He. pose proof (traced_erun h Hh _ _ _ _ Hwf Hr Hok) as Hl.
  apply foldl_elem in He as [[He Hx]|(ev1 & ev2 & -> & Hx)].
  - apply (gcurrent_steps einv (dg s) (graph_part ev)); [done|done| |by apply Hq].
    intros x Hin. apply Hx. by apply graph_part_elem.
  - destruct e as [| |o t a|o t a b|o t| |] eqn:He; try done; rewrite <- He in *;
      (rewrite graph_part_split in Hl by (by subst e)); (apply (gcurrent_later einv (dg s) (graph_part ev1) e (graph_part ev2)); [done..|]);
      intros x Hin; apply Hx; by apply graph_part_elem.
Qed.

Lemma flush_current client fuel s log nq s' log' dn nq' r : (forall s e, enoself (client s e)) ->
  dg_wf (dg s) -> (forall e, e ∈ nq.2.*2 -> gcurrent (dg s) e) ->
  nq_flush (busy einv client) fuel (s, log) nq = ((s', log'), dn, nq', r) ->
  exists more, log' = log ++ more /\ more.*2 = dn /\
    ((forall s1 e, (s1, e) ∈ more -> ok (snd (erun einv (client s1 e) s1))) -> forall s1 e, (s1, e) ∈ more -> current (es_g s1) e).
Proof.
  intros Hc. revert s log nq s' log' dn nq' r. induction fuel as [|fuel IH]; intros s log nq s' log' dn nq' r Hwf Hq Hf; cbn [nq_flush] in Hf.
  { injection Hf as <- <- <- <- <-. exists []. split; [by rewrite app_nil_r|]. split; [done|]. by intros _ ? ? ?%elem_of_nil. }
  destruct nq as [n [|[id e] q]]; cbn [snd] in Hf.
  { injection Hf as <- <- <- <- <-. exists []. split; [by rewrite app_nil_r|]. split; [done|]. by intros _ ? ? ?%elem_of_nil. }
  assert (He : current (es_g s) e) by (apply (gcurrent_is einv); [done|apply Hq; left]).
  unfold busy at 1 in Hf. cbn [fst snd] in Hf. destruct (erun einv (client s e) s) as [[s1 ev] r1] eqn:Hr.
  destruct (foldl nq_notify (n, (id, e) :: q) ev) as [n1 q1] eqn:Hn.
  destruct (existsb _ q1).
  - destruct (nq_flush (busy einv client) fuel (s1, log ++ [(s, e)]) (n1, filter (fun x => x.1 <> id) q1)) as [[[[s2 log2] dn2] nq2] r2] eqn:Hfl.
    injection Hf as <- <- <- <- <-.
    assert (D : ok r1 \/ ~ ok r1) by (destruct r1; cbn; auto).
    destruct D as [Hok|Hno].
    + apply IH in Hfl as (more & -> & <- & Hm); [|exact (lsteps_wf einv _ _ _ Hwf (traced_erun _ (Hc s e) _ _ _ _ Hwf Hr Hok))|]; cycle 1.
      { intros x (y & -> & [_ Hy]%elem_of_list_filter)%elem_of_list_fmap.
        eapply (gqueued s (client s e) s1 ev r1 ((id, e) :: q).*2); try done.
        assert (Hs : q1.*2 = foldl q_notify ((id, e) :: q).*2 ev).
        { change q1 with (n1, q1).2. rewrite <- Hn. change ((id, e) :: q) with (n, (id, e) :: q).2 at 2.
          generalize (n, (id, e) :: q). clear. induction ev as [|x ev IH]; intros nq; [done|]. cbn [foldl]. rewrite IH. by rewrite nq_notify_snd. }
        rewrite <- Hs. apply elem_of_list_fmap. eauto. }
      exists ((s, e) :: more). split; [by rewrite <- app_assoc|]. split; [done|]. intros Ho s3 e3 [[= -> ->]|Hin]%elem_of_cons; [done|].
      apply Hm; [|done]. intros s4 e4 H4. apply Ho. by right.
    + assert (G : forall fuel h nq h' dn nq' r, nq_flush (busy einv client) fuel h nq = (h', dn, nq', r) ->
        exists more, h'.2 = h.2 ++ more /\ more.*2 = dn).
      { clear. intros fuel. induction fuel as [|fuel IH]; intros h nq h' dn nq' r Hf; cbn [nq_flush] in Hf.
        { injection Hf as <- <- <- <-. exists []. by rewrite app_nil_r. }
        destruct nq as [n [|[id e] q]]; cbn [snd] in Hf.
        { injection Hf as <- <- <- <-. exists []. by rewrite app_nil_r. }
        unfold busy at 1 in Hf. destruct (erun einv (client h.1 e) h.1) as [[s1 ev] r1].
        destruct (foldl nq_notify (n, (id, e) :: q) ev) as [n1 q1]. destruct (existsb _ q1).
        - destruct (nq_flush _ _ _ _) as [[[h2 dn2] nq2] r2] eqn:Hfl. injection Hf as <- <- <- <-.
          apply IH in Hfl as (more & Heq & <-). exists ((h.1, e) :: more). split; [|done]. cbn [snd] in Heq. by rewrite Heq, <- app_assoc.
        - injection Hf as <- <- <- <-. exists [(h.1, e)]. done. }
      destruct (G _ _ _ _ _ _ _ Hfl) as (more & Heq & <-). cbn in Heq. exists ((s, e) :: more). split; [by rewrite Heq, <- app_assoc|].
      split; [done|]. intros Ho. exfalso. apply Hno. pose proof (Ho s e ltac:(left)) as Hx. by rewrite Hr in Hx.
  - injection Hf as <- <- <- <- <-. exists [(s, e)]. split; [done|]. split; [done|]. by intros _ s3 e3 [= -> ->]%elem_of_list_singleton.
Qed.

Lemma flush_queued s io ev0 h s1 ev r client fuel s' log dn nq' r' : dg_wf (dg s) -> enoself h -> ev0 = [] \/ eg_publish io s = (ev0, Ret tt) ->
  erun einv h s = (s1, ev, r) -> ok r -> (forall s e, enoself (client s e)) ->
  nq_flush (busy einv client) fuel (s1, []) (nq_of (q_receive (ev0 ++ ev))) = ((s', log), dn, nq', r') ->
  (forall s2 e, (s2, e) ∈ log -> ok (snd (erun einv (client s2 e) s2))) ->
  log.*2 = dn /\ forall s2 e, (s2, e) ∈ log -> current (es_g s2) e.
Proof.
  intros Hwf Hh H0 Hr Hok Hc Hf Ho. pose proof (traced_erun h Hh _ _ _ _ Hwf Hr Hok) as Hl.
  apply (flush_current client fuel s1 [] _ _ _ _ _ _ Hc (lsteps_wf einv _ _ _ Hwf Hl)) in Hf as (more & -> & <- & Hm); cycle 1.
  - rewrite (proj2 (nq_of_fresh _)). unfold q_receive. rewrite foldl_app. intros e He.
    eapply (gqueued s h s1 ev r (foldl q_notify [] ev0)); try done.
    intros x Hx. apply foldl_elem in Hx as [[Hx%elem_of_nil _]|(e1 & e2 & Heq & _)]; [done|].
    destruct H0 as [->|H0]; [by destruct e1|]. eapply publish_items_current; [done..|]. rewrite Heq. apply elem_of_app. right. left.
  - split; [done|]. by apply Hm.
Qed.
End items.

Lemma ok_of (r : outcome unit) : r = Ret tt \/ (exists x, r = Throw x) -> ok r.
Proof. by intros [->|[x ->]]. Qed.

Lemma desc_run {D E : Type} (d0 : D) (einv : E -> E) s h s' ev r ev1 e ev2 : reachable d0 einv s -> hist_noself h ->
  run d0 einv h s = (s', ev, r) -> r = Ret tt \/ (exists x, r = Throw x) -> ev = ev1 ++ e :: ev2 ->
  ((forall x, x ∈ ev2 -> ~ removal_of e x) ->
    current s' e /\ forall i, i ∈ descriptors e -> exists p, get_edge_property_e s' i = Ret p) /\
  ((exists x, x ∈ ev2 /\ removal_of e x) -> forall i, i ∈ descriptors e -> get_edge_property_e s' i = UB).
Proof.
  intros Hre Hh Hr Ho ->. pose proof (reachable_wf d0 einv s Hre) as Hwf. apply (desc_iff einv s' (gs_dg s) ev1 e ev2 Hwf).
  eapply run_lsteps; [done..|by apply ok_of].
Qed.

Section final.
Context {E : Type} (einv : E -> E).
Lemma desc_erun s h s' ev r ev1 e ev2 : ereachable einv s -> enoself h ->
  erun einv h s = (s', ev, r) -> r = Ret tt \/ (exists x, r = Throw x) -> ev = ev1 ++ e :: ev2 ->
  ((forall x, x ∈ ev2 -> ~ removal_of e x) ->
    current (es_g s') e /\ forall i, i ∈ descriptors e -> exists p, get_edge_property_e (es_g s') i = Ret p) /\
  ((exists x, x ∈ ev2 /\ removal_of e x) -> forall i, i ∈ descriptors e -> get_edge_property_e (es_g s') i = UB).
Proof. intros Hre Hh Hr Ho. eapply (desc_items einv); [by apply (ereachable_wf einv)|done..|by apply ok_of]. Qed.

Lemma queue_erun s io ev0 h s' ev r : ereachable einv s -> enoself h -> ev0 = [] \/ eg_publish io s = (ev0, Ret tt) ->
  erun einv h s = (s', ev, r) -> r = Ret tt \/ (exists x, r = Throw x) -> forall e, e ∈ q_receive (ev0 ++ ev) -> current (es_g s') e.
Proof. intros Hre Hh H0 Hr Ho. eapply (queued_items einv); [by apply (ereachable_wf einv)|done..|by apply ok_of]. Qed.

Lemma flush_erun s io ev0 h s1 ev r client fuel s' log dn nq' r' : ereachable einv s -> enoself h -> ev0 = [] \/ eg_publish io s = (ev0, Ret tt) ->
  erun einv h s = (s1, ev, r) -> r = Ret tt \/ (exists x, r = Throw x) -> (forall s e, enoself (client s e)) ->
  nq_flush (busy einv client) fuel (s1, []) (nq_of (q_receive (ev0 ++ ev))) = ((s', log), dn, nq', r') ->
  (forall s2 e, (s2, e) ∈ log -> exists u, snd (erun einv (client s2 e) s2) = Ret u) ->
  log.*2 = dn /\ forall s2 e, (s2, e) ∈ log -> current (es_g s2) e.
Proof.
  intros Hre Hh H0 Hr Ho Hc Hf Hl. eapply (flush_queued einv); [by apply (ereachable_wf einv)|done..|by apply ok_of|done|done|].
  intros s2 e Hin. destruct (Hl s2 e Hin) as [u ->]. done.
Qed.
End final.
