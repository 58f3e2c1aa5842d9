(** The events of a call describe exactly what the call did to frames, edges and items. *)
From stdpp Require Import prelude strings gmap gmultiset.
From Verif Require Import ListLib Outcome ItemClass Digraph Bfs TreeView GraphModel GraphOps GraphWf GraphStep
  SpecStore SpecObs GraphStore GraphRefine GraphThms GraphThms2 GraphEmit SpecReplica SpecQueue QueueThms ItemsModel SpecItems ItemsData ItemsOps.

(** *** Counting items *)

Lemma occurrences_app i l1 l2 : occurrences i (l1 ++ l2) = occurrences i l1 + occurrences i l2.
Proof. unfold occurrences. by rewrite list.filter_app, app_length. Qed.
Lemma occurrences_perm i l1 l2 : l1 ≡ₚ l2 -> occurrences i l1 = occurrences i l2.
Proof. intros H. unfold occurrences. by rewrite H. Qed.
Lemma occurrences_one i j : occurrences i [j] = if decide (j = i) then 1 else 0.
Proof. unfold occurrences. cbn. destruct (decide (j = i)); cbn; by rewrite ?filter_cons_True, ?filter_cons_False. Qed.
Lemma occurrences_cons i j l : occurrences i (j :: l) = (if decide (j = i) then 1 else 0) + occurrences i l.
Proof. rewrite <- occurrences_one. apply (occurrences_app i [j] l). Qed.
Lemma occurrences_pos i l : 0 < occurrences i l <-> i ∈ l.
Proof.
  unfold occurrences. split.
  - intros H. destruct (filter (.= i) l) as [|j q] eqn:Hf; [cbn in H; lia|].
    assert (Hj : j ∈ filter (.= i) l) by (rewrite Hf; left). apply elem_of_list_filter in Hj as [-> ?]. done.
  - intros Hi. assert (Hj : i ∈ filter (.= i) l) by by apply elem_of_list_filter.
    destruct (filter (.= i) l); [by apply elem_of_nil in Hj|cbn; lia].
Qed.

(** All items of a frame. *)
Definition bag (m : imap) : list iptr := concat (map_to_list m).*2.
Definition cnt (m : imap) (i : iptr) : nat := occurrences i (bag m).

Lemma cnt_empty i : cnt ∅ i = 0.
Proof. unfold cnt, bag. by rewrite map_to_list_empty. Qed.
Lemma cnt_delete m T i : cnt m i = occurrences i (default [] (m !! T)) + cnt (delete T m) i.
Proof.
  unfold cnt, bag. destruct (m !! T) as [l|] eqn:Hl; cbn.
  - transitivity (occurrences i (l ++ concat (map_to_list (delete T m)).*2)); [|apply occurrences_app].
    apply occurrences_perm.
    rewrite <- (map_to_list_delete m T l) by done. done.
  - by rewrite (delete_notin m T).
Qed.
Lemma cnt_insert m T l i : cnt (<[T := l]> m) i = occurrences i l + cnt (delete T m) i.
Proof. rewrite (cnt_delete _ T). rewrite lookup_insert, delete_insert_delete. done. Qed.
Lemma bag_lists io v m : iorder_ok io -> concat (lists_of io v m) ≡ₚ bag m.
Proof.
  intros Hio. unfold bag, lists_of. rewrite (Hio v m).
  replace ((fun k => default [] (m !! k)) <$> (map_to_list m).*1) with (map_to_list m).*2; [done|].
  rewrite <- list_fmap_compose. apply list_fmap_ext. intros n [k l] H%elem_of_list_lookup_2.
  apply elem_of_map_to_list in H. cbn. by rewrite H.
Qed.
Lemma elem_of_concat {A} (x : A) (q : list (list A)) : x ∈ concat q <-> exists l, x ∈ l /\ l ∈ q.
Proof.
  rewrite elem_of_list_In, in_concat. setoid_rewrite elem_of_list_In. naive_solver.
Qed.
Lemma elem_of_bag m i : i ∈ bag m <-> exists T l, m !! T = Some l /\ i ∈ l.
Proof.
  unfold bag. transitivity (exists l : list iptr, i ∈ l /\ l ∈ (map_to_list m).*2); [apply elem_of_concat|]. split.
  - intros (l & Hi & ([T l'] & -> & H)%elem_of_list_fmap). apply elem_of_map_to_list in H. eauto.
  - intros (T & l & H & Hi). exists l. split; [done|]. apply elem_of_list_fmap. exists (T, l).
    by rewrite elem_of_map_to_list.
Qed.

Section log.
Context {E : Type} (einv : E -> E).
Local Notation dg_wf := (dg_wf (D := imap) einv).
Local Notation lstep := (lstep (D := imap) einv).
Local Notation lsteps := (lsteps (D := imap) einv).
Local Notation dg s := (gs_dg (es_g s)).
Implicit Types s : est E.
Implicit Types g : digraph imap E.

(** Frames and edges of the replica. *)
Definition shape g (r : replica) : Prop :=
  (forall f, f ∈ r_frames r <-> is_Some (dg_map g !! f)) /\
  (forall a b, (a, b) ∈ r_edges r <->
     exists e, e ∈ dg_edges g /\ dg_map g !! a = Some (e_src e) /\ dg_map g !! b = Some (e_tgt e)).
Definition mir g (r : replica) : Prop :=
  shape g r /\ forall f i, multiplicity (f, i) (r_items r) = cnt (items_of g f) i.

Lemma shape_store g st r : dg_wf g -> dgrepr g st ->
  shape g r <-> r_frames r = dom (st_frames st) /\ r_edges r = dom (st_edges st).
Proof.
  intros Hwf Hr. assert (H1 : forall f, f ∈ dom (st_frames st) <-> is_Some (dg_map g !! f)).
  { intros f. rewrite elem_of_dom. by apply (dgrepr_known einv). }
  assert (H2 : forall a b, (a, b) ∈ dom (st_edges st) <->
     exists e, e ∈ dg_edges g /\ dg_map g !! a = Some (e_src e) /\ dg_map g !! b = Some (e_tgt e)).
  { intros a b. rewrite elem_of_dom. split.
    - intros [p (e & ? & ? & ? & _)%(dr_edges _ _ Hr)]. eauto.
    - intros (e & ? & ? & ?). exists (e_prop e). apply (dr_edges _ _ Hr). eauto. }
  split.
  - intros [G1 G2]. split; apply set_eq; [intros f; by rewrite G1, H1|intros [a b]; by rewrite G2, H2].
  - intros [G1 G2]. split; [intros f; by rewrite G1, H1|intros a b; by rewrite G2, H2].
Qed.

Lemma store_of g : dg_wf g -> exists st, dgrepr g st.
Proof.
  intros Hwf. destruct (store_exists einv (GSt g [] ∅)) as [st Hst]; [done|]. exists st.
  by apply (observes_dgrepr einv (GSt g [] ∅)).
Qed.

Lemma known_mem g st f v : dg_wf g -> dgrepr g st -> dg_map g !! f = Some v -> f ∈ dom (st_frames st).
Proof. intros Hwf Hr Hf. apply elem_of_dom, (dgrepr_known einv g st); [done..|]. eauto. Qed.
Lemma edge_mem g st a b u v e : dg_wf g -> dgrepr g st -> dg_map g !! a = Some u -> dg_map g !! b = Some v ->
  bg_edge g u v = Some e -> (a, b) ∈ dom (st_edges st).
Proof.
  intros Hwf Hr Ha Hb He. apply (bg_edge_iff einv) in He as (He & <- & <-); [|done].
  apply elem_of_dom. exists (e_prop e). apply (dr_edges _ _ Hr). eauto.
Qed.
Lemma edge_not_mem g st a b u v : dg_wf g -> dgrepr g st -> dg_map g !! a = Some u -> dg_map g !! b = Some v ->
  bg_edge g u v = None -> (a, b) ∉ dom (st_edges st).
Proof.
  intros Hwf Hr Ha Hb He [p (e & He' & Ha' & Hb' & _)%(dr_edges _ _ Hr)]%elem_of_dom.
  assert (bg_edge g u v = Some e) by (apply (bg_edge_iff einv); [done|]; split; [done|]; split; congruence). congruence.
Qed.

Lemma lstep_shape g ev g' r : dg_wf g -> lstep g ev g' -> shape g r ->
  (forall f i, EvFrameRemoved f ∈ ev -> (f, i) ∉ r_items r) ->
  exists r', replay ev r = Some r' /\ shape g' r' /\ r_items r' = r_items r.
Proof.
  intros Hwf Hl Hsh Hit. pose proof (lstep_wf einv _ _ _ Hwf Hl) as Hwf'.
  destruct (store_of g Hwf) as [st Hr]. apply (shape_store g st r Hwf Hr) in Hsh as [Hfr Hed].
  assert (Hone : forall x r', ev = [x] -> apply_event x r = Some r' -> shape g' r' -> r_items r' = r_items r ->
     exists r', replay ev r = Some r' /\ shape g' r' /\ r_items r' = r_items r).
  { intros x r' -> Ha Hs' Hi'. exists r'. split; [|done]. cbn. by rewrite Ha. }
  destruct Hl as [g f d Hn|g o t p fo ft Ho Ht Hne He|g o t e1 e2 fo ft Ho Ht He1 He2|
                  g o t p e1 e2 fo ft Ho Ht He1 He2|g v f Hm Hd|g v d].
  - eapply Hone; [done| | |].
    + apply apply_intro. split; [|done]. rewrite Hfr. intros [v Hv]%elem_of_dom%(dgrepr_known einv g); [congruence|done..].
    + eapply (shape_store _ _ _ Hwf'); [by apply (dgrepr_add_vertex einv)|]. cbn.
      rewrite dom_insert_L. by rewrite Hfr, Hed.
    + done.
  - eapply Hone; [done| | |].
    + apply apply_intro. cbn. rewrite Hfr, Hed. split; [by eapply (known_mem g st fo o)|]. split; [by eapply (known_mem g st ft t)|].
      split; [by eapply (edge_not_mem g st fo ft o t)|]. split; [|done]. eapply (edge_not_mem g st ft fo t o); [done..|].
      by eapply (wf_edge_sym einv).
    + eapply (shape_store _ _ _ Hwf'); [by apply (dgrepr_add2 einv)|]. cbn.
      rewrite !dom_insert_L, ?Hfr, ?Hed. split; [done|]. set_solver.
    + done.
  - eapply Hone; [done| | |].
    + apply apply_intro. rewrite Hed. split; [by eapply (edge_mem g st fo ft)|]. split; [by eapply (edge_mem g st ft fo)|done].
    + eapply (shape_store _ _ _ Hwf'); [by eapply (dgrepr_rem2 einv g st o t e1 e2 fo ft)|]. cbn. rewrite !dom_delete_L, ?Hfr, ?Hed.
      split; [done|]. set_solver.
    + done.
  - eapply Hone; [done| | |].
    + apply apply_intro. rewrite Hed. split; [by eapply (edge_mem g st fo ft)|]. split; [by eapply (edge_mem g st ft fo)|done].
    + eapply (shape_store _ _ _ Hwf'); [by eapply (dgrepr_set2 einv g st o t p e1 e2 fo ft)|]. cbn. rewrite !dom_insert_L, ?Hfr, ?Hed.
      split; [done|]. pose proof (edge_mem g st fo ft o t e1 Hwf Hr Ho Ht He1).
      pose proof (edge_mem g st ft fo t o e2 Hwf Hr Ht Ho He2). set_solver.
    + done.
  - eapply Hone; [done| | |].
    + apply apply_intro. split; [rewrite Hfr; by eapply (known_mem g st f v)|]. split; [|done]. apply bare_spec. split.
      * intros a b. rewrite Hed. intros [p (e & He & Ha & Hb & _)%(dr_edges _ _ Hr)]%elem_of_dom.
        destruct (wf_degree0 g v Hd e He) as [Hs Ht]. split; intros ->; congruence.
      * intros f' i Hi ->. by eapply Hit; [left|].
    + eapply (shape_store _ _ _ Hwf'); [by eapply (dgrepr_remove_vertex einv g st v f)|]. cbn. by rewrite dom_delete_L, ?Hfr, ?Hed.
    + done.
  - exists r. split; [done|]. split; [|done]. destruct (store_of _ Hwf') as [st' Hr'].
    assert (Hs0 : shape g r) by by eapply (shape_store g st r). by destruct Hs0.
Qed.

Lemma lsteps_shape g ev g' r : dg_wf g -> lsteps g ev g' -> shape g r ->
  (forall f i, EvFrameRemoved f ∈ ev -> (f, i) ∉ r_items r) ->
  exists r', replay ev r = Some r' /\ shape g' r' /\ r_items r' = r_items r.
Proof.
  intros Hwf Hl. revert r Hwf. induction Hl as [g|g1 ev1 g2 ev2 g3 H1 H2 IH]; intros r Hwf Hsh Hit; [by exists r|].
  destruct (lstep_shape g1 ev1 g2 r) as (r1 & Hr1 & Hs1 & Hi1); try done.
  { intros f i Hf. apply Hit. apply elem_of_app. by left. }
  destruct (IH r1) as (r2 & Hr2 & Hs2 & Hi2); try done.
  { by eapply lstep_wf. }
  { intros f i Hf. rewrite Hi1. apply Hit. apply elem_of_app. by right. }
  exists r2. rewrite replay_app, Hr1. split; [done|]. split; [done|]. congruence.
Qed.


(** *** Content of frames under calls of the base class *)

Lemma tracks_items (g g' : gst imap E) f : dg_wf (gs_dg g) -> dg_wf (gs_dg g') -> tracks (.= (∅ : imap)) g g' ->
  items_of (gs_dg g') f = ∅ \/ items_of (gs_dg g') f = items_of (gs_dg g) f.
Proof.
  intros Hwf Hwf' [_ Ht]. destruct (dg_map (gs_dg g') !! f) as [v|] eqn:Hf; [|left; unfold items_of; by rewrite Hf].
  destruct (map_vrec einv _ f v Hwf' Hf) as (r & Hr & Hn).
  assert (Hd : items_of (gs_dg g') f = v_data r) by (unfold items_of; by rewrite Hf, Hr). rewrite Hd.
  apply (bg_vrec_iff einv) in Hr as [Hr Hid]; [|done]. destruct (Ht r Hr) as [Hin|[_ ->]]; [|by left]. right.
  unfold items_of. assert (dg_map (gs_dg g) !! f = Some v) as -> by (apply (wf_map einv _ Hwf); eauto).
  assert (bg_vrec (gs_dg g) v = Some r) as -> by by apply (bg_vrec_iff einv). done.
Qed.

Lemma tracks_items_same (g g' : gst imap E) ev f : dg_wf (gs_dg g) -> lsteps (gs_dg g) ev (gs_dg g') -> tracks (.= (∅ : imap)) g g' ->
  (EvFrameRemoved f ∈ ev -> items_of (gs_dg g) f = ∅) -> items_of (gs_dg g') f = items_of (gs_dg g) f.
Proof.
  intros Hwf Hl Ht Hev. pose proof (lsteps_wf einv _ _ _ Hwf Hl) as Hwf'.
  destruct (decide (EvFrameRemoved f ∈ ev)) as [Hin|Hin].
  - rewrite Hev by done. destruct (tracks_items g g' f) as [?| ->]; [done..|]. by apply Hev.
  - destruct (dg_map (gs_dg g) !! f) as [v|] eqn:Hf.
    + pose proof (lsteps_vertex einv _ _ _ f v Hwf Hl Hf Hin) as Hf'. unfold items_of. rewrite Hf, Hf'.
      destruct (map_vrec einv _ f v Hwf' Hf') as (r' & Hr' & Hn). rewrite Hr'.
      apply (bg_vrec_iff einv) in Hr' as [Hr' <-]; [|done]. destruct (proj2 Ht r' Hr') as [Hin'|[Hge _]].
      * assert (bg_vrec (gs_dg g) (v_id r') = Some r') as -> by by apply (bg_vrec_iff einv). done.
      * destruct (map_vrec einv _ f _ Hwf Hf) as (r & Hr & _).
        apply (bg_vrec_iff einv) in Hr as [Hr Hid]; [|done]. apply (wf_vbound einv _ Hwf) in Hr. lia.
    + assert (H0 : items_of (gs_dg g) f = ∅) by (unfold items_of; by rewrite Hf).
      rewrite H0. by destruct (tracks_items g g' f) as [?| ->].
Qed.

(** *** The invariant *)

Definition listed (h : gmap iptr item) (m : imap) : Prop :=
  forall T l, m !! T = Some l -> l <> [] /\ Forall (fun i => exists x, h !! i = Some x /\ it_type x = T) l.
Definition Inv s : Prop := dg_wf (dg s) /\ forall f, listed (es_heap s) (items_of (dg s) f).

Definition typed (h h' : gmap iptr item) : Prop := forall i x, h !! i = Some x -> exists x', h' !! i = Some x' /\ it_type x' = it_type x.
Lemma listed_mono h h' m : typed h h' -> listed h m -> listed h' m.
Proof.
  intros Hh Hm T l Hl. destruct (Hm T l Hl) as [Hne Hall]. split; [done|]. eapply list.Forall_impl; [done|].
  intros i (x & Hx & HT). destruct (Hh i x Hx) as (x' & ? & ?). exists x'. split; congruence.
Qed.
Lemma typed_refl h : typed h h.
Proof. intros i x ?. eauto. Qed.
Lemma typed_frame h i x f : h !! i = Some x -> typed h (<[i := ItemV (it_class x) f]> h).
Proof.
  intros Hi j y Hj. destruct (decide (j = i)) as [->|Hne].
  - rewrite lookup_insert. assert (y = x) as -> by congruence. eexists. split; [done|]. done.
  - rewrite lookup_insert_ne by done. eauto.
Qed.
Lemma typed_new h i x : h !! i = None -> typed h (<[i := x]> h).
Proof. intros Hi j y Hj. exists y. rewrite lookup_insert_ne by congruence. done. Qed.

Lemma listed_empty h : listed h ∅.
Proof. intros T l. by rewrite lookup_empty. Qed.
Lemma listed_insert h m T l : listed h m -> l <> [] -> Forall (fun i => exists x, h !! i = Some x /\ it_type x = T) l ->
  listed h (<[T := l]> m).
Proof.
  intros Hm Hne Hall T' l' [[<- <-]|[_ Hl]]%lookup_insert_Some; [done|]. by apply Hm.
Qed.
Lemma listed_delete h m T : listed h m -> listed h (delete T m).
Proof. intros Hm T' l' [_ Hl]%lookup_delete_Some. by apply Hm. Qed.

Lemma listed_shrink h m T l l' i : listed h m -> m !! T = Some l -> erase_first i l = Some l' -> listed h (shrink T l' m).
Proof.
  intros Hm Hl Her. unfold shrink. destruct (decide (l' = [])) as [_|Hne]; [by apply listed_delete|].
  apply listed_insert; [done..|]. destruct (Hm T l Hl) as [_ Hall].
  apply erase_first_some in Her as (l1 & l2 & -> & _ & ->). rewrite list.Forall_app, list.Forall_cons in Hall.
  apply list.Forall_app. tauto.
Qed.
Lemma listed_cut h m T l k : listed h m -> m !! T = Some l -> k < length l -> listed h (cut T k l m).
Proof.
  intros Hm Hl Hk. unfold cut. destruct (decide (S k = length l)) as [_|Hne]; [by apply listed_delete|].
  destruct (Hm T l Hl) as [_ Hall]. apply listed_insert; [done| |].
  - intros H. apply (f_equal length) in H. rewrite app_length, take_length, drop_length in H. cbn in H. lia.
  - apply list.Forall_app. split; [by apply Forall_take|by apply Forall_drop].
Qed.

Lemma Inv_put f v m h s : Inv s -> dg_map (dg s) !! f = Some v -> typed (es_heap s) h -> listed h m ->
  Inv (with_heap h (put f m s)).
Proof.
  intros [Hwf Hit] Hf Hh Hm. split; [by apply wf_put|]. intros f'. cbn [es_heap with_heap].
  change (dg (with_heap h (put f m s))) with (dg (put f m s)). rewrite (items_of_put einv f v) by done.
  destruct (decide (f' = f)); [done|]. by eapply listed_mono.
Qed.
Lemma Inv_nonempty s f : Inv s -> forall k l, items_of (dg s) f !! k = Some l -> l <> [].
Proof. intros [_ Hit] k l Hl. by apply (Hit f k l Hl). Qed.

(** *** Replaying item events *)

Lemma shape_put f m s r : shape (dg s) r -> shape (dg (put f m s)) r.
Proof. done. Qed.

Lemma mir_put_added f v m s r i : dg_wf (dg s) -> mir (dg s) r -> dg_map (dg s) !! f = Some v ->
  (forall j, cnt m j = cnt (items_of (dg s) f) j + (if decide (j = i) then 1 else 0)) ->
  exists r', replay [EvItemAdded f i] r = Some r' /\ mir (dg (put f m s)) r'.
Proof.
  intros Hwf [Hsh Hit] Hf Hc. eexists. split.
  - cbn [replay]. rewrite (apply_intro (EvItemAdded f i) r _ (conj (proj2 (proj1 Hsh f) (ex_intro _ v Hf)) eq_refl)). done.
  - split; [by destruct Hsh|]. intros f' j. cbn [r_items]. rewrite (items_of_put einv f v) by done.
    rewrite multiplicity_disj_union, Hit. destruct (decide (f' = f)) as [->|Hne].
    + rewrite Hc. f_equal. destruct (decide (j = i)) as [->|Hj]; [apply multiplicity_singleton|].
      apply multiplicity_singleton_ne. congruence.
    + rewrite multiplicity_singleton_ne by congruence. lia.
Qed.

Lemma mir_removed f l s r : mir (dg s) r -> forall v m, dg_wf (dg s) -> dg_map (dg s) !! f = Some v ->
  (forall j, cnt (items_of (dg s) f) j = cnt m j + occurrences j l) ->
  exists r', replay (EvItemRemoved f <$> l) r = Some r' /\ mir (dg (put f m s)) r'.
Proof.
  intros Hm v m Hwf Hf Hc.
  assert (G : forall l0 r0, shape (dg s) r0 -> (forall f' j, multiplicity (f', j) (r_items r0) =
      if decide (f' = f) then cnt m j + occurrences j l0 else cnt (items_of (dg s) f') j) ->
    exists r', replay (EvItemRemoved f <$> l0) r0 = Some r' /\ mir (dg (put f m s)) r').
  { induction l0 as [|i l0 IH]; intros r0 Hs0 H0; cbn [fmap list_fmap replay].
    - exists r0. split; [done|]. split; [done|]. intros f' j. rewrite (items_of_put einv f v) by done. rewrite H0.
      destruct (decide (f' = f)); [cbn; lia|done].
    - assert (Hin : (f, i) ∈ r_items r0).
      { apply elem_of_multiplicity. rewrite H0, decide_True, occurrences_cons, decide_True by done. lia. }
      rewrite (apply_intro (EvItemRemoved f i) r0 _ (conj Hin eq_refl)). apply IH; [by destruct Hs0|].
      intros f' j. cbn [r_items]. rewrite multiplicity_difference, H0. destruct (decide (f' = f)) as [->|Hne].
      + rewrite occurrences_cons. destruct (decide (j = i)) as [->|Hj].
        * rewrite multiplicity_singleton, decide_True by done. lia.
        * rewrite multiplicity_singleton_ne by congruence. rewrite decide_False by done. lia.
      + rewrite multiplicity_singleton_ne by congruence. lia. }
  destruct Hm as [Hsh Hit]. apply G; [done|]. intros f' j. rewrite Hit.
  destruct (decide (f' = f)) as [->|]; [|done]. apply Hc.
Qed.

Definition follows s (ev : list event) s' : Prop :=
  forall r, mir (dg s) r -> exists r', replay ev r = Some r' /\ mir (dg s') r'.
Lemma follows_refl s : follows s [] s.
Proof. intros r Hr. by exists r. Qed.
Lemma follows_trans s1 s2 s3 ev1 ev2 : follows s1 ev1 s2 -> follows s2 ev2 s3 -> follows s1 (ev1 ++ ev2) s3.
Proof.
  intros H1 H2 r Hr. destruct (H1 r Hr) as (r1 & Hr1 & Hm1). destruct (H2 r1 Hm1) as (r2 & Hr2 & Hm2).
  exists r2. by rewrite replay_app, Hr1.
Qed.
Lemma follows_same s s' : dg s' = dg s -> follows s [] s'.
Proof. intros H r Hr. exists r. by rewrite H. Qed.

Definition fine {A} (m : call (est E) A) : Prop := forall s s' ev r, Inv s -> m s = (s', ev, r) -> ok r ->
  Inv s' /\ follows s ev s'.

Lemma fine_bind {A B} (m : call (est E) A) (k : A -> call (est E) B) : fine m -> (forall a, fine (k a)) -> fine (cbind m k).
Proof.
  intros Hm Hk s s' ev r Hi Hr Hok.
  apply cbind_inv in Hr as [(s1 & ev1 & a & ev2 & H1 & H2 & ->)|[(x & Hx & ->)|[[H ->]|[H ->]]]];
    [| |by destruct Hok..].
  - destruct (Hm _ _ _ _ Hi H1) as [I1 F1]; [done|]. destruct (Hk a _ _ _ _ I1 H2) as [I2 F2]; [done|].
    split; [done|]. by eapply follows_trans.
  - by destruct (Hm _ _ _ _ Hi Hx).
Qed.
Lemma fine_read {A} (f : est E -> outcome A) : fine (cread f).
Proof. intros s s' ev r Hi [= <- <- <-] _. split; [done|]. apply follows_refl. Qed.
Lemma fine_ret {A} (a : A) : fine (cret a).
Proof. intros s s' ev r Hi [= <- <- <-] _. split; [done|]. apply follows_refl. Qed.

(** A call of the base class. *)
Lemma lift_inv {A} (m : call (gst imap E) A) s s' ev r : lift m s = (s', ev, r) ->
  m (es_g s) = (es_g s', ev, r) /\ es_heap s' = es_heap s.
Proof. unfold lift. destruct (m (es_g s)) as [[g ev1] r1]. by intros [= <- <- <-]. Qed.

Lemma fine_lsteps s s' ev : Inv s -> es_heap s' = es_heap s -> lsteps (dg s) ev (dg s') -> tracks (.= ∅) (es_g s) (es_g s') ->
  (forall f, EvFrameRemoved f ∈ ev -> items_of (dg s) f = ∅) -> Inv s' /\ follows s ev s'.
Proof.
  intros [Hwf Hit] Hh Hl Ht Hev. pose proof (lsteps_wf einv _ _ _ Hwf Hl) as Hwf'.
  assert (Hitems : forall f, items_of (dg s') f = items_of (dg s) f).
  { intros f. eapply tracks_items_same; eauto. }
  split.
  - split; [done|]. intros f. rewrite Hitems, Hh. apply Hit.
  - intros r [Hsh Hm]. destruct (lsteps_shape (dg s) ev (dg s') r) as (r' & Hr' & Hs' & Hi'); try done.
    { intros f i Hf Hin. pose proof (proj1 (elem_of_multiplicity _ _) Hin) as Hp. rewrite Hm, Hev in Hp by done. rewrite cnt_empty in Hp. lia. }
    exists r'. split; [done|]. split; [done|]. intros f i. by rewrite Hi', Hm, Hitems.
Qed.

Definition base_op (op : gop imap E) : Prop :=
  op_noself op /\ match op with OEmplaceFrame _ d => d = ∅ | OSetFrameData _ _ => False | _ => True end.

Lemma fine_gstep ord op s s' ev r : Inv s -> lift (gstep ∅ einv ord op) s = (s', ev, r) -> ok r -> base_op op ->
  (forall f, op = ORemoveFrame f -> items_of (dg s) f = ∅) -> Inv s' /\ follows s ev s'.
Proof.
  intros Hi [Hs Hh]%lift_inv Hok [Hns Hop] Hrem. eapply fine_lsteps; [done|done| | |].
  - eapply (gstep_lsteps ∅ einv); [by destruct Hi|done..].
  - by eapply (gstep_tracks ∅ einv (.= ∅)).
  - intros f Hf. assert (Hop2 : op = ORemoveFrame f \/ op <> ORemoveFrame f).
    { destruct op as [| | | | | | | | |f0| | | | | | | | | |]; try (by right). destruct (decide (f0 = f)) as [->|]; [by left|right; congruence]. }
    destruct Hop2 as [->|Hne]; [by apply Hrem|]. exfalso.
    pose proof (gstep_frame_removed ∅ einv ord op f Hne _ _ _ _ Hs) as Hall. rewrite list.Forall_forall in Hall. by eapply Hall.
Qed.

Lemma fine_disconnect ord f : fine (lift (disconnect_frame (E := E) ord f)).
Proof. intros s s' ev r Hi Hr Hok. by eapply (fine_gstep ord (ODisconnect f)). Qed.

Lemma fine_add_item_to_frame f i : fine (add_item_to_frame f i).
Proof.
  intros s s' ev r Hi Hr Hok. pose proof Hi as [Hwf Hit]. destruct (dg_map (dg s) !! f) as [v|] eqn:Hf; cycle 1.
  { rewrite add_item_to_frame_unknown in Hr by done. injection Hr as <- <- <-. split; [done|apply follows_refl]. }
  destruct (es_heap s !! i) as [x|] eqn:Hx; cycle 1.
  { exfalso. unfold add_item_to_frame in Hr. erewrite cbind_read_ret in Hr by by eapply check_some.
    erewrite cbind_read_ub in Hr by (unfold deref; by rewrite Hx). injection Hr as <- <- <-. by destruct Hok. }
  rewrite (add_item_to_frame_eq einv f v i x) in Hr by done. injection Hr as <- <- <-.
  assert (Hty : typed (es_heap s) (<[i := ItemV (it_class x) f]> (es_heap s))) by by apply typed_frame.
  split.
  - eapply Inv_put; [done..|]. apply listed_insert.
    + by eapply listed_mono.
    + by destruct (default [] _).
    + apply list.Forall_app. split.
      * destruct (items_of (dg s) f !! it_type x) as [l|] eqn:Hl; cbn; [|constructor].
        by destruct (listed_mono _ _ _ Hty (Hit f) _ l Hl).
      * apply list.Forall_singleton. eexists. rewrite lookup_insert. done.
  - intros r Hm. apply (mir_put_added f v); [done..|]. intros j. rewrite cnt_insert, occurrences_app, occurrences_one.
    rewrite (cnt_delete (items_of (dg s) f) (it_type x)). destruct (decide (i = j)), (decide (j = i)); try congruence; lia.
Qed.

Lemma fine_clear_frame io f : iorder_ok io -> fine (clear_frame io f).
Proof.
  intros Hio s s' ev r Hi Hr Hok. pose proof Hi as [Hwf Hit]. destruct (dg_map (dg s) !! f) as [v|] eqn:Hf; cycle 1.
  { rewrite clear_frame_unknown in Hr by done. injection Hr as <- <- <-. split; [done|apply follows_refl]. }
  rewrite (clear_frame_eq einv io f v) in Hr by (try done; by apply Inv_nonempty). injection Hr as <- <- <-. split.
  - apply (Inv_put f v ∅ (es_heap s) s); [done..|apply typed_refl|apply listed_empty].
  - intros r Hm. apply (mir_removed f _ s r Hm v); [done..|]. intros j. rewrite cnt_empty. cbn.
    unfold cnt. symmetry. apply occurrences_perm. by apply bag_lists.
Qed.

Lemma fine_remove_item i : fine (remove_item i).
Proof.
  intros s s' ev r Hi Hr Hok. pose proof Hi as [Hwf Hit]. destruct (es_heap s !! i) as [x|] eqn:Hx; cycle 1.
  { exfalso. unfold remove_item in Hr. erewrite cbind_read_ub in Hr by (unfold deref; by rewrite Hx).
    injection Hr as <- <- <-. by destruct Hok. }
  destruct (dg_map (dg s) !! it_frame x) as [v|] eqn:Hf; cycle 1.
  { rewrite (remove_item_no_frame i x) in Hr by done. injection Hr as <- <- <-. split; [done|apply follows_refl]. }
  destruct (items_of (dg s) (it_frame x) !! it_type x) as [l|] eqn:Hl; cycle 1.
  { rewrite (remove_item_no_type einv i x v) in Hr by done. injection Hr as <- <- <-. split; [done|apply follows_refl]. }
  destruct (erase_first i l) as [l'|] eqn:Her; cycle 1.
  { apply erase_first_none in Her. rewrite (remove_item_not_there einv i x v l) in Hr by done.
    injection Hr as <- <- <-. split; [done|apply follows_refl]. }
  rewrite (remove_item_eq einv i x v l l') in Hr by done. injection Hr as <- <- <-. split.
  - eapply Inv_put; [done..|by apply typed_frame|]. eapply listed_shrink; [|done..].
    eapply listed_mono; [by apply typed_frame|done].
  - intros r Hm. apply (mir_removed (it_frame x) [i] s r Hm v); [done..|]. intros j. rewrite occurrences_one.
    rewrite (cnt_delete (items_of (dg s) (it_frame x)) (it_type x)), Hl. cbn [from_option id].
    apply erase_first_some in Her as (l1 & l2 & -> & _ & ->). rewrite occurrences_app, occurrences_cons.
    unfold shrink. destruct (decide (l1 ++ l2 = [])) as [He|He].
    + apply app_eq_nil in He as [-> ->]. cbn. lia.
    + rewrite cnt_insert, occurrences_app. lia.
Qed.

Lemma remove_item_it_inv f alias T itf k s s' ev r : Inv s -> remove_item_it f alias T itf k s = (s', ev, r) -> ok r ->
  (s' = s /\ ev = [] /\ exists e, r = Throw e) \/
  (itf = f /\ exists v l i x, dg_map (dg s) !! f = Some v /\ items_of (dg s) f !! T = Some l /\ l !! k = Some i /\
     es_heap s !! i = Some x /\ it_type x = T /\ it_frame x = f).
Proof.
  intros [Hwf Hit] Hr Hok. unfold remove_item_it in Hr. destruct (dg_map (dg s) !! f) as [v|] eqn:Hf; cycle 1.
  { erewrite cbind_read_throw in Hr by by apply check_none. injection Hr as <- <- <-. left. eauto. }
  erewrite cbind_read_ret in Hr by by eapply (check_some einv).
  destruct (dg_map (dg s) !! itf) as [w|] eqn:Hw; cycle 1.
  { exfalso. erewrite cbind_read_ub in Hr by by rewrite get_items_none. injection Hr as <- <- <-. by destruct Hok. }
  destruct (items_of (dg s) itf !! T) as [l|] eqn:Hl; cycle 1.
  { exfalso. erewrite cbind_read_ub in Hr by by erewrite (get_items_some einv), Hl. injection Hr as <- <- <-. by destruct Hok. }
  destruct (l !! k) as [i|] eqn:Hk; cycle 1.
  { exfalso. erewrite cbind_read_ub in Hr by by erewrite (get_items_some einv), Hl, Hk. injection Hr as <- <- <-. by destruct Hok. }
  destruct (Hit itf T l Hl) as [_ Hall]. destruct (proj1 (list.Forall_lookup _ _) Hall k i Hk) as (x & Hx & HT).
  erewrite cbind_read_ret with (a := i) in Hr; cycle 1.
  { erewrite (get_items_some einv), Hl, Hk by done. unfold cast_all. cbn. rewrite Hx. unfold is_a.
    rewrite (bool_decide_eq_true_2 (type_index (it_class x) = T)) by done. by rewrite orb_true_r. }
  erewrite cbind_read_ret in Hr by (unfold deref; by rewrite Hx).
  destruct (decide (it_frame x = f)) as [Hfr|Hfr]; cycle 1.
  { exfalso. erewrite cbind_read_ub in Hr by by rewrite bool_decide_eq_false_2. injection Hr as <- <- <-. by destruct Hok. }
  erewrite cbind_read_ret in Hr by by rewrite bool_decide_eq_true_2.
  erewrite cbind_read_ret in Hr by done. rewrite (bg_vertex_some _ _ _ Hf) in Hr.
  erewrite cbind_read_ret in Hr by by apply (items_at_some einv).
  destruct (items_of (dg s) f !! T) as [l2|] eqn:Hl2; cycle 1.
  { injection Hr as <- <- <-. left. eauto. }
  destruct (decide (itf = f)) as [->|Hne]; cycle 1.
  { exfalso. erewrite cbind_read_ub in Hr by by rewrite bool_decide_eq_false_2. injection Hr as <- <- <-. by destruct Hok. }
  right. split; [done|]. assert (l2 = l) as -> by congruence. exists v, l, i, x. done.
Qed.

Lemma cnt_cut T k l m i : m !! T = Some l -> l !! k = Some i -> (S k < length l \/ length l = 1) ->
  forall j, cnt m j = cnt (cut T k l m) j + occurrences j [i].
Proof.
  intros Hl Hk Hlen j. rewrite (cnt_delete m T), Hl. cbn [from_option id].
  assert (Ho : occurrences j l = occurrences j (take k l ++ i :: drop (S k) l)) by by rewrite take_drop_middle.
  rewrite Ho, occurrences_app, occurrences_cons. unfold cut. rewrite occurrences_one. destruct (decide (S k = length l)) as [He|He].
  - destruct Hlen as [?|H1]; [lia|]. assert (k = 0) as -> by lia. destruct l as [|a [|b l]]; try done. cbn. lia.
  - rewrite cnt_insert, occurrences_app. cbn. lia.
Qed.

Lemma remove_item_it_fine f alias T itf k s s' ev r : Inv s -> remove_item_it f alias T itf k s = (s', ev, r) -> ok r ->
  Inv s' /\ (alias = false -> (S k < length (items_in s f T) \/ length (items_in s f T) = 1) -> follows s ev s').
Proof.
  intros Hi Hr Hok. destruct (remove_item_it_inv _ _ _ _ _ _ _ _ _ Hi Hr Hok)
    as [(-> & -> & _)|(-> & v & l & i & x & Hf & Hl & Hk & Hx & HT & Hfr)].
  { split; [done|]. intros _ _. apply follows_refl. }
  pose proof Hi as [Hwf Hit].
  rewrite (remove_item_it_eq einv f alias T k i x v l) in Hr by done. injection Hr as <- <- <-. split.
  - eapply Inv_put; [done..|by apply typed_frame|]. apply listed_cut; [|done|by eapply lookup_lt_Some].
    eapply listed_mono; [by apply typed_frame|done].
  - intros -> Hlen. rewrite (items_in_eq einv) in Hlen by done. rewrite Hl in Hlen. cbn in Hlen.
    intros r Hm. apply (mir_removed f [i] s r Hm v); [done..|]. by apply cnt_cut.
Qed.

Lemma fine_eg_remove_frame io f : iorder_ok io -> fine (eg_remove_frame io f).
Proof.
  intros Hio s s' ev r Hi Hr Hok. unfold eg_remove_frame in Hr.
  apply cbind_inv in Hr as [(s1 & ev1 & a & ev2 & H1 & H2 & ->)|[(x & Hx & ->)|[[H ->]|[H ->]]]];
    [| |by destruct Hok..].
  - destruct (fine_clear_frame io f Hio s s1 ev1 (Ret a)) as [I1 F1]; [done..|].
    destruct (fine_gstep (fun _ _ _ l => l) (ORemoveFrame f) s1 s' ev2 r) as [I2 F2]; [done..| |].
    { intros f' [= <-]. destruct Hi as [Hwf Hit]. destruct (dg_map (dg s) !! f) as [v|] eqn:Hf.
      - rewrite (clear_frame_eq einv io f v) in H1 by (try done; by apply Inv_nonempty). injection H1 as <- _ _.
        rewrite (items_of_put einv f v) by done. by rewrite decide_True.
      - rewrite clear_frame_unknown in H1 by done. done. }
    split; [done|]. by eapply follows_trans.
  - by destruct (fine_clear_frame io f Hio s s' ev (Throw x)).
Qed.

Lemma fine_for_frames m fs : (forall f, fine (m f)) -> fine (for_frames (E := E) m fs).
Proof.
  intros Hm. induction fs as [|f fs IH]; cbn [for_frames]; [apply fine_ret|]. apply fine_bind; [done|intros _; exact IH].
Qed.

Lemma fine_clear ord io : iorder_ok io -> fine (clear (E := E) ord io).
Proof.
  intros Hio. unfold clear. apply fine_bind; [apply fine_read|intros fs]. apply fine_bind; [|intros _].
  - apply fine_for_frames. intros f. apply fine_disconnect.
  - apply fine_for_frames. intros f. by apply fine_eg_remove_frame.
Qed.

Lemma fine_set_item_frame i f : fine (set_item_frame (E := E) i f).
Proof.
  intros s s' ev r Hi. unfold set_item_frame. destruct (es_heap s !! i) as [x|] eqn:Hx; intros [= <- <- <-] Hok; [|by destruct Hok].
  split; [|by apply follows_same]. destruct Hi as [Hwf Hit]. split; [done|]. intros f'. cbn [es_heap].
  eapply listed_mono; [by apply typed_frame|apply Hit].
Qed.
Lemma fine_new_item i c f : fine (new_item (E := E) i c f).
Proof.
  intros s s' ev r Hi. unfold new_item. destruct (es_heap s !! i) as [x|] eqn:Hx; intros [= <- <- <-] Hok; [by destruct Hok|].
  split; [|by apply follows_same]. destruct Hi as [Hwf Hit]. split; [done|]. intros f'. cbn [es_heap].
  eapply listed_mono; [by apply typed_new|apply Hit].
Qed.

Lemma estep_fine ord io op s s' ev r : Inv s -> iorder_ok io -> eop_ok op -> estep einv ord io op s = (s', ev, r) -> ok r ->
  Inv s' /\ (logged s op -> follows s ev s').
Proof.
  intros Hi Hio Hop Hr Hok.
  assert (G : forall m : call (est E) unit, fine m -> m s = (s', ev, r) -> Inv s' /\ (logged s op -> follows s ev s')).
  { intros m Hm Hmr. destruct (Hm _ _ _ _ Hi Hmr Hok). auto. }
  destruct op as [op|i c f|i f|i|f i|i|f alias T itf k|f|]; cbn [estep] in Hr.
  - assert (Hb : (forall f, op <> ORemoveFrame f) -> lift (gstep ∅ einv ord op) s = (s', ev, r) ->
      Inv s' /\ (logged s (EGraph op) -> follows s ev s')).
    { intros Hne Hs. assert (Hb : base_op op) by by destruct op.
      assert (Hn2 : forall f, op = ORemoveFrame f -> items_of (dg s) f = ∅) by (intros f ->; by destruct (Hne f)).
      destruct (fine_gstep ord op s s' ev r Hi Hs Hok Hb Hn2). auto. }
    destruct op; try (apply Hb; [done|exact Hr]). eapply G; [by apply (fine_eg_remove_frame io f Hio)|exact Hr].
  - eapply G; [apply fine_new_item|exact Hr].
  - eapply G; [apply fine_set_item_frame|exact Hr].
  - eapply (G (add_item i)); [|exact Hr]. unfold add_item. apply fine_bind; [apply fine_read|]. intros. apply fine_add_item_to_frame.
  - eapply G; [apply fine_add_item_to_frame|exact Hr].
  - eapply G; [apply fine_remove_item|exact Hr].
  - destruct (remove_item_it_fine _ _ _ _ _ _ _ _ _ Hi Hr Hok) as [? H]. split; [done|]. intros [? ?]. by apply H.
  - eapply G; [by apply fine_clear_frame|exact Hr].
  - eapply G; [by apply fine_clear|exact Hr].
Qed.

Lemma Inv_new : Inv (est_new ∅).
Proof. split; [apply dg_wf_empty|]. intros f. apply listed_empty. Qed.

Lemma erun_inv h s s' ev r : Inv s -> ehist_ok h -> erun einv h s = (s', ev, r) -> ok r -> Inv s'.
Proof.
  revert s s' ev r. induction h as [|[[ord io] op] h IH]; intros s s' ev r Hi Hh Hr Hok; cbn [erun] in Hr.
  - by injection Hr as <- _ _.
  - apply list.Forall_cons in Hh as [[Hio Hop] Hh]. cbn in Hio, Hop. destruct (estep einv ord io op s) as [[s1 ev1] r1] eqn:H1.
    destruct r1 as [u|x| |].
    + destruct (erun einv h s1) as [[s2 ev2] r2] eqn:H2. injection Hr as <- <- <-.
      eapply (IH s1); [|done..]. by eapply (estep_fine ord io op).
    + destruct (erun einv h s1) as [[s2 ev2] r2] eqn:H2. injection Hr as <- <- <-.
      eapply (IH s1); [|done..]. by eapply (estep_fine ord io op).
    + injection Hr as <- <- <-. by destruct Hok.
    + injection Hr as <- <- <-. by destruct Hok.
Qed.

End log.
