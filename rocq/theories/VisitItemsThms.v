(** Proofs about visitItems. *)
From stdpp Require Import prelude strings gmap.
From Verif Require Import ListLib Outcome ItemClass Digraph Bfs TreeView GraphModel GraphOps GraphWf GraphStep GraphEmit GraphRefine GraphThms2
  SpecObs SpecReplica SpecHandler ItemsModel SpecItems ItemsData ItemsOps ItemsLog ItemsCopy VisitItemsModel SpecVisitItems.

Section thms.
Context {E : Type} (einv : E -> E).
Local Notation dg_wf := (dg_wf (D := imap) einv).
Local Notation Inv := (Inv einv).
Implicit Types s : est E.
Local Notation dg s := (gs_dg (es_g s)).
Local Notation its s f := (items_of (gs_dg (es_g s)) f).

Lemma Inv_ne s f T l : Inv s -> its s f !! T = Some l -> l <> [].
Proof. intros [_ Hi] Hl. by destruct (Hi f T l Hl). Qed.

Lemma content_some s f v : Inv s -> dg_map (dg s) !! f = Some v -> content s f = Ret (its s f).
Proof.
  intros [Hwf _] Hf. unfold content. rewrite (get_vertex_some einv _ f v) by done. cbn. by apply (items_at_some einv).
Qed.
Lemma content_inv s f m : Inv s -> content s f = Ret m -> (exists v, dg_map (dg s) !! f = Some v) /\ m = its s f.
Proof.
  intros Hi Hc. destruct (dg_map (dg s) !! f) as [v|] eqn:Hf.
  - rewrite (content_some s f v) in Hc by done. injection Hc as <-. eauto.
  - unfold content in Hc. by rewrite get_vertex_none in Hc.
Qed.

(** *** One call *)

Lemma base_keeps ord op f s s' ev r : Inv s -> lift (gstep ∅ einv ord op) s = (s', ev, r) -> ok r -> base_op op ->
  op <> ORemoveFrame f -> its s' f = its s f /\ (forall v, dg_map (dg s) !! f = Some v -> dg_map (dg s') !! f = Some v).
Proof.
  intros Hi [Hs Hh]%lift_inv Hok [Hns Hop] Hne. destruct Hi as [Hwf Hit].
  assert (Hl : lsteps einv (dg s) ev (dg s')) by (eapply (gstep_lsteps ∅ einv); done).
  assert (Hev : EvFrameRemoved f ∉ ev).
  { pose proof (gstep_frame_removed ∅ einv ord op f Hne _ _ _ _ Hs) as Hall. rewrite list.Forall_forall in Hall. intros Hin. by eapply Hall. }
  split.
  - eapply (tracks_items_same einv); [done..| |done]. by eapply (gstep_tracks ∅ einv (.= ∅)).
  - intros v Hv. by eapply (lsteps_vertex einv).
Qed.

Lemma base_shrinks ord op f s s' ev r : Inv s -> lift (gstep ∅ einv ord op) s = (s', ev, r) -> ok r -> base_op op ->
  its s' f = ∅ \/ its s' f = its s f.
Proof.
  intros Hi [Hs Hh]%lift_inv Hok [Hns Hop]. destruct Hi as [Hwf Hit].
  assert (Hl : lsteps einv (dg s) ev (dg s')) by (eapply (gstep_lsteps ∅ einv); done).
  eapply (tracks_items einv); [done|by eapply (lsteps_wf einv)|]. by eapply (gstep_tracks ∅ einv (.= ∅)).
Qed.

(** What a call may do to the content of frame [f]: [i] is in it afterwards only if it was before or was announced. *)
Definition within (f : frameid) (ev : list event) s s' : Prop :=
  forall T i, i ∈ default [] (its s' f !! T) -> i ∈ default [] (its s f !! T) \/ EvItemAdded f i ∈ ev.
Definition modest {A} (m : call (est E) A) : Prop := forall s s' ev r f, Inv s -> m s = (s', ev, r) -> ok r -> within f ev s s'.

Lemma within_refl f ev s s' : its s' f = its s f -> within f ev s s'.
Proof. intros H T i. rewrite H. by left. Qed.
Lemma within_trans f ev1 ev2 s s1 s2 : within f ev1 s s1 -> within f ev2 s1 s2 -> within f (ev1 ++ ev2) s s2.
Proof. intros H1 H2 T i [Hi|Hi]%H2; [|right; apply elem_of_app; by right]. destruct (H1 _ _ Hi) as [?|?]; [by left|right; apply elem_of_app; by left]. Qed.

Lemma modest_read {A} (q : est E -> outcome A) : modest (cread q).
Proof. intros s s' ev r f Hi [= <- <- <-] _. by apply within_refl. Qed.
Lemma modest_ret {A} (a : A) : modest (cret a).
Proof. intros s s' ev r f Hi [= <- <- <-] _. by apply within_refl. Qed.
Lemma modest_bind {A B} (m : call (est E) A) (k : A -> call (est E) B) :
  fine einv m -> modest m -> (forall a, modest (k a)) -> modest (cbind m k).
Proof.
  intros Hf Hm Hk s s' ev r f Hi Hr Hok.
  apply cbind_inv in Hr as [(s1 & ev1 & a & ev2 & H1 & H2 & ->)|[(x & Hx & ->)|[[H ->]|[H ->]]]]; [| |by destruct Hok..].
  - eapply within_trans; [by eapply (Hm s s1 ev1 (Ret a))|]. eapply Hk; [|done..]. by destruct (Hf s s1 ev1 (Ret a)).
  - by eapply (Hm s s' ev (Throw x)).
Qed.
Lemma modest_base ord op : base_op op -> modest (lift (gstep ∅ einv ord op)).
Proof.
  intros Hop s s' ev r f Hi Hr Hok T i Hin. destruct (base_shrinks ord op f s s' ev r Hi Hr Hok Hop) as [H|H]; rewrite H in Hin; [|by left].
  rewrite lookup_empty in Hin. by apply elem_of_nil in Hin.
Qed.
Lemma modest_clear_frame io g : iorder_ok io -> modest (clear_frame io g).
Proof.
  intros Hio s s' ev r f Hi Hr Hok T i Hin. destruct (dg_map (dg s) !! g) as [v|] eqn:Hg.
  - rewrite (clear_frame_eq einv io g v) in Hr by first [done|by destruct Hi|intros; by eapply Inv_ne]. injection Hr as <- _ _.
    rewrite (items_of_put einv g v) in Hin by (done || by destruct Hi). case_decide; [|by left]. rewrite lookup_empty in Hin. by apply elem_of_nil in Hin.
  - rewrite clear_frame_unknown in Hr by done. injection Hr as <- _ _. by left.
Qed.
Lemma modest_remove_frame io g : iorder_ok io -> modest (eg_remove_frame io g).
Proof.
  intros Hio. unfold eg_remove_frame. apply modest_bind; [by apply (fine_clear_frame einv)|by apply modest_clear_frame|].
  intros _. by apply (modest_base (fun _ _ _ l => l) (ORemoveFrame g)).
Qed.
Lemma modest_for_frames m fs : (forall f, fine einv (m f)) -> (forall f, modest (m f)) -> modest (for_frames (E := E) m fs).
Proof.
  intros Hf Hm. induction fs as [|f fs IH]; cbn [for_frames]; [apply modest_ret|]. apply modest_bind; [done..|intros _; exact IH].
Qed.
Lemma modest_clear ord io : iorder_ok io -> modest (clear (E := E) ord io).
Proof.
  intros Hio. unfold clear. apply modest_bind; [apply fine_read|apply modest_read|intros fs]. apply modest_bind; [| |intros _].
  - apply (fine_for_frames einv). intros f. apply (fine_disconnect einv).
  - apply modest_for_frames; intros f; [apply (fine_disconnect einv)|by apply (modest_base ord (ODisconnect f))].
  - apply modest_for_frames; intros f; [by apply (fine_eg_remove_frame einv)|by apply modest_remove_frame].
Qed.

Lemma add_item_to_frame_cases g i s s' ev r : Inv s -> add_item_to_frame g i s = (s', ev, r) -> ok r ->
  (s' = s /\ ev = [] /\ exists e, r = Throw e) \/
  (exists v x, dg_map (dg s) !! g = Some v /\ es_heap s !! i = Some x /\
     s' = with_heap (<[i := ItemV (it_class x) g]> (es_heap s)) (put g (<[it_type x := default [] (its s g !! it_type x) ++ [i]]> (its s g)) s) /\
     ev = [EvItemAdded g i] /\ r = Ret tt).
Proof.
  intros Hi Hr Hok. destruct (dg_map (dg s) !! g) as [v|] eqn:Hg; cycle 1.
  { rewrite add_item_to_frame_unknown in Hr by done. injection Hr as <- <- <-. left. eauto. }
  destruct (es_heap s !! i) as [x|] eqn:Hx; cycle 1.
  { exfalso. unfold add_item_to_frame in Hr. erewrite cbind_read_ret in Hr by (eapply (check_some einv); [by destruct Hi|done]).
    erewrite cbind_read_ub in Hr by (unfold deref; by rewrite Hx). injection Hr as <- <- <-. by destruct Hok. }
  rewrite (add_item_to_frame_eq einv g v i x) in Hr by (done || by destruct Hi). injection Hr as <- <- <-. right. exists v, x. done.
Qed.

Lemma remove_item_cases i s s' ev r : Inv s -> remove_item i s = (s', ev, r) -> ok r ->
  (s' = s /\ ev = [] /\ exists e, r = Throw e) \/
  (exists v x l l', es_heap s !! i = Some x /\ dg_map (dg s) !! it_frame x = Some v /\ its s (it_frame x) !! it_type x = Some l /\
     erase_first i l = Some l' /\
     s' = with_heap (<[i := ItemV (it_class x) ""]> (es_heap s)) (put (it_frame x) (shrink (it_type x) l' (its s (it_frame x))) s)).
Proof.
  intros Hi Hr Hok. destruct (es_heap s !! i) as [x|] eqn:Hx; cycle 1.
  { exfalso. unfold remove_item in Hr. erewrite cbind_read_ub in Hr by (unfold deref; by rewrite Hx). injection Hr as <- <- <-. by destruct Hok. }
  assert (Hwf : dg_wf (dg s)) by by destruct Hi.
  destruct (dg_map (dg s) !! it_frame x) as [v|] eqn:Hf; cycle 1.
  { rewrite (remove_item_no_frame i x) in Hr by done. injection Hr as <- <- <-. left. eauto. }
  destruct (its s (it_frame x) !! it_type x) as [l|] eqn:Hl; cycle 1.
  { rewrite (remove_item_no_type einv i x v) in Hr by done. injection Hr as <- <- <-. left. eauto. }
  destruct (erase_first i l) as [l'|] eqn:He; cycle 1.
  { rewrite (remove_item_not_there einv i x v l) in Hr by (done || by apply erase_first_none). injection Hr as <- <- <-. left. eauto. }
  rewrite (remove_item_eq einv i x v l l') in Hr by done. injection Hr as <- <- <-. right. exists v, x, l, l'. done.
Qed.

Lemma shrink_in T T' l l' i j m : m !! T = Some l -> erase_first i l = Some l' ->
  j ∈ default [] (shrink T l' m !! T') -> j ∈ default [] (m !! T').
Proof.
  intros Hl He. unfold shrink. destruct (decide (T' = T)) as [->|Hne].
  - rewrite Hl. cbn. apply erase_first_some in He as (l1 & l2 & -> & _ & ->). case_decide as Hd.
    + rewrite lookup_delete. cbn. by intros ?%elem_of_nil.
    + rewrite lookup_insert. cbn. set_solver.
  - case_decide; [rewrite lookup_delete_ne by done|rewrite lookup_insert_ne by done]; done.
Qed.
Lemma cut_in T T' l k j (m : imap) : m !! T = Some l -> j ∈ default [] (cut T k l m !! T') -> j ∈ default [] (m !! T').
Proof.
  intros Hl. unfold cut. destruct (decide (T' = T)) as [->|Hne].
  - rewrite Hl. cbn. case_decide as Hd.
    + rewrite lookup_delete. cbn. by intros ?%elem_of_nil.
    + rewrite lookup_insert. cbn. rewrite elem_of_app. intros [H|H]; [by eapply elem_of_take in H as (? & H & _); eapply elem_of_list_lookup_2|].
      rewrite <- (take_drop (S k) l). apply elem_of_app. by right.
  - case_decide; [rewrite lookup_delete_ne by done|rewrite lookup_insert_ne by done]; done.
Qed.

Lemma modest_add g i : modest (add_item_to_frame (E := E) g i).
Proof.
  intros s s' ev r f Hi Hr Hok. destruct (add_item_to_frame_cases g i s s' ev r Hi Hr Hok) as [(-> & _)|(v & x & Hg & Hx & -> & -> & ->)].
  - by apply within_refl.
  - intros T j. change (dg (with_heap ?h ?t)) with (dg t). rewrite (items_of_put einv g v) by (done || by destruct Hi).
    case_decide as Hd; [|by left]. subst g. destruct (decide (T = it_type x)) as [->|Hne].
    + rewrite lookup_insert. cbn. rewrite elem_of_app. intros [?|?%elem_of_list_singleton]; [by left|right; subst; by apply elem_of_list_singleton].
    + rewrite lookup_insert_ne by done. by left.
Qed.
Lemma modest_remove i : modest (remove_item (E := E) i).
Proof.
  intros s s' ev r f Hi Hr Hok. destruct (remove_item_cases i s s' ev r Hi Hr Hok) as [(-> & _)|(v & x & l & l' & Hx & Hf & Hl & He & ->)].
  - by apply within_refl.
  - intros T j. change (dg (with_heap ?h ?t)) with (dg t). rewrite (items_of_put einv _ v) by (done || by destruct Hi).
    case_decide as Hd; [|by left]. subst f. intros H. left. by eapply shrink_in.
Qed.

Lemma remove_item_it_cases g alias T itf k s s' ev r : Inv s -> remove_item_it g alias T itf k s = (s', ev, r) -> ok r ->
  s' = s \/ exists v l i x, dg_map (dg s) !! g = Some v /\ its s g !! T = Some l /\ l !! k = Some i /\
    s' = with_heap (<[i := ItemV (it_class x) ""]> (es_heap s)) (put g (cut T k l (its s g)) s).
Proof.
  intros Hi Hr Hok. destruct (remove_item_it_inv einv _ _ _ _ _ _ _ _ _ Hi Hr Hok) as [(-> & _)|(-> & v & l & i & x & Hg & Hl & Hk & Hx & HT & Hfr)]; [by left|].
  rewrite (remove_item_it_eq einv g alias T k i x v l) in Hr by (done || by destruct Hi). injection Hr as <- _ _. right. exists v, l, i, x. done.
Qed.

Lemma estep_within ord io op s s' ev r f : Inv s -> iorder_ok io -> eop_ok op -> estep einv ord io op s = (s', ev, r) -> ok r -> within f ev s s'.
Proof.
  intros Hi Hio Hop Hr Hok.
  assert (G : forall m : call (est E) unit, modest m -> m s = (s', ev, r) -> within f ev s s') by (intros m Hm Hmr; by eapply Hm).
  destruct op as [op|i c g|i g|i|g i|i|g alias T itf k|g|]; cbn [estep] in Hr.
  - assert (Hb : (forall f, op <> ORemoveFrame f) -> lift (gstep ∅ einv ord op) s = (s', ev, r) -> within f ev s s').
    { intros Hne Hs. assert (Hb : base_op op) by by destruct op. by eapply modest_base. }
    destruct op; try (apply Hb; [done|exact Hr]). eapply G; [|exact Hr]. by apply modest_remove_frame.
  - unfold new_item in Hr. destruct (es_heap s !! i); injection Hr as <- <- <-; by apply within_refl.
  - unfold set_item_frame in Hr. destruct (es_heap s !! i); injection Hr as <- <- <-; by apply within_refl.
  - eapply (G (add_item i)); [|exact Hr]. unfold add_item. apply modest_bind; [apply fine_read|apply modest_read|]. intros. apply modest_add.
  - eapply G; [apply modest_add|exact Hr].
  - eapply G; [apply modest_remove|exact Hr].
  - destruct (remove_item_it_cases _ _ _ _ _ _ _ _ _ Hi Hr Hok) as [->|(v & l & i & x & Hg & Hl & Hk & ->)]; [by apply within_refl|].
    intros T' j. change (dg (with_heap ?h ?t)) with (dg t). rewrite (items_of_put einv g v) by (done || by destruct Hi).
    case_decide; [|by left]. subst f. intros H. left. by eapply cut_in.
  - eapply G; [by apply modest_clear_frame|exact Hr].
  - eapply G; [by apply modest_clear|exact Hr].
Qed.

Lemma clear_frame_else io g f s s' ev r : iorder_ok io -> Inv s -> clear_frame io g s = (s', ev, r) -> g <> f ->
  its s' f = its s f /\ dg_map (dg s') !! f = dg_map (dg s) !! f.
Proof.
  intros Hio Hi Hr Hne. destruct (dg_map (dg s) !! g) as [v|] eqn:Hg.
  - rewrite (clear_frame_eq einv io g v) in Hr by first [done|by destruct Hi|intros; by eapply Inv_ne]. injection Hr as <- _ _.
    rewrite (items_of_put einv g v) by (done || by destruct Hi). by rewrite decide_False by congruence.
  - rewrite clear_frame_unknown in Hr by done. by injection Hr as <- _ _.
Qed.

Lemma estep_else ord io op s s' s'' ev r f : Inv s -> iorder_ok io -> eop_ok op -> estep einv ord io op s = (s', ev, r) -> ok r ->
  elsewhere f s op s'' -> its s' f = its s f /\ (forall v, dg_map (dg s) !! f = Some v -> dg_map (dg s') !! f = Some v).
Proof.
  intros Hi Hio Hop Hr Hok He.
  assert (Hadd : forall g i, add_item_to_frame g i s = (s', ev, r) -> g <> f ->
    its s' f = its s f /\ (forall v, dg_map (dg s) !! f = Some v -> dg_map (dg s') !! f = Some v)).
  { intros g i Ha Hne. destruct (add_item_to_frame_cases g i s s' ev r Hi Ha Hok) as [(-> & _)|(v & x & Hg & Hx & -> & -> & ->)]; [done|].
    change (dg (with_heap ?h ?t)) with (dg t). rewrite (items_of_put einv g v) by (done || by destruct Hi). by rewrite decide_False by congruence. }
  destruct op as [op|i c g|i g|i|g i|i|g alias T itf k|g|]; cbn [estep] in Hr; cbn [elsewhere] in He.
  - assert (Hb : op <> ORemoveFrame f -> lift (gstep ∅ einv ord op) s = (s', ev, r) ->
      its s' f = its s f /\ (forall v, dg_map (dg s) !! f = Some v -> dg_map (dg s') !! f = Some v)).
    { intros Hne Hs. assert (Hb : base_op op) by by destruct op. by eapply base_keeps. }
    destruct op as [| | | | | | | | |g| | | | | | | | | |]; try (apply Hb; [done|exact Hr]).
    unfold eg_remove_frame in Hr.
    apply cbind_inv in Hr as [(s1 & ev1 & a & ev2 & H1 & H2 & ->)|[(x & Hx & ->)|[[H ->]|[H ->]]]]; [| |by destruct Hok..].
    + destruct (clear_frame_else io g f _ _ _ _ Hio Hi H1 He) as [Ha Hm]. rewrite <- Ha, <- Hm.
      destruct (fine_clear_frame einv io g Hio s s1 ev1 (Ret a)) as [I1 _]; [done..|].
      by eapply (base_keeps (fun _ _ _ l => l) (ORemoveFrame g)); [done..|congruence].
    + destruct (clear_frame_else io g f _ _ _ _ Hio Hi Hx He) as [Ha Hm]. by rewrite Ha, Hm.
  - unfold new_item in Hr. by destruct (es_heap s !! i); injection Hr as <- <- <-.
  - unfold set_item_frame in Hr. by destruct (es_heap s !! i); injection Hr as <- <- <-.
  - destruct He as (x & Hx & Hne). unfold add_item in Hr. erewrite cbind_read_ret in Hr by exact Hx. by eapply Hadd.
  - by eapply Hadd.
  - destruct He as (x & Hx & Hne). destruct (remove_item_cases i s s' ev r Hi Hr Hok) as [(-> & _)|(v & x' & l & l' & Hx' & Hf & Hl & He & ->)]; [done|].
    unfold deref in Hx. rewrite Hx' in Hx. injection Hx as <-.
    change (dg (with_heap ?h ?t)) with (dg t). rewrite (items_of_put einv _ v) by (done || by destruct Hi). by rewrite decide_False by congruence.
  - destruct (remove_item_it_cases _ _ _ _ _ _ _ _ _ Hi Hr Hok) as [->|(v & l & i & x & Hg & Hl & Hk & ->)]; [done|].
    change (dg (with_heap ?h ?t)) with (dg t). rewrite (items_of_put einv _ v) by (done || by destruct Hi). by rewrite decide_False by congruence.
  - destruct (clear_frame_else io g f _ _ _ _ Hio Hi Hr He) as [Ha Hm]. by rewrite Ha, Hm.
  - done.
Qed.
(** *** One run of the visitor *)

Lemma estep_reach ord io op s s' ev r : ereachable einv s -> iorder_ok io -> eop_ok op -> estep einv ord io op s = (s', ev, r) -> ok r ->
  ereachable einv s'.
Proof.
  intros Hs Hio Hop Hr Hok. assert (Hh : ehist_ok [(ord, io, op)]) by (apply list.Forall_singleton; done).
  apply (ereachable_run einv [(ord, io, op)] s s' (ev ++ []) Hs Hh). cbn [erun]. rewrite Hr. destruct r as [[]|x| |]; [done..| |]; by destruct Hok.
Qed.

Definition known s (f : frameid) : Prop := exists v, dg_map (dg s) !! f = Some v.

Lemma calm f k s s' : Inv s -> Inv s' -> disturbs f k s s' = false ->
  known s' f /\ its s' f !! k = its s f !! k /\ dom (its s' f) ⊆ dom (its s f).
Proof.
  intros Hi Hi'. unfold disturbs. destruct (content s f) as [m|x| |] eqn:Hc; [|done..]. destruct (content s' f) as [m'|x| |] eqn:Hc'; [|done..].
  apply content_inv in Hc as [Hk ->]; [|done]. apply content_inv in Hc' as [Hk' ->]; [|done].
  intros [H1 H2]%orb_false_iff. apply negb_false_iff, bool_decide_eq_true in H1. apply negb_false_iff, bool_decide_eq_true in H2. done.
Qed.
Lemma calm_intro f k s s' : Inv s -> Inv s' -> known s f -> known s' f -> its s' f !! k = its s f !! k -> dom (its s' f) ⊆ dom (its s f) ->
  disturbs f k s s' = false.
Proof.
  intros Hi Hi' [v Hv] [v' Hv'] Hk Hd. unfold disturbs. rewrite (content_some s f v), (content_some s' f v') by done.
  rewrite !bool_decide_eq_true_2 by done. done.
Qed.

Lemma body_within f k sc s s' d ev r : allowed sc -> ereachable einv s -> ibody einv f k sc s = (s', d, ev, r) -> ok r ->
  ereachable einv s' /\ within f ev s s'.
Proof.
  intros Ha. revert s s' d ev r. induction Ha as [|x|ord io op next Hio Hop Ha IH]; intros s s' d ev r Hs Hr Hok; cbn [ibody] in Hr.
  - injection Hr as <- <- <- <-. split; [done|]. by apply within_refl.
  - injection Hr as <- <- <- <-. split; [done|]. by apply within_refl.
  - destruct (estep einv ord io op s) as [[s1 ev1] r1] eqn:H1.
    assert (Hgo : ok r1 -> forall s2 d2 ev2 r2, ibody einv f k (next s1 r1) s1 = (s2, d2, ev2, r2) -> ok r2 -> ereachable einv s2 /\ within f (ev1 ++ ev2) s s2).
    { intros Hok1 s2 d2 ev2 r2 H2 Hok2. destruct (IH s1 r1 s1 s2 d2 ev2 r2) as [? Hw]; [by eapply estep_reach|done..|].
      split; [done|]. eapply within_trans; [|done]. eapply estep_within; [by apply ereachable_inv|done..]. }
    destruct r1 as [u|x| |]; [| |injection Hr as <- <- <- <-; by destruct Hok..];
      (destruct (ibody einv f k (next s1 _) s1) as [[[s2 d2] ev2] r2] eqn:H2; injection Hr as <- <- <- <-; by eapply Hgo).
Qed.

Lemma body_calm f k sc s s' ev r : allowed sc -> ereachable einv s -> known s f -> ibody einv f k sc s = (s', false, ev, r) -> ok r ->
  known s' f /\ its s' f !! k = its s f !! k /\ dom (its s' f) ⊆ dom (its s f).
Proof.
  intros Ha. revert s s' ev r. induction Ha as [|x|ord io op next Hio Hop Ha IH]; intros s s' ev r Hs Hk Hr Hok; cbn [ibody] in Hr.
  - by injection Hr as <- <- <-.
  - by injection Hr as <- <- <-.
  - destruct (estep einv ord io op s) as [[s1 ev1] r1] eqn:H1.
    assert (Hgo : ok r1 -> disturbs f k s s1 = false -> forall s2 ev2 r2, ibody einv f k (next s1 r1) s1 = (s2, false, ev2, r2) -> ok r2 ->
      known s2 f /\ its s2 f !! k = its s f !! k /\ dom (its s2 f) ⊆ dom (its s f)).
    { intros Hok1 Hd s2 ev2 r2 H2 Hok2. assert (Hs1 : ereachable einv s1) by by eapply estep_reach.
      destruct (calm f k s s1) as (K1 & E1 & D1); [by apply ereachable_inv..|done|].
      destruct (IH s1 r1 s1 s2 ev2 r2) as (K2 & E2 & D2); [done..|]. split; [done|]. split; [congruence|set_solver]. }
    destruct r1 as [u|x| |]; [| |done..];
      (destruct (ibody einv f k (next s1 _) s1) as [[[s2 d2] ev2] r2] eqn:H2; injection Hr as <- Hd <- <-;
       apply orb_false_iff in Hd as [Hd Hd2]; subst d2; by eapply Hgo).
Qed.

Lemma body_else f k sc s s' d ev r : allowed sc -> ereachable einv s -> known s f -> each_call einv (elsewhere f) sc s ->
  ibody einv f k sc s = (s', d, ev, r) ->
  ok r /\ d = false /\ ereachable einv s' /\ its s' f = its s f /\ (forall v, dg_map (dg s) !! f = Some v -> dg_map (dg s') !! f = Some v).
Proof.
  intros Ha. revert s s' d ev r. induction Ha as [|x|ord io op next Hio Hop Ha IH]; intros s s' d ev r Hs Hk He Hr; cbn [ibody] in Hr.
  - by injection Hr as <- <- <- <-.
  - by injection Hr as <- <- <- <-.
  - cbn [each_call] in He. destruct (estep einv ord io op s) as [[s1 ev1] r1] eqn:H1. destruct He as (Hok1 & He & Hnext).
    assert (Hi : Inv s) by by apply ereachable_inv.
    destruct (estep_else ord io op s s1 s1 ev1 r1 f Hi Hio Hop H1 Hok1 He) as [E1 M1].
    assert (Hs1 : ereachable einv s1) by by eapply estep_reach.
    assert (K1 : known s1 f) by (destruct Hk as [v Hv]; exists v; by apply M1).
    assert (Hd : disturbs f k s s1 = false).
    { apply calm_intro; [done|by apply ereachable_inv|done|done|by rewrite E1|by rewrite E1]. }
    assert (Hgo : forall s2 d2 ev2 r2, ibody einv f k (next s1 r1) s1 = (s2, d2, ev2, r2) ->
      ok r2 /\ disturbs f k s s1 || d2 = false /\ ereachable einv s2 /\ its s2 f = its s f /\ (forall v, dg_map (dg s) !! f = Some v -> dg_map (dg s2) !! f = Some v)).
    { intros s2 d2 ev2 r2 H2. destruct (IH s1 r1 s1 s2 d2 ev2 r2) as (? & -> & ? & E2 & M2); [done..|]. rewrite Hd.
      split; [done|]. split; [done|]. split; [done|]. split; [congruence|auto]. }
    destruct r1 as [u|x| |]; [| |by destruct Hok1..];
      (destruct (ibody einv f k (next s1 _) s1) as [[[s2 d2] ev2] r2] eqn:H2; injection Hr as <- <- <- <-; by eapply Hgo).
Qed.

Lemma dom_by_lists s s' f : Inv s -> Inv s' -> (forall T, items_in s f T = [] -> items_in s' f T = []) -> dom (its s' f) ⊆ dom (its s f).
Proof.
  intros Hi Hi' H T [l' Hl']%elem_of_dom. apply elem_of_dom. destruct (its s f !! T) as [l|] eqn:Hl; [done|]. exfalso.
  specialize (H T). rewrite (items_in_eq einv s), (items_in_eq einv s'), Hl, Hl' in H by first [by destruct Hi|by destruct Hi']. cbn in H. eapply Inv_ne; [exact Hi'|done|auto].
Qed.
Lemma list_by_items s s' f T : Inv s -> Inv s' -> items_in s' f T = items_in s f T -> its s' f !! T = its s f !! T.
Proof.
  intros Hi Hi'. rewrite (items_in_eq einv s), (items_in_eq einv s') by first [by destruct Hi|by destruct Hi'].
  destruct (its s' f !! T) as [l'|] eqn:Hl'; destruct (its s f !! T) as [l|] eqn:Hl; cbn; intros H; [congruence| | |done]; exfalso.
  - by eapply (Inv_ne s').
  - by eapply (Inv_ne s).
Qed.
Lemma known_contains s f : Inv s -> contains_frame (es_g s) f = true <-> known s f.
Proof.
  intros [Hwf _]. rewrite (contains_frame_map einv) by done. apply bool_decide_eq_true.
Qed.

Lemma body_harmless f k sc s s' d ev r : allowed sc -> ereachable einv s -> known s f -> each_call einv (harmless f k) sc s ->
  ibody einv f k sc s = (s', d, ev, r) -> ok r /\ d = false.
Proof.
  intros Ha. revert s s' d ev r. induction Ha as [|x|ord io op next Hio Hop Ha IH]; intros s s' d ev r Hs Hk He Hr; cbn [ibody] in Hr.
  - by injection Hr as <- <- <- <-.
  - by injection Hr as <- <- <- <-.
  - cbn [each_call] in He. destruct (estep einv ord io op s) as [[s1 ev1] r1] eqn:H1. destruct He as (Hok1 & (Hc & Hl & Hn) & Hnext).
    assert (Hs1 : ereachable einv s1) by by eapply estep_reach.
    assert (Hi : Inv s) by by apply ereachable_inv. assert (Hi1 : Inv s1) by by apply ereachable_inv.
    assert (K1 : known s1 f) by by apply known_contains.
    assert (Hd : disturbs f k s s1 = false) by (apply calm_intro; [done..|by apply list_by_items|by apply dom_by_lists]).
    assert (Hgo : forall s2 d2 ev2 r2, ibody einv f k (next s1 r1) s1 = (s2, d2, ev2, r2) -> ok r2 /\ disturbs f k s s1 || d2 = false).
    { intros s2 d2 ev2 r2 H2. rewrite Hd. cbn. by eapply IH. }
    destruct r1 as [u|x| |]; [| |by destruct Hok1..];
      (destruct (ibody einv f k (next s1 _) s1) as [[[s2 d2] ev2] r2] eqn:H2; injection Hr as <- <- <- <-; by eapply Hgo).
Qed.

Lemma stored_iff s f i : Inv s -> stored s f i <-> exists T, i ∈ default [] (its s f !! T).
Proof. intros [Hwf _]. unfold stored. by setoid_rewrite (items_in_eq einv s f _ Hwf). Qed.

Lemma stored_known s f i : Inv s -> stored s f i -> known s f.
Proof.
  intros Hi [T HT]%stored_iff; [|done]. unfold known. destruct (dg_map (dg s) !! f) as [v|] eqn:Hv; [by exists v|].
  unfold items_of in HT. rewrite Hv, lookup_empty in HT. by apply elem_of_nil in HT.
Qed.
Lemma else_harmless f T sc s : allowed sc -> ereachable einv s -> known s f -> each_call einv (elsewhere f) sc s -> each_call einv (harmless f T) sc s.
Proof.
  intros Ha. revert s. induction Ha as [|x|ord io op next Hio Hop Ha IH]; intros s Hs Hk He; [done..|]. cbn [each_call] in *.
  destruct (estep einv ord io op s) as [[s1 ev1] r1] eqn:H1. destruct He as (Hok1 & He & Hnext).
  assert (Hi : Inv s) by by apply ereachable_inv. assert (Hs1 : ereachable einv s1) by by eapply estep_reach.
  assert (Hi1 : Inv s1) by by apply ereachable_inv.
  destruct (estep_else ord io op s s1 s1 ev1 r1 f Hi Hio Hop H1 Hok1 He) as [E1 M1].
  assert (K1 : known s1 f) by (destruct Hk as [v Hv]; exists v; by apply M1).
  split; [done|]. split; [|by apply IH]. split; [by apply known_contains|].
  assert (Heq : forall T', items_in s1 f T' = items_in s f T').
  { intros T'. rewrite (items_in_eq einv s), (items_in_eq einv s1) by first [by destruct Hi|by destruct Hi1]. by rewrite E1. }
  split; [done|]. intros T'. by rewrite Heq.
Qed.
Lemma clear_frame_ends io f s : iorder_ok io -> ereachable einv s -> exists s1 ev r, clear_frame io f s = (s1, ev, r) /\ ok r.
Proof.
  intros Hio Hs. assert (Hi : Inv s) by by apply ereachable_inv. destruct (dg_map (dg s) !! f) as [v|] eqn:Hv.
  - rewrite (clear_frame_eq einv io f v) by first [done|by destruct Hi|intros; by eapply Inv_ne]. eexists _, _, _. split; [done|by split].
  - rewrite clear_frame_unknown by done. eexists _, _, _. split; [done|by split].
Qed.

(** *** The loops *)

Context {C : Type} (z : ivisitor E C).

Lemma list_complete f k l c s seen s' seen' ev c' : (forall c i s, allowed (iz_do z c i s)) -> ereachable einv s -> known s f ->
  visit_list einv z f k l c (s, seen) = ((s', seen'), ev, Ret c') ->
  ereachable einv s' /\ known s' f /\ its s' f !! k = its s f !! k /\ dom (its s' f) ⊆ dom (its s f) /\ within f ev s s' /\ seen' = seen ++ l.
Proof.
  intros Hz. revert c s seen ev. induction l as [|i l IH]; intros c s seen ev Hs Hk Hr; cbn [visit_list] in Hr.
  - injection Hr as <- <- <- <-. rewrite app_nil_r. split_and!; try done. by apply within_refl.
  - cbn [fst snd] in Hr. destruct (ibody einv f k (iz_do z c i s) s) as [[[s1 d] ev1] r1] eqn:H1. destruct r1 as [[]|x| |]; try done.
    destruct d; [done|]. destruct (visit_list einv z f k l (iz_memory z c i s) (s1, seen ++ [i])) as [[[s2 seen2] ev2] r2] eqn:H2.
    injection Hr as -> -> <- ->. destruct (body_within f k _ s s1 false ev1 (Ret tt) (Hz c i s) Hs H1) as [Hs1 W1]; [done|].
    destruct (body_calm f k _ s s1 ev1 (Ret tt) (Hz c i s) Hs Hk H1) as (K1 & E1 & D1); [done|].
    destruct (IH _ _ _ _ Hs1 K1 H2) as (Hs2 & K2 & E2 & D2 & W2 & ->). split_and!; try done; [congruence|set_solver|by eapply within_trans|].
    by rewrite <- app_assoc.
Qed.

Lemma types_complete f ks c s seen s' seen' ev c' : (forall c i s, allowed (iz_do z c i s)) -> ereachable einv s -> known s f ->
  visit_types einv z f ks c (s, seen) = ((s', seen'), ev, Ret c') ->
  ereachable einv s' /\ known s' f /\ dom (its s' f) ⊆ dom (its s f) /\ within f ev s s' /\
  exists new, seen' = seen ++ new /\ (forall i, i ∈ new -> (exists T, i ∈ default [] (its s f !! T)) \/ EvItemAdded f i ∈ ev) /\
    (forall T i, T ∈ ks -> i ∈ default [] (its s' f !! T) -> i ∈ new \/ EvItemAdded f i ∈ ev).
Proof.
  intros Hz. revert c s seen ev. induction ks as [|k ks IH]; intros c s seen ev Hs Hk Hr; cbn [visit_types] in Hr.
  - injection Hr as <- <- <- <-. split_and!; try done; [by apply within_refl|]. exists []. rewrite app_nil_r. split_and!; [done|set_solver..].
  - cbn [fst] in Hr. destruct Hk as [v Hv]. rewrite (content_some s f v) in Hr by (done || by apply ereachable_inv).
    assert (Hk : known s f) by by exists v. destruct (its s f !! k) as [l|] eqn:Hl; cycle 1.
    { destruct (IH c s seen ev Hs Hk Hr) as (Hs2 & K2 & D2 & W2 & new & -> & Hn & Hc). split_and!; try done. exists new. split_and!; try done.
      intros T i [->|HT]%elem_of_cons Hi; [|by eapply Hc]. exfalso. apply not_elem_of_dom in Hl.
      destruct (its s' f !! k) as [l'|] eqn:Hl'; [|by apply elem_of_nil in Hi]. apply Hl, D2, elem_of_dom. by exists l'. }
    destruct (visit_list einv z f k l c (s, seen)) as [[[s1 seen1] ev1] r1] eqn:H1. destruct r1 as [c1|x| |]; try done.
    destruct (visit_types einv z f ks c1 (s1, seen1)) as [[[s2 seen2] ev2] r2] eqn:H2. injection Hr as -> -> <- ->.
    destruct (list_complete f k l c s seen s1 seen1 ev1 c1 Hz Hs Hk H1) as (Hs1 & K1 & E1 & D1 & W1 & ->).
    destruct (IH c1 s1 _ ev2 Hs1 K1 H2) as (Hs2 & K2 & D2 & W2 & new & -> & Hn & Hc).
    split; [done|]. split; [done|]. split; [set_solver|]. split; [by eapply within_trans|].
    exists (l ++ new). rewrite <- app_assoc. split; [done|]. setoid_rewrite elem_of_app. split.
    + intros i [Hi|Hi]; [left; exists k; by rewrite Hl|]. destruct (Hn i Hi) as [[T HT]|?]; [|by right; right].
      destruct (W1 T i HT) as [?|?]; [left; by exists T|by right; left].
    + intros T i [->|HT]%elem_of_cons Hi.
      * destruct (W2 k i Hi) as [Hi1|?]; [|by right; right]. rewrite E1, Hl in Hi1. by left; left.
      * destruct (Hc T i HT Hi) as [?|?]; [by left; right|by right; right].
Qed.

Lemma list_else f k l l0 c s seen s' seen' ev r : (forall c i s, allowed (iz_do z c i s)) ->
  (forall c i s, ereachable einv s -> stored s f i -> each_call einv (elsewhere f) (iz_do z c i s) s) -> ereachable einv s -> known s f ->
  its s f !! k = Some l0 -> l ⊆ l0 -> visit_list einv z f k l c (s, seen) = ((s', seen'), ev, r) ->
  ereachable einv s' /\ its s' f = its s f /\ (forall v, dg_map (dg s) !! f = Some v -> dg_map (dg s') !! f = Some v) /\
  ((exists c', r = Ret c' /\ seen' = seen ++ l) \/ (exists x l1 l2, r = Throw x /\ l = l1 ++ l2 /\ l1 <> [] /\ seen' = seen ++ l1)).
Proof.
  intros Hz He. revert c s seen ev. induction l as [|i l IH]; intros c s seen ev Hs Hk Hl Hsub Hr; cbn [visit_list] in Hr.
  - injection Hr as <- <- <- <-. rewrite app_nil_r. split_and!; try done. left. by exists c.
  - assert (Hst : stored s f i) by (apply stored_iff; [by apply ereachable_inv|]; exists k; rewrite Hl; cbn; set_solver).
    cbn [fst snd] in Hr. destruct (ibody einv f k (iz_do z c i s) s) as [[[s1 d] ev1] r1] eqn:H1.
    destruct (body_else f k _ s s1 d ev1 r1 (Hz c i s) Hs Hk (He c i s Hs Hst) H1) as (Hok & -> & Hs1 & E1 & M1).
    assert (K1 : known s1 f) by (destruct Hk as [v Hv]; exists v; by apply M1).
    destruct r1 as [[]|x| |]; [| |by destruct Hok..].
    + destruct (visit_list einv z f k l (iz_memory z c i s) (s1, seen ++ [i])) as [[[s2 seen2] ev2] r2] eqn:H2.
      injection Hr as -> -> <- ->. destruct (IH _ s1 _ ev2 Hs1 K1 (eq_trans (f_equal (lookup k) E1) Hl) (fun x Hx => Hsub x (elem_of_list_further x i l Hx)) H2) as (Hs2 & E2 & M2 & H).
      split; [done|]. split; [congruence|]. split; [auto|]. destruct H as [(c' & -> & ->)|(x & l1 & l2 & -> & -> & Hne & ->)].
      * left. exists c'. by rewrite <- app_assoc.
      * right. exists x, (i :: l1), l2. by rewrite <- app_assoc.
    + injection Hr as <- <- <- <-. split_and!; try done. right. by exists x, [i], l.
Qed.

Lemma types_else f ks c s seen s' seen' ev r : (forall c i s, allowed (iz_do z c i s)) ->
  (forall c i s, ereachable einv s -> stored s f i -> each_call einv (elsewhere f) (iz_do z c i s) s) -> ereachable einv s -> known s f ->
  visit_types einv z f ks c (s, seen) = ((s', seen'), ev, r) ->
  let todo := concat ((fun k => default [] (its s f !! k)) <$> ks) in
  ereachable einv s' /\ its s' f = its s f /\ (forall v, dg_map (dg s) !! f = Some v -> dg_map (dg s') !! f = Some v) /\
  ((exists c', r = Ret c' /\ seen' = seen ++ todo) \/ (exists x l1 l2, r = Throw x /\ todo = l1 ++ l2 /\ l1 <> [] /\ seen' = seen ++ l1)).
Proof.
  intros Hz He. revert c s seen ev. induction ks as [|k ks IH]; intros c s seen ev Hs Hk Hr todo; cbn [visit_types] in Hr.
  - injection Hr as <- <- <- <-. cbn in todo. unfold todo. rewrite app_nil_r. split_and!; try done. left. by exists c.
  - cbn [fst] in Hr. destruct Hk as [v Hv]. rewrite (content_some s f v) in Hr by (done || by apply ereachable_inv).
    assert (Hk : known s f) by by exists v. unfold todo. cbn [fmap list_fmap concat]. destruct (its s f !! k) as [l|] eqn:Hl; cbn [from_option]; unfold id at 1.
    + destruct (visit_list einv z f k l c (s, seen)) as [[[s1 seen1] ev1] r1] eqn:H1.
      destruct (list_else f k l l c s seen s1 seen1 ev1 r1 Hz He Hs Hk Hl (reflexivity _) H1) as (Hs1 & E1 & M1 & H).
      assert (K1 : known s1 f) by (exists v; by apply M1).
      destruct H as [(c1 & -> & ->)|(x & l1 & l2 & -> & -> & Hne & ->)].
      * destruct (visit_types einv z f ks c1 (s1, seen ++ l)) as [[[s2 seen2] ev2] r2] eqn:H2. injection Hr as -> -> <- ->.
        destruct (IH _ _ _ _ Hs1 K1 H2) as (Hs2 & E2 & M2 & H). rewrite E1 in H.
        split; [done|]. split; [congruence|]. split; [auto|]. destruct H as [(c' & -> & ->)|(x & l1 & l2 & -> & -> & Hne & ->)].
        -- left. exists c'. by rewrite <- app_assoc.
        -- right. exists x, (l ++ l1), l2. rewrite <- !app_assoc. split_and!; try done. by intros [_ ?]%app_eq_nil.
      * injection Hr as <- <- <- <-. split_and!; try done. right. exists x, l1, (l2 ++ concat ((fun k => default [] (its s f !! k)) <$> ks)).
        by rewrite (app_assoc l1 l2).
    + cbn. by apply (IH c s seen ev).
Qed.

Lemma list_harmless f k l l0 c s seen : (forall c i s, allowed (iz_do z c i s)) ->
  (forall c i s T, ereachable einv s -> i ∈ items_in s f T -> each_call einv (harmless f T) (iz_do z c i s) s) -> ereachable einv s -> known s f ->
  its s f !! k = Some l0 -> l ⊆ l0 -> ok (snd (visit_list einv z f k l c (s, seen))).
Proof.
  intros Hz He. revert c s seen. induction l as [|i l IH]; intros c s seen Hs Hk Hl Hsub; cbn [visit_list]; [by split|]. cbn [fst snd].
  assert (Hi : Inv s) by by apply ereachable_inv.
  assert (HT : i ∈ items_in s f k) by (rewrite (items_in_eq einv s f k (proj1 Hi)), Hl; cbn; set_solver).
  destruct (ibody einv f k (iz_do z c i s) s) as [[[s1 d] ev1] r1] eqn:H1.
  destruct (body_harmless f k _ s s1 d ev1 r1 (Hz c i s) Hs Hk (He c i s k Hs HT) H1) as [Hok ->].
  destruct r1 as [[]|x| |]; [|by split|by destruct Hok..].
  destruct (body_within f k _ s s1 false ev1 (Ret tt) (Hz c i s) Hs H1) as [Hs1 _]; [done|].
  destruct (body_calm f k _ s s1 ev1 (Ret tt) (Hz c i s) Hs Hk H1) as (K1 & E1 & _); [done|].
  assert (Hn : ok (snd (visit_list einv z f k l (iz_memory z c i s) (s1, seen ++ [i])))) by (apply IH; [done..|congruence|set_solver]).
  by destruct (visit_list einv z f k l (iz_memory z c i s) (s1, seen ++ [i])) as [[s2 ev2] r2].
Qed.

Lemma types_harmless f ks c s seen : (forall c i s, allowed (iz_do z c i s)) ->
  (forall c i s T, ereachable einv s -> i ∈ items_in s f T -> each_call einv (harmless f T) (iz_do z c i s) s) -> ereachable einv s -> known s f ->
  ok (snd (visit_types einv z f ks c (s, seen))).
Proof.
  intros Hz He. revert c s seen. induction ks as [|k ks IH]; intros c s seen Hs Hk; cbn [visit_types]; [by split|]. cbn [fst].
  destruct Hk as [v Hv]. rewrite (content_some s f v) by (done || by apply ereachable_inv).
  assert (Hk : known s f) by by exists v. destruct (its s f !! k) as [l|] eqn:Hl; [|by apply IH].
  assert (H0 := list_harmless f k l l c s seen Hz He Hs Hk Hl (reflexivity _)).
  destruct (visit_list einv z f k l c (s, seen)) as [[[s1 seen1] ev1] r1] eqn:H1. cbn in H0.
  destruct r1 as [c1|x| |]; [|by split|by destruct H0..].
  destruct (list_complete f k l c s seen s1 seen1 ev1 c1 Hz Hs Hk H1) as (Hs1 & K1 & _).
  specialize (IH c1 s1 seen1 Hs1 K1). by destruct (visit_types einv z f ks c1 (s1, seen1)) as [[s2 ev2] r2].
Qed.

(** *** The call *)

Lemma with_known io f v c s seen : ereachable einv s -> dg_map (dg s) !! f = Some v ->
  visit_items_with einv io z f c (s, seen) = visit_types einv z f (io v (its s f)) c (s, seen).
Proof.
  intros Hs Hv. assert (Hi : Inv s) by by apply ereachable_inv. unfold visit_items_with. cbn [fst].
  rewrite (check_some einv s f v) by (done || by destruct Hi). rewrite (content_some s f v) by done. by rewrite (bg_vertex_some _ _ _ Hv).
Qed.
Lemma all_known io f v s : ereachable einv s -> dg_map (dg s) !! f = Some v ->
  all_items io s f = concat ((fun k => default [] (its s f !! k)) <$> io v (its s f)).
Proof.
  intros Hs Hv. assert (Hi : Inv s) by by apply ereachable_inv. destruct Hi as [Hwf _]. unfold all_items, visit_items.
  rewrite (check_some einv s f v) by done. cbn. rewrite (bg_vertex_some _ _ _ Hv). by rewrite (items_at_some einv s f v).
Qed.
Theorem vi_unknown io f c s : ereachable einv s -> contains_frame (es_g s) f = false ->
  visit_items_with einv io z f c (s, []) = ((s, []), [], Throw (XUnknownFrame f)).
Proof.
  intros Hs Hf. assert (Hi : Inv s) by by apply ereachable_inv. unfold visit_items_with. cbn [fst]. rewrite check_none; [done|].
  destruct (dg_map (dg s) !! f) as [v|] eqn:Hv; [|done]. assert (contains_frame (es_g s) f = true) by (apply known_contains; [done|by exists v]). congruence.
Qed.

Theorem vi_each io f c s s' seen ev r : (forall c i s, allowed (iz_do z c i s)) ->
  (forall c i s, ereachable einv s -> stored s f i -> each_call einv (elsewhere f) (iz_do z c i s) s) -> ereachable einv s -> contains_frame (es_g s) f = true ->
  visit_items_with einv io z f c (s, []) = ((s', seen), ev, r) ->
  all_items io s' f = all_items io s f /\
  ((exists c', r = Ret c' /\ seen = all_items io s f) \/ (exists x todo, r = Throw x /\ all_items io s f = seen ++ todo /\ seen <> [])).
Proof.
  intros Hz He Hs Hf Hr. apply known_contains in Hf as [v Hv]; [|by apply ereachable_inv]. rewrite (with_known io f v) in Hr by done.
  apply types_else in Hr as (Hs' & E1 & M1 & H); [|done..|by exists v]. rewrite (all_known io f v s'), E1 by auto. rewrite (all_known io f v s) by done.
  split; [done|]. destruct H as [(c' & -> & ->)|(x & l1 & l2 & -> & Hl & Hne & ->)]; [left; eauto|right]. exists x, l2. done.
Qed.

Theorem vi_complete io f c c' s s' seen ev : (forall c i s, allowed (iz_do z c i s)) -> iorder_ok io -> ereachable einv s ->
  visit_items_with einv io z f c (s, []) = ((s', seen), ev, Ret c') ->
  (forall i, i ∈ seen -> stored s f i \/ EvItemAdded f i ∈ ev) /\ (forall i, stored s' f i -> i ∈ seen \/ EvItemAdded f i ∈ ev).
Proof.
  intros Hz Hio Hs Hr. assert (Hi : Inv s) by by apply ereachable_inv.
  destruct (dg_map (dg s) !! f) as [v|] eqn:Hv; cycle 1.
  { unfold visit_items_with in Hr. cbn [fst] in Hr. by rewrite check_none in Hr. }
  rewrite (with_known io f v) in Hr by done.
  apply types_complete in Hr as (Hs' & K1 & D1 & W1 & new & -> & Hn & Hc); [|done..|by exists v]. cbn. split.
  - intros i Hin. rewrite stored_iff by done. auto.
  - intros i. rewrite stored_iff by by apply ereachable_inv. intros [T HT]. eapply Hc; [|done].
    apply iorder_elem; [done|]. destruct (its s' f !! T) as [l|] eqn:Hl; [|by apply elem_of_nil in HT].
    apply elem_of_dom, D1, elem_of_dom. by exists l.
Qed.

Theorem vi_calls f : (forall c i s, allowed (iz_do z c i s)) ->
  (forall c i s, ereachable einv s -> stored s f i -> each_call einv (elsewhere f) (iz_do z c i s) s) ->
  forall c i s T, ereachable einv s -> i ∈ items_in s f T -> each_call einv (harmless f T) (iz_do z c i s) s.
Proof.
  intros Hz He c i s T Hs HT. assert (Hst : stored s f i) by by exists T. apply else_harmless; [done..| |by apply He].
  eapply stored_known; [by apply ereachable_inv|done].
Qed.

Theorem vi_defined io f c s : (forall c i s, allowed (iz_do z c i s)) ->
  (forall c i s T, ereachable einv s -> i ∈ items_in s f T -> each_call einv (harmless f T) (iz_do z c i s) s) -> ereachable einv s ->
  ok (snd (visit_items_with einv io z f c (s, []))).
Proof.
  intros Hz He Hs. assert (Hi : Inv s) by by apply ereachable_inv.
  destruct (dg_map (dg s) !! f) as [v|] eqn:Hv; cycle 1.
  { unfold visit_items_with. cbn [fst]. by rewrite check_none. }
  rewrite (with_known io f v) by done. apply types_harmless; [done..|by exists v].
Qed.

Lemma list_reads f k l c s seen : (forall c i s, iz_do z c i s = IEnd) ->
  visit_list einv z f k l c (s, seen) = ((s, seen ++ l), [], Ret (foldl (fun c i => iz_memory z c i s) c l)).
Proof.
  intros Hz. revert c seen. induction l as [|i l IH]; intros c seen; cbn [visit_list]; [by rewrite app_nil_r|]. cbn [fst snd]. rewrite Hz. cbn [ibody].
  rewrite IH, <- app_assoc. done.
Qed.
Lemma types_reads f ks c s seen : (forall c i s, iz_do z c i s = IEnd) -> Inv s -> known s f ->
  visit_types einv z f ks c (s, seen) = ((s, seen ++ concat ((fun k => default [] (its s f !! k)) <$> ks)), [],
    Ret (foldl (fun c i => iz_memory z c i s) c (concat ((fun k => default [] (its s f !! k)) <$> ks)))).
Proof.
  intros Hz Hi [v Hv]. revert c seen. induction ks as [|k ks IH]; intros c seen; cbn [visit_types]; [cbn; by rewrite app_nil_r|]. cbn [fst].
  rewrite (content_some s f v) by done. cbn [fmap list_fmap concat]. destruct (its s f !! k) as [l|] eqn:Hl; cbn [from_option]; unfold id at 1.
  - rewrite list_reads, IH, foldl_app, <- app_assoc by done. done.
  - cbn. by rewrite IH.
Qed.
Theorem vi_reads io f c s : (forall c i s, iz_do z c i s = IEnd) -> ereachable einv s -> contains_frame (es_g s) f = true ->
  visit_items_with einv io z f c (s, []) = ((s, all_items io s f), [], Ret (foldl (fun c i => iz_memory z c i s) c (all_items io s f))).
Proof.
  intros Hz Hs Hf. apply known_contains in Hf as [v Hv]; [|by apply ereachable_inv]. rewrite (with_known io f v), (all_known io f v) by done.
  rewrite types_reads; [done..|by apply ereachable_inv|by exists v].
Qed.

(** The first item and the first list. *)
Lemma first_list io f i l s : iorder_ok io -> ereachable einv s -> all_items io s f = i :: l ->
  exists v k ks l', dg_map (dg s) !! f = Some v /\ io v (its s f) = k :: ks /\ its s f !! k = Some (i :: l').
Proof.
  intros Hio Hs Hl. destruct (dg_map (dg s) !! f) as [v|] eqn:Hv; cycle 1.
  { unfold all_items, visit_items in Hl. by rewrite check_none in Hl. }
  rewrite (all_known io f v) in Hl by done. destruct (io v (its s f)) as [|k ks] eqn:Hks; [done|].
  assert (Hk : k ∈ io v (its s f)) by (rewrite Hks; by left). apply iorder_elem in Hk as [l0 Hl0]; [|done].
  cbn in Hl. rewrite Hl0 in Hl. cbn in Hl. destruct l0 as [|j l0]; [exfalso; eapply (Inv_ne s f k []); [by apply ereachable_inv|done..]|].
  injection Hl as -> _. exists v, k, ks, l0. done.
Qed.

Lemma vi_disturbed io f c i l s ord io' op s1 ev1 u : iorder_ok io -> ereachable einv s -> all_items io s f = i :: l ->
  iz_do z c i s = ICall ord io' op (fun _ _ => IEnd) -> estep einv ord io' op s = (s1, ev1, Ret u) ->
  (forall k l', its s f !! k = Some (i :: l') -> disturbs f k s s1 = true) ->
  snd (visit_items_with einv io z f c (s, [])) = UB.
Proof.
  intros Hio Hs Hl Hz Hop Hd. destruct (first_list io f i l s Hio Hs Hl) as (v & k & ks & l' & Hv & Hks & Hk).
  rewrite (with_known io f v), Hks by done. cbn [visit_types fst]. rewrite (content_some s f v), Hk by (done || by apply ereachable_inv).
  cbn [visit_list fst snd]. rewrite Hz. cbn [ibody]. rewrite Hop. by rewrite (Hd k l' Hk).
Qed.

Theorem vi_remove io f c i l s ord io' : iorder_ok io -> ereachable einv s -> all_items io s f = i :: l ->
  (exists x, deref s i = Ret x /\ it_frame x = f) -> iz_do z c i s = ICall ord io' (ERemoveItem i) (fun _ _ => IEnd) ->
  snd (visit_items_with einv io z f c (s, [])) = UB.
Proof.
  intros Hio Hs Hl (x & Hx & Hfr) Hz. destruct (first_list io f i l s Hio Hs Hl) as (v & k & ks & l' & Hv & Hks & Hk).
  assert (Hi : Inv s) by by apply ereachable_inv. unfold deref in Hx. destruct (es_heap s !! i) as [x'|] eqn:Hx'; [|done]. injection Hx as ->.
  assert (HT : it_type x = k).
  { destruct Hi as [_ Hi]. destruct (Hi f k _ Hk) as [_ Hall]. apply list.Forall_cons in Hall as [(y & Hy & <-) _]. congruence. }
  assert (He : erase_first i (i :: l') = Some l') by (cbn; by rewrite Nat.eqb_refl).
  subst f. assert (Hr := remove_item_eq einv i x v (i :: l') l' s (proj1 Hi) Hx' Hv). rewrite HT in Hr. specialize (Hr Hk He).
  eapply vi_disturbed; [done..|cbn [estep]; exact Hr|]. intros k2 l2 Hk2.
  assert (k2 = k) as ->.
  { destruct Hi as [_ Hi]. destruct (Hi _ k2 _ Hk2) as [_ Hall]. apply list.Forall_cons in Hall as [(y & Hy & <-) _]. congruence. }
  unfold disturbs. rewrite (content_some s _ v) by done. unfold content. change (es_g (with_heap ?h ?t)) with (es_g t).
  match goal with |- context [put ?a ?b ?c] => set (s2 := put a b c) end.
  assert (Hwf2 : dg_wf (dg s2)) by (apply wf_put; by destruct Hi).
  rewrite (get_vertex_some einv _ (it_frame x) v) by done. cbn [obind].
  change (items_at (with_heap ?h s2) v) with (items_at s2 v). rewrite (items_at_some einv s2 (it_frame x) v) by done.
  unfold s2. rewrite (items_of_put einv _ v), decide_True by (done || by destruct Hi).
  rewrite (bool_decide_eq_false_2 (_ !! k = _)); [done|]. rewrite Hk. unfold shrink. case_decide as Hd.
  - by rewrite lookup_delete.
  - rewrite lookup_insert. intros [= H]. apply (f_equal length) in H. cbn in H. lia.
Qed.

Theorem vi_add io f c i j l T s ord io' : iorder_ok io -> ereachable einv s -> all_items io s f = i :: l ->
  type_of s i T -> type_of s j T -> iz_do z c i s = ICall ord io' (EAddItemTo f j) (fun _ _ => IEnd) ->
  snd (visit_items_with einv io z f c (s, [])) = UB.
Proof.
  intros Hio Hs Hl (x & Hx & Hxt) (y & Hy & Hyt) Hz. destruct (first_list io f i l s Hio Hs Hl) as (v & k & ks & l' & Hv & Hks & Hk).
  assert (Hi : Inv s) by by apply ereachable_inv. unfold deref in Hx, Hy.
  destruct (es_heap s !! i) as [x'|] eqn:Hx'; [|done]. injection Hx as ->. destruct (es_heap s !! j) as [y'|] eqn:Hy'; [|done]. injection Hy as ->.
  assert (Hr := add_item_to_frame_eq einv f v j y s (proj1 Hi) Hv Hy').
  eapply vi_disturbed; [done..|cbn [estep]; exact Hr|]. intros k2 l2 Hk2.
  assert (k2 = T) as ->.
  { destruct Hi as [_ Hi]. destruct (Hi _ k2 _ Hk2) as [_ Hall]. apply list.Forall_cons in Hall as [(y0 & Hy0 & <-) _]. congruence. }
  unfold disturbs. rewrite (content_some s _ v) by done. unfold content. change (es_g (with_heap ?h ?t)) with (es_g t).
  match goal with |- context [put ?a ?b ?c] => set (s2 := put a b c) end.
  assert (Hwf2 : dg_wf (dg s2)) by (apply wf_put; by destruct Hi).
  rewrite (get_vertex_some einv _ f v) by done. cbn [obind].
  change (items_at (with_heap ?h s2) v) with (items_at s2 v). rewrite (items_at_some einv s2 f v) by done.
  unfold s2. rewrite (items_of_put einv _ v), decide_True by (done || by destruct Hi).
  rewrite (bool_decide_eq_false_2 (_ !! T = _)); [done|]. rewrite Hyt, Hk2, lookup_insert. cbn. intros [= H].
  apply (f_equal length) in H. rewrite app_length in H. cbn in H. lia.
Qed.
End thms.
