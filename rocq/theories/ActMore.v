(** Slots that get in the way of the call during which they run. *)
From stdpp Require Import prelude strings gmap.
From Verif Require Import ListLib Outcome Digraph Bfs TreeView GraphModel GraphOps GraphWf GraphStep SpecStore SpecObs GraphThms
  HandlerModel SpecHandler ActModel ActThms SpecAct ActQuiet.

Section more.
Context {D E : Type} (d0 : D) (einv : E -> E).
Local Notation gst := (gst D E).
Local Notation ast := (ast D E).
Local Notation dg s := (gs_dg (fst s)).
Implicit Types g : digraph D E.

(** Slots that set edge properties keep out of the way. *)
Lemma set_prop_shape i p g : same_shape (@id D) (fun _ : E => tt) (bg_set_prop i p g) g.
Proof.
  split; try done. cbn. rewrite <-list_fmap_compose. apply list_fmap_ext. intros k e _. cbn. by destruct (Nat.eqb (e_id e) i).
Qed.

Lemma set_prop_quiet o t p (s s' : gst) ev r : intact (gs_dg s) -> set_edge_property einv o t p s = (s', ev, r) ->
  ended r /\ gs_subs s' = gs_subs s /\ gs_views s' = gs_views s /\ same_shape id (fun _ => tt) (gs_dg s') (gs_dg s) /\ filter structural ev = [].
Proof.
  intros [Hm He]. unfold set_edge_property, set_edge_property_v, cbind, cread, cmodify, cnotify.
  assert (Hal : forall f v, get_vertex s f = Ret v -> v <> 0 /\ bg_alive (gs_dg s) v = true).
  { intros f v. unfold get_vertex. destruct (Nat.eqb_spec (bg_vertex (gs_dg s) f) null_vertex) as [|Hne]; [done|]. intros [= <-].
    split; [done|]. revert Hne. unfold bg_vertex. destruct (dg_map (gs_dg s) !! f) eqn:Hf; [|done]. intros _. by apply (Hm f). }
  assert (Hfid : forall (s1 : gst) v, v <> 0 -> bg_alive (gs_dg s1) v = true -> exists f, get_frame_id s1 v = Ret f).
  { intros s1 v Hv Ha. unfold get_frame_id. destruct (Nat.eqb_spec v null_vertex); [done|]. unfold bg_vrec.
    apply existsb_exists in Ha as (x & Hx & Hxv). destruct (find _ _) as [y|] eqn:Hf; [by eexists|]. by rewrite (find_none _ _ Hf x Hx) in Hxv. }
  assert (Hgv : forall f, (exists v, get_vertex s f = Ret v) \/ exists x, get_vertex s f = Throw x).
  { intros f. unfold get_vertex. destruct (Nat.eqb _ _); [right|left]; by eexists. }
  assert (Hthrow : forall x, ended (Throw x : outcome unit)) by (intros x; right; by eexists).
  destruct (Hgv o) as [[vo Ho]|[x ->]]; [|intros [= <- <- <-]; by split_and!].
  rewrite Ho. destruct (Hgv t) as [[vt Ht]|[x ->]]; [|intros [= <- <- <-]; by split_and!].
  rewrite Ht. apply Hal in Ho as [Ho0 Ho], Ht as [Ht0 Ht]. unfold find_edge. rewrite Ho.
  destruct (bg_edge (gs_dg s) vo vt) as [e|] eqn:Hedge.
  2: { destruct (Hfid s vo Ho0 Ho) as [fo ->]. destruct (Hfid s vt Ht0 Ht) as [ft ->].
    intros [= <- <- <-]. by split_and!. }
  cbn [gs_set_dg gs_dg]. change (bg_alive (bg_set_prop (e_id e) p (gs_dg s)) vt) with
    (existsb (fun r => Nat.eqb (v_id r) vt) (dg_verts (gs_dg s))).
  change (existsb (fun r => Nat.eqb (v_id r) vt) (dg_verts (gs_dg s))) with (bg_alive (gs_dg s) vt). rewrite Ht.
  destruct (bg_edge (bg_set_prop (e_id e) p (gs_dg s)) vt vo) as [e'|] eqn:Hedge'.
  2: { exfalso. apply find_some in Hedge as [Hin Hb]. apply andb_true_iff in Hb as [Hs1 Ht1].
    apply Nat.eqb_eq in Hs1, Ht1. apply elem_of_list_In in Hin. destruct (He e Hin) as (_ & _ & e2 & Hin2 & Hs2 & Ht2).
    unfold bg_edge in Hedge'. cbn in Hedge'.
    pose proof (find_none _ _ Hedge' (if Nat.eqb (e_id e2) (e_id e) then ERec (e_id e2) (e_src e2) (e_tgt e2) p else e2)) as Hn.
    assert (Hx : In (if Nat.eqb (e_id e2) (e_id e) then ERec (e_id e2) (e_src e2) (e_tgt e2) p else e2)
      ((λ e0 : erec E, if Nat.eqb (e_id e0) (e_id e) then {| e_id := e_id e0; e_src := e_src e0; e_tgt := e_tgt e0; e_prop := p |} else e0)
         <$> dg_edges (gs_dg s))).
    { apply elem_of_list_In, elem_of_list_fmap. by exists e2. }
    apply Hn in Hx. revert Hx. destruct (Nat.eqb (e_id e2) (e_id e)); cbn; rewrite Hs2, Ht2, Hs1, Ht1, !Nat.eqb_refl; done. }
  cbn [gs_set_dg gs_dg].
  match goal with |- context [get_frame_id ?s2 vo] => set (s2' := s2) end.
  assert (Ha2 : forall v, bg_alive (gs_dg s2') v = bg_alive (gs_dg s) v) by done.
  destruct (Hfid s2' vo Ho0) as [fo ->]; [by rewrite Ha2|]. destruct (Hfid s2' vt Ht0) as [ft ->]; [by rewrite Ha2|].
  intros [= <- <- <-]. split_and!; try done.
  - left. by eexists.
  - cbn. eapply sh_trans; apply set_prop_shape.
Qed.

Theorem set_prop_considerate (pick : viewid -> vsig -> gst -> frameid * frameid * E) ord fuel depth :
  considerate (@id D) (fun _ : E => tt) (fun _ => True)
    (act_slots d0 einv (fun i x s => SCall ord (OSetProp (pick i x s).1.1 (pick i x s).1.2 (pick i x s).2) (fun _ _ => SEnd)) fuel (S depth)).
Proof.
  intros i x [s n] s' ev r Hin. cbn [act_slots act_exec gact gstep fst]. unfold alift. cbn [fst snd].
  destruct (set_edge_property einv _ _ _ s) as [[s1 ev1] r1] eqn:H1.
  destruct (set_prop_quiet _ _ _ _ _ _ _ Hin H1) as (Hend & Hsub & Hvw & Hsh & Hev).
  rewrite bool_decide_eq_true_2 by done.
  destruct Hend as [[a ->]|[y ->]]; cbn; rewrite app_nil_r; intros [= <- <- <-]; split_and!; try done; intros j _; cbn; by rewrite Hvw.
Qed.

(** The state in which the slots run when a new edge puts a frame into the first subscribed view. *)
Definition during (o t : vid) (p : E) (i : viewid) (w : tview) (s : gst) (n : nat) : ast :=
  (gs_set_view i (tv_add_edge o t w) (gs_set_dg (dg_add2 einv o t p (gs_dg s)) s), n).

Lemma no_edges g v : bg_degree g v = 0 -> forall e, e ∈ dg_edges g -> e_src e <> v /\ e_tgt e <> v.
Proof.
  unfold bg_degree. intros Hd e He.
  assert (Ho : length (bg_out g v) = 0) by lia. assert (Hi : length (bg_in g v) = 0) by lia.
  apply nil_length_inv in Ho, Hi. split; intros Hv.
  - assert (H : e ∈ bg_out g v) by by apply elem_of_list_filter. rewrite Ho in H. by apply elem_of_nil in H.
  - assert (H : e ∈ bg_in g v) by by apply elem_of_list_filter. rewrite Hi in H. by apply elem_of_nil in H.
Qed.

Lemma degree_new o t p g : o <> t -> bg_degree g t = 0 -> bg_degree (dg_add2 einv o t p g) t = 2.
Proof.
  intros Hne Hd. unfold bg_degree, bg_in, bg_out in *. unfold dg_add2, bg_add_edge. cbn.
  rewrite !filter_app, !app_length. rewrite !filter_cons, !filter_nil. cbn.
  rewrite !(decide_True (P := t = t)) by done. rewrite !(decide_False (P := o = t)) by done. cbn. lia.
Qed.

Section first.
Context (h : viewid -> vsig -> call ast unit) (fuel : nat) (o t : vid) (p : E) (s : gst) (n : nat) (i : viewid) (l : list viewid) (w : tview).
Context (Ho : bg_alive (gs_dg s) o = true) (Ht : bg_alive (gs_dg s) t = true) (Hne : o <> t) (Hdeg : bg_degree (gs_dg s) t = 0).
Context (Hsub : gs_subs s = i :: l) (Hw : gs_views s !! i = Some w).
Context (Hwo : tv_vertex_exists w o = true) (Hwt : tv_vertex_exists w t = false).

Lemma first_edge : bg_edge (gs_dg s) o t = None.
Proof.
  destruct (bg_edge (gs_dg s) o t) as [e|] eqn:He; [|done]. apply find_some in He as [Hin Hb].
  apply andb_true_iff in Hb as [_ Htt%Nat.eqb_eq]. apply elem_of_list_In in Hin. by apply (no_edges _ _ Hdeg) in Hin as [_ ?].
Qed.

Lemma first_slot s4 ev r : h i (SigAdded o t) (during o t p i w s n) = (s4, ev, r) ->
  match r with
  | Throw x => act_add_edge_v einv h fuel o t p (s, n) = (s4, ev, Throw x)
  | Ret _ => gs_dg (fst s4) = dg_add2 einv o t p (gs_dg s) -> snd s4 <> n ->
             act_add_edge_v einv h fuel o t p (s, n) = (s4, ev, UB)
  | _ => True
  end.
Proof.
  intros Hh.
  assert (Hadd : act_add_edge h i o t (gs_set_dg (dg_add2 einv o t p (gs_dg s)) s, n) = (s4, ev, r)).
  { unfold act_add_edge, aview, aread, cread, cbind. cbn [fst gs_set_dg gs_views]. rewrite Hw. unfold aemit, aset, cmodify, cbind.
    cbn [fst snd]. unfold during in Hh.
    change (tv_add_edge o t w) with (tv_emit (SigAdded o t) (tv_set_tree
       (<[t:={| vr_parent := o; vr_children := vr_children (tv_rel (<[o:={| vr_parent := vr_parent (tv_rel (tv_tree w) o);
            vr_children := set_insert t (vr_children (tv_rel (tv_tree w) o)) |}]> (tv_tree w)) t) |}]>
         (<[o:={| vr_parent := vr_parent (tv_rel (tv_tree w) o); vr_children := set_insert t (vr_children (tv_rel (tv_tree w) o)) |}]>
            (tv_tree w))) w)) in Hh.
    cbv zeta. rewrite Hh. destruct r; done. }
  assert (Hview : forall k, act_views (act_add_to_view h fuel (ERec k o t p)) n (i :: l) (gs_set_dg (dg_add2 einv o t p (gs_dg s)) s, n) =
    match r with
    | Ret _ => act_views (act_add_to_view h fuel (ERec k o t p)) n (i :: l) (gs_set_dg (dg_add2 einv o t p (gs_dg s)) s, n)
    | Throw x => (s4, ev, Throw x)
    | UB => (s4, ev, UB)
    | Fuel => (s4, ev, Fuel)
    end).
  { intros k. destruct r; [done| | |]; cbn [act_views]; unfold act_add_to_view, aview, aread, cread, cbind; cbn [fst gs_set_dg gs_views];
      rewrite Hw; cbn [get_source_vertex get_target_vertex e_src e_tgt]; rewrite Hwo, Hwt; unfold act_grow, cbind; rewrite Hadd; done. }
  assert (Hret : forall k a, r = Ret a -> gs_dg (fst s4) = dg_add2 einv o t p (gs_dg s) -> snd s4 <> n ->
    act_views (act_add_to_view h fuel (ERec k o t p)) n (i :: l) (gs_set_dg (dg_add2 einv o t p (gs_dg s)) s, n) = (s4, ev, UB)).
  { intros k a -> Hd4 Hn4. cbn [act_views]. unfold act_add_to_view, aview, aread, cread, cbind. cbn [fst gs_set_dg gs_views].
    rewrite Hw. cbn [get_source_vertex get_target_vertex e_src e_tgt]. rewrite Hwo, Hwt. unfold act_grow, cbind. rewrite Hadd.
    unfold aread, cread. rewrite Hd4.
    change (bg_alive (dg_add2 einv o t p (gs_dg s)) t) with (bg_alive (gs_dg s) t). rewrite Ht, degree_new by done.
    rewrite bool_decide_eq_false_2 by lia. cbn [cret]. cbv beta iota zeta.
    destruct (Nat.eqb_spec (snd s4) n); [done|]. cbn. by rewrite !app_nil_r. }
  assert (Hpre : forall X, (forall k, act_views (act_add_to_view h fuel (ERec k o t p)) n (i :: l)
      (gs_set_dg (dg_add2 einv o t p (gs_dg s)) s, n) = (s4, ev, X)) -> (exists x, X = Throw x) \/ X = UB ->
    act_add_edge_v einv h fuel o t p (s, n) = (s4, ev, X)).
  { intros X HX Hcase. unfold act_add_edge_v, aread, cread, cbind. cbn [fst]. unfold find_edge. rewrite Ho. cbv beta iota zeta. rewrite first_edge. cbv beta iota zeta. cbn [fst]. rewrite Ht. cbv beta iota zeta.
    unfold alift, cmodify. cbn [fst snd bg_add_edge gs_set_dg gs_subs]. rewrite bool_decide_eq_true_2 by done.
    specialize (HX (dg_nexte (gs_dg s))). unfold gs_set_dg, dg_add2, bg_add_edge in HX |- *.
    cbn [fst snd gs_dg gs_subs gs_views dg_verts dg_edges dg_map dg_nextv dg_nexte dg_maxvi dg_nv dg_ne] in HX |- *.
    rewrite !Hsub in HX |- *. rewrite HX. destruct Hcase as [[x ->]| ->]; done. }
  destruct r as [a|x| |]; try done.
  - intros Hd Hn. apply Hpre; [|by right]. intros k. by apply (Hret k a).
  - apply Hpre; [|left; by eexists]. intros k. by rewrite Hview.
Qed.

End first.

(** A slot that changes the list of subscribed views: undefined behaviour. *)
Theorem subscription_ub h fuel ord o t p (s : gst) n i l w :
  bg_alive (gs_dg s) o = true -> bg_alive (gs_dg s) t = true -> o <> t -> bg_degree (gs_dg s) t = 0 ->
  gs_subs s = i :: l -> gs_views s !! i = Some w -> tv_vertex_exists w o = true -> tv_vertex_exists w t = false ->
  (forall s1, exists s2 ev, h i (SigAdded o t) s1 = (s2, ev, Ret tt) /\ gs_dg (fst s2) = gs_dg (fst s1) /\ snd s2 <> snd s1) ->
  snd (gact d0 einv h fuel ord (OAddEdgeV o t p) (s, n)) = UB.
Proof.
  intros Ho Ht Hne Hd Hsub Hw Hwo Hwt Hh. destruct (Hh (during o t p i w s n)) as (s2 & ev & Hh2 & Hd2 & Hn2).
  cbn [gact]. pose proof (first_slot h fuel o t p s n i l w Ho Ht Hne Hd Hsub Hw Hwo Hwt _ _ _ Hh2) as H. cbv beta iota in H.
  by rewrite H.
Qed.

(** A slot that throws: the caller sees the exception, the edge is there, it was not announced, and the other views were not told. *)
Theorem throw_half h fuel ord o t p (s : gst) n i l w x :
  bg_alive (gs_dg s) o = true -> bg_alive (gs_dg s) t = true -> o <> t -> bg_degree (gs_dg s) t = 0 ->
  gs_subs s = i :: l -> gs_views s !! i = Some w -> tv_vertex_exists w o = true -> tv_vertex_exists w t = false ->
  (forall s1, h i (SigAdded o t) s1 = (s1, [], Throw x)) ->
  exists s', gact d0 einv h fuel ord (OAddEdgeV o t p) (s, n) = ((s', n), [], Throw x) /\
    contains_edge_v s' o t = Ret true /\ contains_edge_v s' t o = Ret true /\
    (forall j, j <> i -> gs_views s' !! j = gs_views s !! j).
Proof.
  intros Ho Ht Hne Hd Hsub Hw Hwo Hwt Hh. cbn [gact].
  pose proof (first_slot h fuel o t p s n i l w Ho Ht Hne Hd Hsub Hw Hwo Hwt _ _ _ (Hh _)) as H. cbn beta iota in H.
  rewrite H. eexists. split; [done|].
  assert (Hedge : forall u v, (u = o /\ v = t) \/ (u = t /\ v = o) -> bg_edge (dg_add2 einv o t p (gs_dg s)) u v <> None).
  { intros u v Huv Hn. unfold bg_edge, dg_add2, bg_add_edge in Hn. cbn in Hn.
    destruct Huv as [[-> ->]|[-> ->]].
    - pose proof (find_none _ _ Hn (ERec (dg_nexte (gs_dg s)) o t p)) as Hf. cbn in Hf. rewrite !Nat.eqb_refl in Hf.
      discriminate Hf. apply elem_of_list_In, elem_of_app. left. apply elem_of_app. right. by apply elem_of_list_singleton.
    - pose proof (find_none _ _ Hn (ERec (S (dg_nexte (gs_dg s))) t o (einv p))) as Hf. cbn in Hf. rewrite !Nat.eqb_refl in Hf.
      discriminate Hf. apply elem_of_list_In, elem_of_app. right. by apply elem_of_list_singleton. }
  split_and!.
  - unfold contains_edge_v, find_edge. cbn [gs_dg gs_set_view gs_set_dg].
    change (bg_alive (dg_add2 einv o t p (gs_dg s)) o) with (bg_alive (gs_dg s) o). rewrite Ho. cbn [obind].
    rewrite bool_decide_eq_true_2; [done|]. specialize (Hedge o t (or_introl (conj eq_refl eq_refl))).
    destruct (bg_edge _ _ _); [by eexists|done].
  - unfold contains_edge_v, find_edge. cbn [gs_dg gs_set_view gs_set_dg].
    change (bg_alive (dg_add2 einv o t p (gs_dg s)) t) with (bg_alive (gs_dg s) t). rewrite Ht. cbn [obind].
    rewrite bool_decide_eq_true_2; [done|]. specialize (Hedge t o (or_intror (conj eq_refl eq_refl))).
    destruct (bg_edge _ _ _); [by eexists|done].
  - intros j Hj. cbn. by rewrite lookup_insert_ne.
Qed.

End more.
