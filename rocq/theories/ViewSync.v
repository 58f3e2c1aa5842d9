(** A subscribed view stays in step with the graph while edges are added. *)
From stdpp Require Import prelude strings gmap.
From Verif Require Import ListLib Outcome Digraph Bfs TreeView GraphModel GraphOps GraphWf GraphStep
  GraphStore GraphRefine SpecWalk WalkThms BfsThms BfsFind SpecTree BuildThms SyncThms ViewStep.

(** *** The publisher pointer and the connections of a view *)

Definition wire w : bool * list nat * list nat * list nat := (tv_pub w, tv_slots_cross w, tv_slots_added w, tv_slots_removed w).

Lemma build_wire {E} (tr : list (bev E)) w :
  wire (build_tree tr w) = wire w /\ tv_root (build_tree tr w) = tv_root w.
Proof.
  unfold build_tree. revert w. induction tr as [|b tr IH]; intros w; [done|]. cbn.
  destruct (IH (build_step b w)) as [-> ->]. by destruct b.
Qed.

Lemma build_pub {E} (tr : list (bev E)) w :
  tv_pub (build_tree tr w) = tv_pub w /\ tv_root (build_tree tr w) = tv_root w.
Proof. destruct (build_wire tr w) as [Hw Hr]. split; [|done]. by injection Hw. Qed.

Lemma remove_vertices_wire vs w : wire (fst (tv_remove_vertices vs w)) = wire w /\
  tv_root (fst (tv_remove_vertices vs w)) = tv_root w.
Proof.
  revert w. induction vs as [|v vs IH]; intros w; [done|]. cbn [tv_remove_vertices].
  case_bool_decide; [|done]. by edestruct IH as [-> ->].
Qed.

Lemma remove_edge_wire ord o t w : wire (fst (tv_remove_edge ord o t w)) = wire w /\
  tv_root (fst (tv_remove_edge ord o t w)) = tv_root w.
Proof.
  unfold tv_remove_edge. destruct (if _ =? o then _ else _); [|done].
  destruct (tv_visit_bfs _ _ _ _) as [vis r]. destruct (xs_steps _ _) as [xs|]; [|done].
  destruct r; try done. 
  pose proof (remove_vertices_wire (rev vis.*1) (tv_set_cross (xs_cross xs) w)) as Hp.
  destruct (tv_remove_vertices _ _) as [w2 r2]. cbn in Hp.
  destruct r2; try done. by destruct (xs_leaving xs).
Qed.

Lemma view_remove_wire ord o t w : wire (fst (view_remove ord o t w)) = wire w /\
  tv_root (fst (view_remove ord o t w)) = tv_root w.
Proof.
  unfold view_remove. destruct (tv_edge_exists w o t) as [[]| | |]; try done. apply remove_edge_wire.
Qed.

Lemma elem_pos {A} (x : A) l : x ∈ l -> 1 <= length l.
Proof. destruct l; [by intros ?%elem_of_nil|cbn; lia]. Qed.

Section viewsync.
Context {D E : Type} (d0 : D) (einv : E -> E).
Local Notation dg_wf := (dg_wf einv).
Local Notation lstep := (lstep einv).
Implicit Types (s : gst D E) (g : digraph D E) (w : tview).

Lemma add_to_view_wire s ne w : wire (fst (add_edge_to_tree_view s ne w)) = wire w /\
  tv_root (fst (add_edge_to_tree_view s ne w)) = tv_root w.
Proof.
  unfold add_edge_to_tree_view.
  destruct (tv_vertex_exists w (get_source_vertex ne)), (tv_vertex_exists w (get_target_vertex ne)); [| | |done].
  - by destruct (tv_edge_exists _ _ _) as [[]| | |].
  - destruct (bg_alive _ _); [|done]. case_bool_decide; [|done].
    destruct (obind _ _); try done. cbn [fst]. by edestruct @build_wire as [-> ->].
  - destruct (bg_alive _ _); [|done]. case_bool_decide; [|done].
    destruct (obind _ _); try done. cbn [fst]. by edestruct @build_wire as [-> ->].
Qed.

Lemma wire_pub w w' : wire w' = wire w -> tv_pub w' = tv_pub w.
Proof. by intros [= -> _ _ _]. Qed.

(** *** One edge added *)

Lemma bg_alive_verts g g' v : dg_verts g' = dg_verts g -> bg_alive g' v = bg_alive g v.
Proof. unfold bg_alive. by intros ->. Qed.

Lemma add2_edges o t p g : dg_edges (dg_add2 einv o t p g) =
  dg_edges g ++ [ERec (dg_nexte g) o t p; ERec (S (dg_nexte g)) t o (einv p)].
Proof. unfold dg_add2. cbn. by rewrite <- app_assoc. Qed.

Lemma not_adjacent g o t : dg_wf g -> bg_edge g o t = None <-> ~ adjacent g o t.
Proof.
  intros Hwf. rewrite bg_edge_none. split.
  - intros H (e & He & Hs & Ht). by apply (H e He).
  - intros H e He [Hs Ht]. apply H. by exists e.
Qed.

(** A search from a vertex without edges. *)
Lemma bfs_lonely g flt root : dg_wf g -> bg_alive g root = true ->
  (forall e, e ∈ dg_edges g -> flt e = true -> e_src e <> root) ->
  exists tr, bfs_trace g flt root = Ret tr /\ forall w, build_tree tr w = w.
Proof.
  intros Hwf Hal Hno.
  destruct (bfs_trace_spec einv g flt root Hwf Hal) as (tr & Htr & Htw & Hres). exists (BDiscover root :: tr).
  split; [done|].
  assert (Hlone : forall v, is_Some (tdep root (BDiscover root :: tr) !! v) -> v = root).
  { intros v Hv. apply (br_disc _ _ _ Hres) in Hv. revert v Hv. apply linked_ind_r; [done|].
    intros x y _ -> (e & (Hf & Hs & He)%elem_fout & _). by destruct (Hno e He Hf). }
  assert (Hex : forall e, e ∉ ex (BDiscover root :: tr)).
  { intros e He. pose proof (br_ex _ _ _ Hres (e_src e)) as Hx.
    assert (Hxf : e ∈ filter (fun y => e_src y = e_src e) (ex (BDiscover root :: tr))) by by apply elem_of_list_filter.
    rewrite Hx in Hxf. case_decide as Hd; [|by apply elem_of_nil in Hxf].
    apply Hlone in Hd. apply elem_fout in Hxf as (Hf & _ & He'). by destruct (Hno e He' Hf). }
  intros w. unfold build_tree. cbn [foldl build_step].
  assert (Htr' : forall e, BTree e ∉ tr /\ BGray e ∉ tr).
  { intros e. split; intros He; apply (Hex e), elem_ex; [left|right; left]; by right. }
  clear - Htr'. revert w. induction tr as [|b tr IH]; intros w; [done|]. cbn.
  rewrite IH; [|intros e; destruct (Htr' e) as [H1 H2]; split; intros ?; [apply H1|apply H2]; by right].
  destruct b as [v|e|e|e|v]; try done.
  - destruct (Htr' e) as [H _]. destruct H. by left.
  - destruct (Htr' e) as [_ H]. destruct H. by left.
Qed.

Lemma add_edge_sync s1 g o t p w :
  dg_wf g -> bg_alive g o = true -> bg_alive g t = true -> o <> t -> bg_edge g o t = None ->
  gs_dg s1 = dg_add2 einv o t p g -> in_sync g w ->
  exists w', add_edge_to_tree_view s1 (ERec (dg_nexte g) o t p) w = (w', Ret tt) /\
    in_sync (dg_add2 einv o t p g) w' /\ tv_root w' = tv_root w /\ tv_pub w' = tv_pub w.
Proof.
  intros Hwf Ho Ht Hot Hn Hs1 Hs.
  assert (Hwf' : dg_wf (dg_add2 einv o t p g)) by by apply wf_add2.
  set (g' := dg_add2 einv o t p g) in *.
  set (e1 := ERec (dg_nexte g) o t p). set (e2 := ERec (S (dg_nexte g)) t o (einv p)).
  assert (Hedges : forall e, e ∈ dg_edges g' <-> e ∈ dg_edges g \/ e = e1 \/ e = e2).
  { intros e. unfold g'. rewrite add2_edges, elem_of_app, elem_of_cons, elem_of_list_singleton. done. }
  assert (Hends : e_src e2 = e_tgt e1 /\ e_tgt e2 = e_src e1) by done.
  assert (Hnew : ~ adjacent g (e_src e1) (e_tgt e1)) by by apply not_adjacent.
  assert (Hsame : forall v, bg_alive g' v = bg_alive g v) by done.
  assert (Hfid : forall e, e ∈ dg_edges g -> e_id e < dg_nexte g) by (intros; by apply (wf_ebound einv g Hwf)).
  assert (He1 : bg_edge g' o t = Some e1).
  { apply (bg_edge_iff einv); [done|]. split; [apply Hedges; auto|done]. }
  assert (He2 : bg_edge g' t o = Some e2).
  { apply (bg_edge_iff einv); [done|]. split; [apply Hedges; auto|done]. }
  (* the branch in which the other end joins *)
  assert (Hgo : forall inv notinv a b,
     (inv = o /\ notinv = t /\ a = e1 /\ b = e2) \/ (inv = t /\ notinv = o /\ a = e2 /\ b = e1) ->
     tv_vertex_exists w inv = true -> tv_vertex_exists w notinv = false ->
     exists w', (let w1 := tv_add_edge inv notinv w in
      if bg_alive (gs_dg s1) notinv then
      if bool_decide (2 < bg_degree (gs_dg s1) notinv) then
        match obind (get_frame_id s1 inv) (fun id1 =>
              obind (get_frame_id s1 notinv) (fun id2 =>
              obind (get_edge s1 id1 id2) (fun e1 =>
              obind (get_edge s1 id2 id1) (fun e2 =>
              bfs_trace (gs_dg s1)
                (fun e => negb (Nat.eqb (e_id e) (e_id e1)) && negb (Nat.eqb (e_id e) (e_id e2)))
                notinv)))) with
        | Ret tr => (build_tree tr w1, Ret tt)
        | Throw x => (w1, Throw x)
        | UB => (w1, UB)
        | Fuel => (w1, Fuel)
        end
      else (w1, Ret tt)
    else (w1, UB)) = (w', Ret tt) /\ in_sync g' w' /\ tv_root w' = tv_root w /\ tv_pub w' = tv_pub w).
  { intros inv notinv a b Hab Hin Hni. cbn zeta. rewrite Hs1. fold g'.
    assert (Hali : bg_alive g' inv = true) by (destruct Hab as [(-> & -> & _)|(-> & -> & _)]; done).
    assert (Haln : bg_alive g' notinv = true) by (destruct Hab as [(-> & -> & _)|(-> & -> & _)]; done).
    assert (Hea : bg_edge g' inv notinv = Some a) by (destruct Hab as [(-> & -> & -> & ->)|(-> & -> & -> & ->)]; done).
    assert (Heb : bg_edge g' notinv inv = Some b) by (destruct Hab as [(-> & -> & -> & ->)|(-> & -> & -> & ->)]; done).
    rewrite Haln.
    set (flt := fun e : erec E => negb (Nat.eqb (e_id e) (e_id a)) && negb (Nat.eqb (e_id e) (e_id b))).
    assert (Hflt : forall e, e ∈ dg_edges g' -> flt e = true <-> e ∈ dg_edges g).
    { intros e He. unfold flt. rewrite andb_true_iff, !negb_true_iff, !Nat.eqb_neq.
      assert (Hx : e_id e <> e_id a /\ e_id e <> e_id b <-> e_id e <> e_id e1 /\ e_id e <> e_id e2).
      { destruct Hab as [(_ & _ & -> & ->)|(_ & _ & -> & ->)]; tauto. }
      rewrite Hx. apply Hedges in He as [He|[->| ->]].
      - specialize (Hfid e He). cbn. split; [done|]. intros _. lia.
      - split; [by intros [? _]|]. intros He%Hfid. cbn in He. lia.
      - split; [by intros [_ ?]|]. intros He%Hfid. cbn in He. lia. }
    assert (Hio : (inv = e_src e1 /\ notinv = e_tgt e1) \/ (inv = e_tgt e1 /\ notinv = e_src e1)).
    { destruct Hab as [(-> & -> & _)|(-> & -> & _)]; auto. }
    case_bool_decide as Hdeg.
    - destruct (wf_alive_map einv _ inv Hwf' Hali) as (fi & Hfi & _).
      destruct (wf_alive_map einv _ notinv Hwf' Haln) as (fn & Hfn & _).
      assert (Hd1 : dg_wf (gs_dg s1)) by by rewrite Hs1.
      rewrite (get_frame_id_some einv s1 fi inv) by by rewrite ?Hs1.
      rewrite (get_frame_id_some einv s1 fn notinv) by by rewrite ?Hs1. cbn [obind].
      rewrite (get_edge_some einv s1 fi fn inv notinv a) by by rewrite ?Hs1. cbn [obind].
      rewrite (get_edge_some einv s1 fn fi notinv inv b) by by rewrite ?Hs1. cbn [obind]. fold flt.
      destruct (bfs_trace_spec einv g' flt notinv Hwf' Haln) as (tr & Htr & _).
      rewrite Htr. eexists. split; [reflexivity|].
      by apply (sync_join einv g g' e1 e2 Hwf Hwf' Hedges Hends Hnew Hsame w inv notinv flt).
    - destruct (bfs_lonely g' flt notinv Hwf' Haln) as (tr & Htr & Hbt).
      { intros e He Hf Hsrc. apply Hdeg. apply Hflt in Hf; [|done].
        destruct (wf_inv einv g Hwf e Hf) as (er & Her & Hes & Het & _).
        unfold bg_degree, bg_in, bg_out. unfold g'. rewrite add2_edges, !filter_app, !app_length.
        assert (H1 : 1 <= length (filter (fun e0 => e_tgt e0 = notinv) (dg_edges g))).
        { assert (er ∈ filter (fun e0 => e_tgt e0 = notinv) (dg_edges g)) as Hx.
          { apply elem_of_list_filter. split; [congruence|done]. }
          by apply elem_pos in Hx. }
        assert (H2 : 1 <= length (filter (fun e0 => e_src e0 = notinv) (dg_edges g))).
        { assert (e ∈ filter (fun e0 => e_src e0 = notinv) (dg_edges g)) as Hx.
          { apply elem_of_list_filter. split; [congruence|done]. }
          by apply elem_pos in Hx. }
        assert (H3 : length (filter (fun e0 => e_src e0 = notinv) [e1; e2]) = 1 /\
                     length (filter (fun e0 => e_tgt e0 = notinv) [e1; e2]) = 1).
        { rewrite !filter_cons, !filter_nil. cbn.
          destruct Hab as [(-> & -> & _)|(-> & -> & _)];
            repeat first [rewrite decide_True by done | rewrite decide_False by done]; done. }
        destruct H3 as [H3 H4]. unfold e1, e2 in H3, H4. rewrite H3, H4. lia. }
      destruct (sync_join einv g g' e1 e2 Hwf Hwf' Hedges Hends Hnew Hsame w inv notinv flt tr) as (H1 & H2 & H3);
        try done.
      rewrite Hbt in H1, H2, H3. eexists. split; [reflexivity|]. done. }
  unfold add_edge_to_tree_view, get_source_vertex, get_target_vertex. cbn zeta.
  change (e_src e1) with o. change (e_tgt e1) with t.
  destruct (tv_vertex_exists w o) eqn:Hvo, (tv_vertex_exists w t) eqn:Hvt.
  - destruct (edge_exists_spec w o t (sy_tree _ _ Hs)) as (r & Hr & Hri); [by apply tv_vertex_exists_iff..|].
    rewrite Hr. destruct r.
    + exfalso. eapply (not_tree_edge einv g e1 Hwf Hnew); [done|]. by apply Hri.
    + eexists. split; [done|]. split; [|done].
      by apply (sync_both einv g g' e1 e2).
  - apply (Hgo o t e1 e2); [left|..]; done.
  - apply (Hgo t o e2 e1); [right|..]; done.
  - exists w. split; [done|]. split; [|done]. by apply (sync_neither g g' e1 e2).
Qed.

End viewsync.
