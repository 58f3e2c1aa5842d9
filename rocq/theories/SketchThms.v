(** Proofs about the drawings of graphs whose frames are drawn as one text each. *)
From Coq Require Import Ascii.
From stdpp Require Import prelude strings gmap pretty.
From Verif Require Import ListLib Outcome ItemClass Digraph Bfs TreeView GraphModel GraphOps SpecStore SpecObs GraphWf GraphStep GraphRefine GraphThms
  ItemsModel DrawModel SpecDraw DrawThms SpecSketch.

Local Arguments String.append !_ _ / : simpl nomatch.

Definition note_text (x : string) : string := "{{" +:+ x +:+ "}}".

Lemma read_note_label x : plain x = true -> read_note (note_text x) = Some x.
Proof.
  intros Hx. unfold read_note, read_record, note_text. change ("{{" +:+ ?x) with (String "{" (String "{" x)).
  do 2 (erewrite record_cons by reflexivity). cbn [r_done r_outer r_cur r_esc].
  rewrite record_app. destruct (read_plain x [] [[]; []] Hx) as (x' & E & Ht). rewrite E. cbn [mbind option_bind].
  do 2 (erewrite record_cons by reflexivity). cbn. by rewrite Ht.
Qed.

Lemma note_quotable x : plain x = true -> quotable (note_text x) = true.
Proof.
  intros Hx. unfold note_text. change ("}}") with ("}" +:+ "}"). rewrite <- !app_assoc_s. apply quotable_brace.
  rewrite !all_chars_app, (plain_quotes x) by done. done.
Qed.

Section sketch.
Context {D E : Type} (einv : E -> E) (vstr : D -> string) (estr : E -> string).
Local Notation dg s := (gs_dg s).

Definition vlab (v : vrec D) : string := note_text (vstr (v_data v)).
Definition elab (e : erec E) : string := estr (e_prop e).

Lemma vertex_text_label (v : vrec D) : vertex_text (fun v => vstr (v_data v)) v =
  "[shape=record, label=""" +:+ (vlab v +:+ """") +:+ ",style=filled,fillcolor=lightblue]".
Proof. unfold vertex_text, vlab, note_text. rewrite !app_assoc_s. done. Qed.

Lemma notes_read (g : digraph D E) le : (forall v, v ∈ dg_verts g -> plain (vstr (v_data v)) = true) ->
  read_notes (graph_stmt :: ((fun v => node_stmt (pretty (v_index v)) (vlab v)) <$> dg_verts g) ++
    ((fun e => edge_stmt (pretty (bg_index g (e_src e))) (pretty (bg_index g (e_tgt e))) (elab e)) <$> le)) =
  Some ((fun v => (pretty (v_index v), vstr (v_data v))) <$> dg_verts g).
Proof.
  intros Hb. cbn [read_notes graph_stmt]. induction (dg_verts g) as [|v l IH].
  - cbn [fmap list_fmap app]. induction le as [|e le IH]; [done|]. exact IH.
  - rewrite fmap_cons. cbn [app read_notes node_stmt]. change (attr "label" _) with (Some (vlab v)). cbn [mbind option_bind].
    assert (read_note (vlab v) = Some (vstr (v_data v))) as -> by (apply read_note_label, Hb; left). cbn [mbind option_bind]. rewrite IH by (intros w Hw; apply Hb; by right). done.
Qed.

Lemma links_read (g : digraph D E) lv le :
  read_links (graph_stmt :: ((fun v => node_stmt (pretty (v_index v)) (vlab v)) <$> lv) ++
    ((fun e => edge_stmt (pretty (bg_index g (e_src e))) (pretty (bg_index g (e_tgt e))) (elab e)) <$> le)) =
  Some ((fun e => (pretty (bg_index g (e_src e)), pretty (bg_index g (e_tgt e)), elab e)) <$> le).
Proof.
  cbn [read_links graph_stmt]. induction lv as [|v lv IH]; [|exact IH]. cbn [fmap list_fmap app].
  induction le as [|e le IH]; [done|]. rewrite !fmap_cons. cbn [read_links edge_stmt]. change (attr "label" _) with (Some (elab e)). cbn [mbind option_bind].
  cbn in IH. rewrite IH. done.
Qed.

Definition number (s : gst D E) (f : frameid) : string := match dg_map (dg s) !! f with Some v => pretty (bg_index (dg s) v) | None => "" end.

Lemma sketch_read_back (s : gst D E) (d0 : D) : reachable d0 einv s ->
  (forall f p, get_frame_property s f = Ret p -> plain (vstr p) = true) ->
  (forall a b p, get_edge_property s a b = Ret p -> quotable (estr p) = true) ->
  exists nodes links num, read_sketch (write_graph (fun v => vstr (v_data v)) estr s) = Some (nodes, links) /\
    NoDup nodes.*1 /\ NoDup links.*1 /\
    (forall f g, contains_frame s f = true -> contains_frame s g = true -> num f = num g -> f = g) /\
    (forall i x, (i, x) ∈ nodes <-> exists f p, get_frame_property s f = Ret p /\ i = num f /\ x = vstr p) /\
    (forall i j x, (i, j, x) ∈ links <-> exists a b p, get_edge_property s a b = Ret p /\ i = num a /\ j = num b /\ x = estr p).
Proof.
  intros Hs Hf He. assert (Hwf : dg_wf einv (dg s)) by by eapply reachable_wf.
  assert (Hmap : forall v, v ∈ dg_verts (dg s) -> dg_map (dg s) !! v_name v = Some (v_id v)).
  { intros v Hv. apply (wf_map einv _ Hwf). eauto. }
  assert (Hvp : forall v, v ∈ dg_verts (dg s) -> get_frame_property s (v_name v) = Ret (v_data v)).
  { intros v Hv. unfold get_frame_property. rewrite (get_vertex_some einv _ _ (v_id v)) by auto. cbn.
    by rewrite (proj2 (bg_vrec_iff einv (dg s) (v_id v) v Hwf)). }
  assert (Hpv : forall f p, get_frame_property s f = Ret p -> exists v, v ∈ dg_verts (dg s) /\ v_name v = f /\ v_data v = p).
  { intros f p. unfold get_frame_property. destruct (dg_map (dg s) !! f) as [u|] eqn:Hu.
    - rewrite (get_vertex_some einv _ _ u) by done. cbn. apply (wf_map einv _ Hwf) in Hu as (v & Hv & <- & <-).
      rewrite (proj2 (bg_vrec_iff einv (dg s) (v_id v) v Hwf)) by done. intros [= <-]. eauto.
    - rewrite get_vertex_none by done. done. }
  assert (Hnum : forall v, v ∈ dg_verts (dg s) -> number s (v_name v) = pretty (v_index v)).
  { intros v Hv. unfold number. rewrite Hmap by done. unfold bg_index. by rewrite (proj2 (bg_vrec_iff einv (dg s) (v_id v) v Hwf)). }
  assert (Hcv : forall f, contains_frame s f = true -> exists v, v ∈ dg_verts (dg s) /\ v_name v = f).
  { intros f. rewrite (contains_frame_map einv) by done. intros [u Hu]%bool_decide_eq_true. apply (wf_map einv _ Hwf) in Hu as (v & Hv & <- & <-). eauto. }
  assert (Hedge : forall e, e ∈ dg_edges (dg s) -> exists a b, get_edge_property s a b = Ret (e_prop e) /\
    number s a = pretty (bg_index (dg s) (e_src e)) /\ number s b = pretty (bg_index (dg s) (e_tgt e))).
  { intros e Hin.
    destruct (wf_alive_map einv (dg s) (e_src e) Hwf (wf_src_alive einv _ _ Hwf Hin)) as (f1 & Hf1 & _).
    destruct (wf_alive_map einv (dg s) (e_tgt e) Hwf (wf_tgt_alive einv _ _ Hwf Hin)) as (f2 & Hf2 & _).
    exists f1, f2. rewrite (get_edge_property_eq einv), Hf1, Hf2 by done. unfold number. rewrite Hf1, Hf2.
    by rewrite (proj2 (bg_edge_iff einv (dg s) (e_src e) (e_tgt e) e Hwf)). }
  assert (Hinj : forall v w, v ∈ dg_verts (dg s) -> w ∈ dg_verts (dg s) -> v_index v = v_index w -> v = w).
  { intros v w Hv Hw Heq. by apply (NoDup_fmap_inj v_index (dg_verts (dg s))); [apply (wf_idx einv _ Hwf)|..]. }
  eexists _, _, (number s). split; [|split; [|split; [|split; [|split]]]].
  - unfold read_sketch, write_graph. rewrite (read_graphviz _ _ vlab elab (dg s)).
    + cbn [mbind option_bind]. rewrite notes_read; [|by intros v Hv; eapply Hf, Hvp]. cbn [mbind option_bind]. rewrite links_read. reflexivity.
    + apply vertex_text_label.
    + apply edge_text_label.
    + intros v Hv. apply note_quotable. by eapply Hf, Hvp.
    + intros e Hin. destruct (Hedge e Hin) as (a & b & Hab & _). by eapply He.
  - rewrite <- list_fmap_compose. eapply (NoDup_fmap_finer v_index); [apply (wf_idx einv _ Hwf)|]. intros v w _ _ H. cbn in H. by apply (inj pretty) in H.
  - rewrite <- list_fmap_compose. eapply (NoDup_fmap_finer (fun e => (e_src e, e_tgt e))); [apply (wf_pair einv _ Hwf)|].
    intros x y Hx Hy H. cbn in H. injection H as H1 H2. apply (inj pretty) in H1, H2.
    assert (Hi : forall u u', bg_alive (dg s) u = true -> bg_alive (dg s) u' = true -> bg_index (dg s) u = bg_index (dg s) u' -> u = u').
    { intros u u' Hu Hu' Hi. apply (bg_alive_vrec einv) in Hu as [r Hr]; [|done]. apply (bg_alive_vrec einv) in Hu' as [r' Hr']; [|done].
      unfold bg_index in Hi. rewrite Hr, Hr' in Hi. cbn in Hi. apply (bg_vrec_iff einv) in Hr as [Hr Hr1]; [|done]. apply (bg_vrec_iff einv) in Hr' as [Hr' Hr1']; [|done].
      pose proof (Hinj r r' Hr Hr' Hi). congruence. }
    f_equal; apply Hi; try done; by apply (wf_src_alive einv) || by apply (wf_tgt_alive einv).
  - intros f g (v & Hv & <-)%Hcv (w & Hw & <-)%Hcv. rewrite !Hnum by done. intros H%(inj pretty). by rewrite (Hinj v w).
  - intros i x. rewrite elem_of_list_fmap. split.
    + intros (v & [= -> ->] & Hv). exists (v_name v), (v_data v). by rewrite Hvp, Hnum.
    + intros (f & p & (v & Hv & <- & <-)%Hpv & -> & ->). exists v. by rewrite Hnum.
  - intros i j x. rewrite elem_of_list_fmap. split.
    + intros (e & [= -> -> ->] & Hin). destruct (Hedge e Hin) as (a & b & H1 & H2 & H3). exists a, b, (e_prop e). by rewrite H1, H2, H3.
    + intros (a & b & p & Hp & -> & -> & ->). rewrite (get_edge_property_eq einv) in Hp by done. unfold number.
      destruct (dg_map (dg s) !! a) as [va|] eqn:Ha; [|done]. destruct (dg_map (dg s) !! b) as [vb|] eqn:Hb; [|done].
      destruct (bg_edge (dg s) va vb) as [e|] eqn:Hbe; [|done]. injection Hp as <-.
      apply (bg_edge_iff einv) in Hbe as (Hin & Hsrc & Htgt); [|done]. exists e. by rewrite Hsrc, Htgt.
Qed.
End sketch.
