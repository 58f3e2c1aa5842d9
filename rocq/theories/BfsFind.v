(** Breadth first search on a well-formed graph: trace, search for a vertex. *)
From stdpp Require Import prelude strings gmap.
From Verif Require Import ListLib Outcome Digraph Bfs GraphWf SpecWalk WalkThms BfsThms.

Section tw.
Context {E : Type}.
Local Notation bev := (bev E).
Implicit Types (tr : list bev) (d : gset vid).

(** Discovered by a piece of trace. *)
Definition dset (tr : list bev) : gset vid := list_to_set (e_tgt <$> te tr).

(** Every tree edge leaves a discovered vertex, enters an undiscovered one and is followed by the
    discovery of the latter; nothing else is discovered. *)
Inductive tw : gset vid -> list bev -> Prop :=
| tw_nil d : tw d []
| tw_tree d e tr : e_src e ∈ d -> e_tgt e ∉ d -> tw ({[e_tgt e]} ∪ d) tr ->
    tw d (BTree e :: BDiscover (e_tgt e) :: tr)
| tw_gray d e tr : e_src e ∈ d -> e_tgt e ∈ d -> tw d tr -> tw d (BGray e :: tr)
| tw_black d e tr : tw d tr -> tw d (BBlack e :: tr)
| tw_finish d v tr : tw d tr -> tw d (BFinish v :: tr).

Lemma dset_app t1 t2 : dset (t1 ++ t2) = dset t1 ∪ dset t2.
Proof. unfold dset. rewrite te_app, fmap_app, list_to_set_app_L. done. Qed.

Lemma tw_app d t1 t2 : tw d t1 -> tw (d ∪ dset t1) t2 -> tw d (t1 ++ t2).
Proof.
  intros H. induction H as [d|d e tr Hs Ht H IH|d e tr Hs Ht H IH|d e tr H IH|d v tr H IH]; intros H2; cbn.
  - unfold dset in H2. cbn in H2. by rewrite (right_id_L _ _) in H2.
  - constructor; [done..|]. apply IH. unfold dset in *. cbn in H2.
    by rewrite (union_comm_L {[_]} d), <- (union_assoc_L d).
  - constructor; [done..|]. by apply IH.
  - constructor. by apply IH.
  - constructor. by apply IH.
Qed.

Lemma scan_tw u es col q tr col' q' : bfs_scan es col q = (tr, col', q') ->
  u ∈ dom col -> (forall e, e ∈ es -> e_src e = u) -> 
  tw (dom col) tr /\ dom col' = dom col ∪ dset tr /\ (forall v, v ∈ q' -> v ∈ q \/ v ∈ dom col').
Proof.
  revert col q tr col' q'. induction es as [|e es IH]; intros col q tr col' q'; cbn.
  { intros [= <- <- <-] Hu _. unfold dset. cbn. split; [constructor|]. split; [set_solver|auto]. }
  intros Hs Hu Hes. assert (He : e_src e = u) by (apply Hes; set_solver).
  destruct (col !! e_tgt e) as [c|] eqn:Hc.
  - destruct c; destruct (bfs_scan es col q) as [[tr1 c1] q1] eqn:Hs1; injection Hs as <- <- <-;
      (apply IH in Hs1 as (Ha & Hb & Hd); [|done|set_solver]); (split; [|done]).
    + constructor; [by rewrite He|by apply elem_of_dom_2 in Hc|done].
    + by constructor.
  - destruct (bfs_scan es _ _) as [[tr1 c1] q1] eqn:Hs1; injection Hs as <- <- <-.
    apply IH in Hs1 as (Ha & Hb & Hd); [|set_solver|set_solver]. rewrite dom_insert_L in Ha, Hb.
    split; [|split].
    + constructor; [by rewrite He|by apply not_elem_of_dom|done].
    + rewrite Hb. unfold dset. cbn. by rewrite (union_comm_L {[_]} (dom col)), <- (union_assoc_L (dom col)).
    + intros v [Hv|Hv]%Hd; [|by right].
      apply elem_of_app in Hv as [?|Hv%elem_of_list_singleton]; [by left|]. right. set_solver.
Qed.

Lemma loop_tw n (out : vid -> list (erec E)) col q tr :
  (forall u e, e ∈ out u -> e_src e = u) -> (forall v, v ∈ q -> v ∈ dom col) ->
  bfs_loop n out col q = Some tr -> tw (dom col) tr.
Proof.
  intros Hsrc. revert col q tr. induction n as [|n IH]; intros col q tr Hq; cbn.
  { destruct q; [|done]. intros [= <-]. constructor. }
  destruct q as [|u q]; [intros [= <-]; constructor|].
  destruct (bfs_scan (out u) col q) as [[tr1 c1] q1] eqn:Hs.
  destruct (bfs_loop n out (<[u := CBlack]> c1) q1) as [tr2|] eqn:Hl; [|done]. intros [= <-].
  apply (scan_tw u) in Hs as (Ha & Hb & Hd); [|apply Hq; set_solver|by apply Hsrc].
  assert (Hu : u ∈ dom c1) by (rewrite Hb; apply elem_of_union_l, Hq; set_solver).
  apply tw_app; [done|]. constructor. rewrite <- Hb.
  apply IH in Hl.
  - rewrite dom_insert_L in Hl. by replace ({[u]} ∪ dom c1) with (dom c1) in Hl by set_solver.
  - intros v [Hv|Hv]%Hd; rewrite dom_insert_L, Hb in *; [|set_solver].
    apply elem_of_union_r, elem_of_union_l, Hq. set_solver.
Qed.

(** Searching *)
Lemma search_spec root target d pm tr : tw d tr -> d = {[root]} ∪ dom pm -> target ∉ d ->
  (forall v u, pm !! v = Some u -> u ∈ {[root]} ∪ dom pm) ->
  match search_visit target pm tr with
  | None => target ∉ dset tr
  | Some pm' => target ∈ dset tr /\ target ∈ dom pm' /\
      (forall v u, pm' !! v = Some u -> u ∈ {[root]} ∪ dom pm') /\
      (forall v u, pm' !! v = Some u -> pm !! v = Some u \/
         exists e, BTree e ∈ tr /\ e_tgt e = v /\ e_src e = u)
  end.
Proof.
  intros H. revert pm. induction H as [d|d e tr Hs Ht H IH|d e tr Hs Ht H IH|d e tr H IH|d v tr H IH];
    intros pm Hd Hn Hcl; cbn [search_visit].
  - unfold dset. cbn. set_solver.
  - assert (Hnone : pm !! e_tgt e = None) by (apply not_elem_of_dom; set_solver).
    rewrite Hnone. destruct (Nat.eqb_spec target (e_tgt e)) as [->|Hne].
    + split; [unfold dset; cbn; set_solver|]. rewrite dom_insert_L. split; [set_solver|]. split.
      * intros v u. rewrite lookup_insert_Some. intros [[<- <-]|[? Hv]]; [set_solver|].
        apply Hcl in Hv. set_solver.
      * intros v u. rewrite lookup_insert_Some. intros [[<- <-]|[? Hv]]; [|by left].
        right. exists e. set_solver.
    + specialize (IH (<[e_tgt e := e_src e]> pm)). 
      destruct (search_visit target (<[e_tgt e := e_src e]> pm) tr) as [pm'|].
      * destruct IH as (Ha & Hb & Hc & Hf).
        { rewrite dom_insert_L. set_solver. }
        { set_solver. }
        { intros v u. rewrite lookup_insert_Some, dom_insert_L. intros [[<- <-]|[? Hv]]; [set_solver|].
          apply Hcl in Hv. set_solver. }
        split; [unfold dset in *; cbn; set_solver|]. split; [done|]. split; [done|].
        intros v u Hv. destruct (Hf v u Hv) as [Hi|(e' & He' & ? & ?)].
        -- apply lookup_insert_Some in Hi as [[<- <-]|[? ?]]; [|by left]. right. exists e. set_solver.
        -- right. exists e'. set_solver.
      * assert (Hx : target ∉ dset tr).
        { apply IH; [rewrite dom_insert_L; set_solver|set_solver|].
          intros v u. rewrite lookup_insert_Some, dom_insert_L. intros [[<- <-]|[? Hv]]; [set_solver|].
          apply Hcl in Hv. set_solver. }
        unfold dset in *. cbn. set_solver.
  - specialize (IH pm Hd Hn Hcl). destruct (search_visit target pm tr) as [pm'|]; [|done].
    destruct IH as (Ha & Hb & Hc & Hf). repeat (split; [done|]). intros v u Hv.
    destruct (Hf v u Hv) as [?|(e' & ? & ? & ?)]; [by left|]. right. exists e'. set_solver.
  - specialize (IH pm Hd Hn Hcl). destruct (search_visit target pm tr) as [pm'|]; [|done].
    destruct IH as (Ha & Hb & Hc & Hf). repeat (split; [done|]). intros v' u Hv.
    destruct (Hf v' u Hv) as [?|(e' & ? & ? & ?)]; [by left|]. right. exists e'. set_solver.
  - specialize (IH pm Hd Hn Hcl). destruct (search_visit target pm tr) as [pm'|]; [|done].
    destruct IH as (Ha & Hb & Hc & Hf). repeat (split; [done|]). intros v' u Hv.
    destruct (Hf v' u Hv) as [?|(e' & ? & ? & ?)]; [by left|]. right. exists e'. set_solver.
Qed.

Section walk_up.
Variables (root : vid) (pm : gmap vid vid) (dpf : vid -> nat) (R : vid -> vid -> Prop).
Hypothesis Hroot0 : root <> null_vertex.
Hypothesis Hnull : null_vertex ∉ dom pm.
Hypothesis Hroot : pm !! root = None.
Hypothesis Hdroot : dpf root = 0.
Hypothesis Hcl : forall v u, pm !! v = Some u -> u ∈ {[root]} ∪ dom pm.
Hypothesis Hdp : forall v u, pm !! v = Some u -> dpf v = S (dpf u).
Hypothesis HR : forall v u, pm !! v = Some u -> R u v.

Lemma walk_up_spec n v acc : v ∈ {[root]} ∪ dom pm -> dpf v < n ->
  exists l, walk_up n pm v acc = Some (l ++ acc) /\ route R root v l /\ length l = S (dpf v).
Proof.
  revert v acc. induction n as [|n IH]; intros v acc Hv Hn; [lia|]. cbn [walk_up].
  destruct (Nat.eqb_spec v null_vertex) as [->|_]; [set_solver|].
  destruct (decide (v = root)) as [->|Hne].
  - rewrite Hroot. cbn. exists [root]. split; [by destruct n|]. split; [apply route_refl|].
    cbn. by rewrite Hdroot.
  - assert (is_Some (pm !! v)) as [u Hu] by (apply elem_of_dom; set_solver).
    rewrite Hu. cbn [default from_option id]. pose proof (Hdp v u Hu).
    destruct (IH u (v :: acc)) as (l & Hw & Hr & Hl); [by eapply Hcl|lia|].
    exists (l ++ [v]). rewrite Hw, <- app_assoc. split; [done|]. split.
    + eapply route_snoc; [done|]. by apply HR.
    + rewrite app_length. cbn. lia.
Qed.

Lemma dpf_bound v : v ∈ {[root]} ∪ dom pm -> dpf v <= size pm.
Proof.
  intros Hv.
  assert (Hk : forall j w, w ∈ {[root]} ∪ dom pm -> forall k, 1 <= k <= dpf w -> dpf w = j ->
            k ∈ dpf <$> elements (dom pm)).
  { induction j as [|j IH]; intros w Hw k Hkw Hj; [lia|].
    destruct (decide (w = root)) as [->|Hne]; [lia|].
    assert (is_Some (pm !! w)) as [u Hu] by (apply elem_of_dom; set_solver).
    pose proof (Hdp w u Hu). destruct (decide (k = dpf w)) as [->|].
    - apply elem_of_list_fmap. exists w. split; [done|]. apply elem_of_elements. by apply elem_of_dom_2 in Hu.
    - apply (IH u); [by eapply Hcl|lia|lia]. }
  assert (Hsub : seq 1 (dpf v) ⊆+ dpf <$> elements (dom pm)).
  { apply NoDup_submseteq; [apply NoDup_seq|]. intros k Hin%elem_of_seq.
    eapply (Hk (dpf v) v); [done|lia|done]. }
  apply submseteq_length in Hsub. rewrite seq_length, fmap_length in Hsub.
  change (length (elements (dom pm))) with (size (dom pm)) in Hsub.
  by rewrite size_dom in Hsub.
Qed.
End walk_up.
End tw.

Section find.
Context {D E : Type} (einv : E -> E).
Local Notation dg_wf := (dg_wf einv).
Implicit Types g : digraph D E.

Definition fout g (flt : erec E -> bool) (u : vid) : list (erec E) :=
  filter (fun e => flt e = true) (bg_out g u).


Lemma elem_fout g flt u e : e ∈ fout g flt u <-> flt e = true /\ e_src e = u /\ e ∈ dg_edges g.
Proof. unfold fout, bg_out. by rewrite !elem_of_list_filter. Qed.

Lemma fout_NoDup g flt u : dg_wf g -> NoDup (fout g flt u).
Proof.
  intros Hwf. unfold fout, bg_out. do 2 apply NoDup_filter.
  eapply NoDup_fmap_1, (wf_eid einv _ Hwf).
Qed.

Lemma alive_null g v : dg_wf g -> bg_alive g v = true -> v <> null_vertex.
Proof.
  intros Hwf Hv ->. apply bg_alive_iff in Hv.
  apply elem_of_list_fmap in Hv as (r & Hi & Hr).
  pose proof (wf_vbound einv _ Hwf r Hr). unfold null_vertex in *. lia.
Qed.

Lemma bfs_trace_spec g flt root : dg_wf g -> bg_alive g root = true ->
  exists tr, bfs_trace g flt root = Ret (BDiscover root :: tr) /\
    tw {[root]} tr /\ bfs_result (fout g flt) root (BDiscover root :: tr).
Proof.
  intros Hwf Hal. unfold bfs_trace. rewrite Hal.
  assert (Hsrc : forall u e, e ∈ fout g flt u -> e_src e = u).
  { intros u e (_ & ? & _)%elem_fout. done. }
  assert (Hnd : forall u, NoDup (fout g flt u)) by (intros u; by apply fout_NoDup).
  assert (Hcl : forall u e, u ∈ v_id <$> dg_verts g -> e ∈ fout g flt u -> e_tgt e ∈ v_id <$> dg_verts g).
  { intros u e _ (_ & _ & He)%elem_fout. apply (wf_tgt einv _ Hwf e He). }
  pose proof (J_init (fout g flt) root Hsrc Hnd) as HJ.
  destruct (loop_fuel (fout g flt) root Hsrc Hnd (v_id <$> dg_verts g) Hcl (length (dg_verts g))
    [BDiscover root] {[root := CGray]} [root]) as [tr Htr].
  - intros v ->%elem_of_list_singleton. by apply bg_alive_iff in Hal.
  - done.
  - etrans; [apply filter_length|]. by rewrite fmap_length.
  - exists tr. unfold fout in Htr at 1. rewrite Htr. split; [done|]. split.
    + apply loop_tw in Htr.
      * by rewrite dom_singleton_L in Htr.
      * exact Hsrc.
      * intros v ->%elem_of_list_singleton. rewrite dom_singleton_L. set_solver.
    + eapply J_loop in HJ as [c HJ]; [|exact Hsrc|exact Hnd|exact Htr].
      by eapply J_final.
Qed.

Lemma dset_disc root (tr : list (bev E)) v : tw {[root]} tr ->
  is_Some (tdep root (BDiscover root :: tr) !! v) <-> v = root \/ v ∈ dset tr.
Proof.
  intros _. unfold tdep. cbn.
  assert (H : forall m, is_Some (foldl dep_step m tr !! v) <-> is_Some (m !! v) \/ v ∈ dset tr).
  { induction tr as [|b tr IH]; intros m; cbn.
    - unfold dset. cbn. set_solver.
    - rewrite IH. destruct b; cbn; try done. unfold dset; cbn.
      rewrite lookup_insert_is_Some'. set_solver. }
  rewrite H. destruct (decide (v = root)) as [->|].
  - rewrite lookup_singleton. split; eauto.
  - rewrite lookup_singleton_ne by done. split; [intros [[? ?]|?]; [done|auto]|].
    intros [?|?]; [done|auto].
Qed.

Lemma bfs_find_spec g root target : dg_wf g -> bg_alive g root = true ->
  let next := next (fout g (fun _ => true)) in
  (linked next root target -> exists l, bfs_find g root target = Ret (Some l) /\ shortest next root target l) /\
  (~ linked next root target -> bfs_find g root target = Ret None).
Proof.
  intros Hwf Hal nx.
  destruct (bfs_trace_spec g (fun _ => true) root Hwf Hal) as (tr & Htr & Htw & Hres).
  set (ftr := BDiscover root :: tr) in *.
  assert (Hdp : forall e, BTree e ∈ tr -> e_tgt e <> root /\ nx (e_src e) (e_tgt e) /\
            dp root ftr (e_tgt e) = S (dp root ftr (e_src e)) /\ bg_alive g (e_tgt e) = true).
  { intros e He. destruct (br_tree _ _ _ Hres e) as (H1 & H2 & _ & _ & H3); [unfold ftr; set_solver|].
    split; [done|]. split; [by exists e|]. split; [done|].
    apply elem_fout in H2 as (_ & _ & H2). by apply (wf_tgt_alive einv). }
  unfold bfs_find. rewrite Htr. cbn [obind]. unfold ftr. cbn [search_visit]. fold ftr.
  pose proof (alive_null g root Hwf Hal) as Hr0.
  destruct (Nat.eqb_spec target root) as [->|Hne].
  - split; [|intros []; apply linked_refl]. intros _.
    change (S (size ∅)) with 1. cbn [walk_up].
    destruct (Nat.eqb_spec root null_vertex); [done|]. cbn. exists [root]. split; [done|].
    split; [apply route_refl|]. intros [|x l]; [by intros ?%route_nil|cbn; lia].
  - pose proof (search_spec root target {[root]} ∅ tr Htw) as Hs.
    rewrite dom_empty_L, (right_id_L _ _) in Hs. specialize (Hs eq_refl ltac:(set_solver)).
    specialize (Hs ltac:(intros v u; by rewrite lookup_empty)).
    pose proof (br_disc _ _ _ Hres target) as Hdisc. fold ftr in Hdisc.
    unfold ftr in Hdisc. rewrite dset_disc in Hdisc by done. fold ftr in Hdisc.
    destruct (search_visit target ∅ tr) as [pm|].
    + destruct Hs as (Hin & Hdom & Hcl & Hpm).
      assert (Hpm' : forall v u, pm !! v = Some u -> exists e, BTree e ∈ tr /\ e_tgt e = v /\ e_src e = u).
      { intros v u Hv. destruct (Hpm v u Hv) as [?|?]; [|done]. by rewrite lookup_empty in H. }
      split; [|intros Hnl; exfalso; apply Hnl, Hdisc; by right]. intros _.
      assert (Hn0 : null_vertex ∉ dom pm).
      { intros [u Hu]%elem_of_dom. destruct (Hpm' _ _ Hu) as (e & He & Ht & _).
        destruct (Hdp e He) as (_ & _ & _ & Ha). rewrite Ht in Ha. by apply alive_null in Ha. }
      assert (Hrn : pm !! root = None).
      { destruct (pm !! root) as [u|] eqn:Hu; [|done].
        destruct (Hpm' _ _ Hu) as (e & He & Ht & _). destruct (Hdp e He). congruence. }
      assert (Hdr : dp root ftr root = 0) by apply (br_root _ _ _ Hres).
      assert (Hdd : forall v u, pm !! v = Some u -> dp root ftr v = S (dp root ftr u)).
      { intros v u Hv. destruct (Hpm' _ _ Hv) as (e & He & <- & <-). by apply Hdp. }
      assert (HRR : forall v u, pm !! v = Some u -> nx u v).
      { intros v u Hv. destruct (Hpm' _ _ Hv) as (e & He & <- & <-). by apply Hdp. }
      destruct (walk_up_spec root pm (dp root ftr) nx) with (n := S (size pm)) (v := target) (acc := @nil vid)
        as (l & Hw & Hr & Hl); [done..|set_solver| |].
      * apply Nat.lt_succ_r. eapply (dpf_bound root pm (dp root ftr)); try done. set_solver.
      * rewrite Hw, app_nil_r. exists l. split; [done|]. split; [done|].
        intros l' Hl'. rewrite Hl. by apply (br_dist _ _ _ Hres).
    + split; [|done]. intros Hlk. apply Hdisc in Hlk as [?|?]; done.
Qed.

End find.
