(** Correctness of breadth first search on an abstract out-edge function. *)
From Coq Require Import Sorting.Sorted.
From stdpp Require Import prelude strings gmap.
From Verif Require Import ListLib Outcome Digraph Bfs SpecWalk WalkThms.

Global Instance color_eq_dec : EqDecision color.
Proof. solve_decision. Defined.

Section bfs.
Context {E : Type}.
Local Notation bev := (bev E).
Local Notation erec := (erec E).
Implicit Types (tr pre : list bev) (e : erec) (v u : vid).

(** Edges examined, in order. *)
Definition ex (tr : list bev) : list erec :=
  omap (fun b => match b with BTree e | BGray e | BBlack e => Some e | _ => None end) tr.
Definition te (tr : list bev) : list erec :=
  omap (fun b => match b with BTree e => Some e | _ => None end) tr.

Definition dep_step (m : gmap vid nat) (b : bev) : gmap vid nat :=
  match b with BTree e => <[e_tgt e := S (default 0 (m !! e_src e))]> m | _ => m end.
Definition tdep (root : vid) (tr : list bev) : gmap vid nat := foldl dep_step {[root := 0]} tr.
Definition dp (root : vid) (tr : list bev) (v : vid) : nat := default 0 (tdep root tr !! v).

Lemma ex_app t1 t2 : ex (t1 ++ t2) = ex t1 ++ ex t2.
Proof. unfold ex. by rewrite omap_app. Qed.
Lemma te_app t1 t2 : te (t1 ++ t2) = te t1 ++ te t2.
Proof. unfold te. by rewrite omap_app. Qed.
Lemma tdep_app root t1 t2 : tdep root (t1 ++ t2) = foldl dep_step (tdep root t1) t2.
Proof. unfold tdep. by rewrite foldl_app. Qed.

Lemma elem_ex e tr : e ∈ ex tr <-> BTree e ∈ tr \/ BGray e ∈ tr \/ BBlack e ∈ tr.
Proof.
  unfold ex. rewrite elem_of_list_omap. split.
  - intros (b & Hb & Heq). destruct b; try done; injection Heq as ->; auto.
  - intros [H|[H|H]]; eauto.
Qed.
Lemma elem_te e tr : e ∈ te tr <-> BTree e ∈ tr.
Proof.
  unfold te. rewrite elem_of_list_omap. split.
  - intros (b & Hb & Heq). destruct b; try done; injection Heq as ->; auto.
  - eauto.
Qed.

Variable out : vid -> list erec.
Variable root : vid.
Hypothesis Hsrc : forall u e, e ∈ out u -> e_src e = u.
Hypothesis Hnd : forall u, NoDup (out u).

(** State during the search: [cur] with edges [es] still to examine, queue [q]. *)
Record J (cur : option vid) (es : list erec) (pre : list bev) (col : gmap vid color) (q : list vid) : Prop := {
  j_dom : forall v, is_Some (col !! v) <-> is_Some (tdep root pre !! v);
  j_gray : forall v, col !! v = Some CGray <-> v ∈ option_list cur ++ q;
  j_nd : NoDup (option_list cur ++ q);
  j_ex : forall v, filter (fun e => e_src e = v) (ex pre) ++ (if decide (cur = Some v) then es else []) =
           if decide (col !! v = Some CBlack \/ cur = Some v) then out v else [];
  j_dep : forall e, e ∈ ex pre ->
      is_Some (col !! e_src e) /\ is_Some (col !! e_tgt e) /\ dp root pre (e_tgt e) <= S (dp root pre (e_src e));
  j_tree : forall e, BTree e ∈ pre -> e_tgt e <> root /\ dp root pre (e_tgt e) = S (dp root pre (e_src e));
  j_tuniq : NoDup (e_tgt <$> te pre);
  j_tsome : forall v, is_Some (col !! v) -> v = root \/ exists e, BTree e ∈ pre /\ e_tgt e = v;
  j_root : is_Some (col !! root) /\ dp root pre root = 0;
  j_sorted : StronglySorted (fun a b => dp root pre a <= dp root pre b) (option_list cur ++ q);
  j_bound : forall x y, head (option_list cur ++ q) = Some x -> y ∈ option_list cur ++ q ->
              dp root pre y <= S (dp root pre x);
  j_black : forall v x, col !! v = Some CBlack -> x ∈ option_list cur ++ q ->
              dp root pre v <= dp root pre x;
  j_bl : forall e, BBlack e ∈ pre -> col !! e_tgt e = Some CBlack;
  j_pair : forall e e', e ∈ ex pre -> e' ∈ ex pre -> e_src e <> e_tgt e ->
      e_src e' = e_tgt e -> e_tgt e' = e_src e ->
      (BBlack e ∈ pre -> BBlack e' ∉ pre) /\
      (BTree e ∈ pre \/ BGray e ∈ pre -> BBlack e' ∈ pre) }.

Lemma J_init : J None [] [BDiscover root] {[root := CGray]} [root].
Proof.
  assert (Hdp : dp root [BDiscover root] root = 0).
  { unfold dp, tdep. cbn. by rewrite lookup_singleton. }
  split; cbn [option_list app].
  - intros v. unfold tdep. cbn. destruct (decide (root = v)) as [<-|Hne].
    + rewrite !lookup_singleton. split; eauto.
    + rewrite !lookup_singleton_ne by done. split; intros [? ?]; done.
  - intros v. rewrite lookup_singleton_Some. set_solver.
  - apply NoDup_singleton.
  - intros v. cbn. rewrite (decide_False (P := None = Some v)) by done. rewrite decide_False; [done|].
    rewrite lookup_singleton_Some. naive_solver.
  - intros e. cbn. set_solver.
  - intros e He. set_solver.
  - constructor.
  - intros v [? ?]. apply lookup_singleton_Some in H as [-> _]. by left.
  - split; [|done]. rewrite lookup_singleton. eauto.
  - repeat constructor.
  - intros x y [= <-] ->%elem_of_list_singleton. lia.
  - intros v x Hv. apply lookup_singleton_Some in Hv as [_ ?]. done.
  - intros e He. set_solver.
  - intros e e' He. cbn in He. set_solver.
Qed.

Lemma J_start u pre col q : J None [] pre col (u :: q) -> J (Some u) (out u) pre col q.
Proof.
  intros [H1 H2 H3 H4 H5 H6 H7 H8 H9 H10 H11 H12 H13 H14].
  split; cbn [option_list app] in *; try done.
  intros v. specialize (H4 v). rewrite (decide_False (P := None = Some v)) in H4 by done.
  rewrite app_nil_r in H4. rewrite H4.
  assert (Hu : col !! u = Some CGray) by (apply H2; set_solver).
  destruct (decide (Some u = Some v)) as [[= ->]|Hne].
  - rewrite decide_False by naive_solver. rewrite decide_True by auto. done.
  - rewrite app_nil_r. repeat case_decide; naive_solver.
Qed.

Lemma J_finish u pre col q : J (Some u) [] pre col q ->
  J None [] (pre ++ [BFinish u]) (<[u := CBlack]> col) q.
Proof.
  intros [H1 H2 H3 H4 H5 H6 H7 H8 H9 H10 H11 H12 H13 H14].
  assert (Hex : ex (pre ++ [BFinish u]) = ex pre) by (rewrite ex_app; apply app_nil_r).
  assert (Hte : te (pre ++ [BFinish u]) = te pre) by (rewrite te_app; apply app_nil_r).
  assert (Htd : tdep root (pre ++ [BFinish u]) = tdep root pre) by by rewrite tdep_app.
  assert (Hdp : forall v, dp root (pre ++ [BFinish u]) v = dp root pre v).
  { intros v. unfold dp. by rewrite Htd. }
  assert (Hin : forall b, (forall v, b <> BFinish v) -> b ∈ pre ++ [BFinish u] <-> b ∈ pre).
  { intros b Hb. rewrite elem_of_app, elem_of_list_singleton. naive_solver. }
  assert (Huq : u ∉ q).
  { cbn in H3. by apply NoDup_cons in H3 as [? _]. }
  assert (Hug : col !! u = Some CGray) by (apply H2; cbn; set_solver).
  assert (Hsome : forall v, is_Some (<[u := CBlack]> col !! v) <-> is_Some (col !! v)).
  { intros v. destruct (decide (v = u)) as [->|]; [|by rewrite lookup_insert_ne].
    rewrite lookup_insert, Hug. split; eauto. }
  split; cbn [option_list app] in *; rewrite ?Hex, ?Hte.
  - intros v. rewrite Hsome, Htd. apply H1.
  - intros v. destruct (decide (v = u)) as [->|].
    + rewrite lookup_insert. naive_solver.
    + rewrite lookup_insert_ne, H2 by done. set_solver.
  - by apply NoDup_cons in H3 as [_ ?].
  - intros v. specialize (H4 v). rewrite (decide_False (P := None = Some v)) by done.
    rewrite app_nil_r. destruct (decide (v = u)) as [->|].
    + rewrite !decide_True, app_nil_r in H4 by auto. rewrite H4, lookup_insert.
      rewrite decide_True by auto. done.
    + rewrite (decide_False (P := Some u = Some v)), app_nil_r in H4 by congruence.
      rewrite H4, lookup_insert_ne by done. repeat case_decide; naive_solver.
  - intros e He. rewrite !Hsome, !Hdp. by apply H5.
  - intros e He. rewrite !Hdp. apply H6. apply Hin in He; [done|done].
  - done.
  - intros v Hv%Hsome. destruct (H8 v Hv) as [?|(e & ? & ?)]; [by left|]. right. exists e.
    split; [|done]. by apply Hin.
  - by rewrite Hsome, Hdp.
  - apply StronglySorted_inv in H10 as [H10 _]. clear -H10 Hdp.
    induction H10 as [|x l Hl IH Hall]; constructor; [done|].
    eapply Forall_impl; [done|]. cbn. intros y. by rewrite !Hdp.
  - intros x y Hx Hy. rewrite !Hdp. pose proof (H11 u y eq_refl ltac:(set_solver)).
    apply StronglySorted_inv in H10 as [_ H10]. rewrite Forall_forall in H10.
    assert (dp root pre u <= dp root pre x); [|lia]. apply H10. destruct q; [done|].
    injection Hx as ->. set_solver.
  - intros v x Hv Hx. rewrite !Hdp. destruct (decide (v = u)) as [->|].
    + apply StronglySorted_inv in H10 as [_ H10]. rewrite Forall_forall in H10. auto.
    + rewrite lookup_insert_ne in Hv by done. apply H12; [done|]. set_solver.
  - intros e He%Hin; [|done]. destruct (decide (e_tgt e = u)) as [->|]; [by rewrite lookup_insert|].
    rewrite lookup_insert_ne by done. auto.
  - intros e e' He He' Hne Hs Ht. rewrite !Hin by done. by apply H14.
Qed.

Lemma J_fresh u e es pre col q : J (Some u) (e :: es) pre col q -> e_src e = u -> e ∉ ex pre.
Proof.
  intros HJ Hu He. pose proof (j_ex _ _ _ _ _ HJ u) as H. rewrite !decide_True in H by auto.
  pose proof (Hnd u) as Hn. rewrite <- H in Hn. apply NoDup_app in Hn as (_ & Hn & _).
  apply (Hn e); [|set_solver]. by apply elem_of_list_filter.
Qed.

(** One edge *)
Lemma J_step_tree u e es pre col q : J (Some u) (e :: es) pre col q -> e_src e = u ->
  col !! e_tgt e = None ->
  J (Some u) es (pre ++ [BTree e; BDiscover (e_tgt e)]) (<[e_tgt e := CGray]> col) (q ++ [e_tgt e]).
Proof.
  intros HJ Hu Hn. pose proof (J_fresh _ _ _ _ _ _ HJ Hu) as Hfresh.
  destruct HJ as [H1 H2 H3 H4 H5 H6 H7 H8 H9 H10 H11 H12 H13 H14].
  set (v := e_tgt e) in *. set (pre' := pre ++ [BTree e; BDiscover v]).
  assert (Hex : ex pre' = ex pre ++ [e]) by (unfold pre'; rewrite ex_app; done).
  assert (Hte : te pre' = te pre ++ [e]) by (unfold pre'; rewrite te_app; done).
  assert (Htd : tdep root pre' = <[v := S (dp root pre u)]> (tdep root pre)).
  { unfold pre'. rewrite tdep_app. cbn. by rewrite Hu. }
  assert (Hug : col !! u = Some CGray) by (apply H2; cbn; set_solver).
  assert (Hvu : v <> u) by congruence.
  assert (Hdpv : dp root pre' v = S (dp root pre u)).
  { unfold dp at 1. by rewrite Htd, lookup_insert. }
  assert (Hdp : forall w, w <> v -> dp root pre' w = dp root pre w).
  { intros w Hw. unfold dp. by rewrite Htd, lookup_insert_ne. }
  assert (Hin : forall b, b <> BDiscover v -> b <> BTree e -> b ∈ pre' <-> b ∈ pre).
  { intros b Hb1 Hb2. unfold pre'. rewrite elem_of_app, !elem_of_cons. set_solver. }
  assert (Hsome : forall w, is_Some (<[v := CGray]> col !! w) <-> w = v \/ is_Some (col !! w)).
  { intros w. destruct (decide (w = v)) as [->|].
    - rewrite lookup_insert. split; eauto.
    - rewrite lookup_insert_ne by done. naive_solver. }
  assert (Hnew : forall w, is_Some (col !! w) -> w <> v).
  { intros w [c Hc] ->. congruence. }
  assert (Hold : forall w, w ∈ option_list (Some u) ++ q -> w <> v).
  { intros w Hw ->. apply H2 in Hw. congruence. }
  assert (Hblk : forall w, <[v := CGray]> col !! w = Some CBlack <-> col !! w = Some CBlack).
  { intros w. destruct (decide (w = v)) as [->|].
    - rewrite lookup_insert. naive_solver.
    - by rewrite lookup_insert_ne. }
  assert (Hexv : forall e', e' ∈ ex pre -> e_src e' <> v).
  { intros e' He'. apply Hnew. by apply H5. }
  assert (Htgt : forall e', BTree e' ∈ pre -> e_tgt e' <> v).
  { intros e' He'. apply Hnew, H5, elem_ex. auto. }
  split; cbn [option_list app] in *.
  - intros w. rewrite Hsome, Htd. destruct (decide (w = v)) as [->|].
    + rewrite lookup_insert. split; eauto.
    + rewrite lookup_insert_ne, <- H1 by done. naive_solver.
  - intros w. destruct (decide (w = v)) as [->|].
    + rewrite lookup_insert. set_solver.
    + rewrite lookup_insert_ne, H2 by done. set_solver.
  - change (NoDup ((u :: q) ++ [v])). apply NoDup_app. split; [done|]. split; [|apply NoDup_singleton].
    intros w Hw. rewrite elem_of_list_singleton. auto.
  - intros w. rewrite Hex, filter_app. specialize (H4 w).
    assert (Hdec : (if decide (<[v:=CGray]> col !! w = Some CBlack \/ Some u = Some w) then out w else [])
                 = (if decide (col !! w = Some CBlack \/ Some u = Some w) then out w else [])).
    { pose proof (Hblk w). repeat case_decide; naive_solver. }
    rewrite Hdec, <- H4. destruct (decide (Some u = Some w)) as [[= <-]|Hne].
    + rewrite filter_cons_True by done. rewrite <- app_assoc. done.
    + rewrite filter_cons_False by congruence. by rewrite !app_nil_r.
  - intros e'. rewrite Hex, elem_of_app, elem_of_list_singleton. intros [He'| ->].
    + destruct (H5 e' He') as (Ha & Hb & Hc). rewrite !Hsome. split; [by right|]. split; [by right|].
      rewrite !Hdp by auto. done.
    + rewrite !Hsome. split; [right; by rewrite Hu, Hug|]. split; [by left|].
      fold v. rewrite Hdpv, Hu, Hdp by congruence. lia.
  - intros e' [He'|[He'|He']%elem_of_cons]%elem_of_app.
    + destruct (H6 e' He') as [Ha Hb]. split; [done|].
      rewrite !Hdp by (auto; apply Hexv, elem_ex; auto). done.
    + injection He' as ->. split.
      * intros Heq. fold v in Heq. destruct H9 as [H9 _]. apply Hnew in H9. congruence.
      * fold v. rewrite Hdpv, Hu, Hdp by congruence. lia.
    + apply elem_of_list_singleton in He'. done.
  - rewrite Hte, fmap_app. apply NoDup_app. split; [done|]. split; [|apply NoDup_singleton].
    intros w (e' & -> & He'%elem_te)%elem_of_list_fmap. cbn. rewrite elem_of_list_singleton.
    by apply Htgt.
  - intros w [-> | Hw]%Hsome.
    + right. exists e. split; [|done]. unfold pre'. set_solver.
    + destruct (H8 w Hw) as [?|(e' & ? & ?)]; [by left|]. right. exists e'. split; [|done].
      unfold pre'. set_solver.
  - destruct H9 as [H9 H9']. split; [apply Hsome; by right|]. rewrite Hdp by by apply Hnew. done.
  - change (StronglySorted (fun a b => dp root pre' a <= dp root pre' b) ((option_list (Some u) ++ q) ++ [v])).
    assert (Hle : forall w, w ∈ option_list (Some u) ++ q -> dp root pre w <= S (dp root pre u)) by (intros w Hw; by apply H11).
    revert H10 Hold Hle. generalize (option_list (Some u) ++ q) as L. intros L.
    induction L as [|x l IH]; intros H10 Hold Hle; cbn.
    + repeat constructor.
    + apply StronglySorted_inv in H10 as [Hl Hall]. constructor.
      * apply IH; [done|intros w Hw..]; [apply Hold|apply Hle]; set_solver.
      * apply Forall_app. split.
        -- rewrite Forall_forall in *. intros y Hy. rewrite !Hdp by (apply Hold; set_solver). auto.
        -- constructor; [|constructor]. rewrite Hdpv, Hdp by (apply Hold; set_solver).
           apply Hle. set_solver.
  - intros x y [= <-] Hy. rewrite (Hdp u) by congruence.
    change (y ∈ (u :: q) ++ [v]) in Hy. apply elem_of_app in Hy as [Hy| ->%elem_of_list_singleton].
    + rewrite Hdp by auto. by apply H11.
    + rewrite Hdpv. lia.
  - intros w x Hw%Hblk Hx. rewrite (Hdp w) by (apply Hnew; eauto).
    change (x ∈ (u :: q) ++ [v]) in Hx. apply elem_of_app in Hx as [Hx| ->%elem_of_list_singleton].
    + rewrite Hdp by auto. by apply H12.
    + rewrite Hdpv. specialize (H12 w u Hw ltac:(set_solver)). lia.
  - intros e' He'%Hin; [|done..]. apply Hblk. auto.
  - intros e1 e2. rewrite Hex, !elem_of_app, !elem_of_list_singleton.
    intros [He1| ->] [He2| ->] Hne Hs Ht.
    + rewrite !(Hin (BBlack _)) by done. destruct (H14 e1 e2 He1 He2 Hne Hs Ht) as [Ha Hb].
      split; [done|]. intros Hor. apply Hb. rewrite (Hin (BGray _)) in Hor by done.
      destruct Hor as [Hor|?]; [|by right]. left.
      apply elem_of_app in Hor as [?|[Heq|Heq]%elem_of_cons]; [done| |].
      * injection Heq as ->. destruct (Hfresh He1).
      * apply elem_of_list_singleton in Heq. done.
    + destruct (Hexv e1 He1). by rewrite <- Ht.
    + destruct (Hexv e2 He2). by rewrite Hs.
    + congruence.
Qed.

(** An edge whose target was discovered before. *)
Lemma J_step_old u e es pre col q b c : J (Some u) (e :: es) pre col q -> e_src e = u ->
  col !! e_tgt e = Some c -> b = (match c with CGray => BGray e | CBlack => BBlack e end) ->
  J (Some u) es (pre ++ [b]) col q.
Proof.
  intros HJ Hu Hc Hb. pose proof (J_fresh _ _ _ _ _ _ HJ Hu) as Hfresh.
  destruct HJ as [H1 H2 H3 H4 H5 H6 H7 H8 H9 H10 H11 H12 H13 H14].
  set (v := e_tgt e) in *. set (pre' := pre ++ [b]).
  assert (Hex : ex pre' = ex pre ++ [e]) by (unfold pre'; rewrite ex_app; subst b; by destruct c).
  assert (Hte : te pre' = te pre) by (unfold pre'; rewrite te_app; subst b; destruct c; apply app_nil_r).
  assert (Htd : tdep root pre' = tdep root pre).
  { unfold pre'. rewrite tdep_app. subst b. by destruct c. }
  assert (Hug : col !! u = Some CGray) by (apply H2; cbn; set_solver).
  assert (Hdp : forall w, dp root pre' w = dp root pre w).
  { intros w. unfold dp. by rewrite Htd. }
  assert (Hin : forall b', b' ∈ pre' <-> b' ∈ pre \/ b' = b).
  { intros b'. unfold pre'. rewrite elem_of_app, elem_of_list_singleton. done. }
  assert (Hint : forall e', BTree e' ∈ pre' <-> BTree e' ∈ pre).
  { intros e'. rewrite Hin. split; [|auto]. intros [?|?]; [done|]. subst b. by destruct c. }
  split; cbn [option_list app] in *; rewrite ?Hte, ?Htd; try done.
  - intros w. rewrite Hex, filter_app. specialize (H4 w). rewrite <- H4.
    destruct (decide (Some u = Some w)) as [[= <-]|Hne].
    + rewrite filter_cons_True by done. rewrite <- app_assoc. done.
    + rewrite filter_cons_False by congruence. by rewrite !app_nil_r.
  - intros e'. rewrite Hex, elem_of_app, elem_of_list_singleton. rewrite !Hdp. intros [He'| ->]; [by apply H5|].
    rewrite Hu, Hug. split; [by eauto|]. fold v. rewrite Hc. split; [by eauto|].
    destruct c.
    + apply H11; [done|]. by apply H2.
    + specialize (H12 v u Hc ltac:(set_solver)). lia.
  - intros e' He'%Hint. rewrite !Hdp. by apply H6.
  - intros w Hw. destruct (H8 w Hw) as [?|(e' & ? & ?)]; [by left|]. right. exists e'.
    split; [by apply Hint|done].
  - by rewrite Hdp.
  - clear -H10 Hdp. induction H10 as [|x l Hl IH Hall]; constructor; [done|].
    eapply Forall_impl; [done|]. cbn. intros y. by rewrite !Hdp.
  - intros x y Hx Hy. rewrite !Hdp. auto.
  - intros w x Hw Hx. rewrite !Hdp. auto.
  - intros e' [He'|He']%Hin; [by auto|]. subst b. destruct c; [done|]. by injection He' as ->.
  - intros e1 e2. rewrite Hex, !elem_of_app, !elem_of_list_singleton.
    assert (Hold : forall e', e' ∈ ex pre -> BBlack e' ∈ pre' <-> BBlack e' ∈ pre).
    { intros e' He'. rewrite Hin. split; [|auto]. intros [?|Heq]; [done|].
      subst b. destruct c; [done|]. injection Heq as ->. by destruct Hfresh. }
    assert (Holdg : forall e', e' ∈ ex pre -> BGray e' ∈ pre' <-> BGray e' ∈ pre).
    { intros e' He'. rewrite Hin. split; [|auto]. intros [?|Heq]; [done|].
      subst b. destruct c; [|done]. injection Heq as ->. by destruct Hfresh. }
    assert (Hnb : forall b', b' = BTree e \/ b' = BGray e \/ b' = BBlack e -> b' ∉ pre).
    { intros b' Hb' Hx. apply Hfresh, elem_ex. destruct Hb' as [-> | [-> | ->]]; auto. }
    (* the opposite edge was examined before: the target is black *)
    assert (Hopp : forall e', e' ∈ ex pre -> e_src e <> e_tgt e -> e_src e' = v -> e_tgt e' = u ->
              c = CBlack /\ BBlack e' ∉ pre).
    { intros e' He' Hne Hs' Ht'. split.
      - destruct c; [|done]. exfalso.
        specialize (H4 v). rewrite (decide_False (P := Some u = Some v)) in H4.
        2:{ intros [= Heq]. apply Hne. unfold v in *. congruence. }
        rewrite decide_False, app_nil_r in H4.
        2:{ intros [?|[= ?]]; [congruence|]. apply Hne. unfold v in *. congruence. }
        assert (Hx : e' ∈ filter (fun e => e_src e = v) (ex pre)) by by apply elem_of_list_filter.
        rewrite H4 in Hx. by apply elem_of_nil in Hx.
      - intros Hbl%H13. congruence. }
    intros [He1| ->] [He2| ->] Hne Hs Ht.
    + rewrite !Hold, Holdg, Hint by done. auto.
    + destruct (Hopp e1 He1) as [-> Hnb1]; [unfold v in *; congruence..|]. split.
      * intros Hx%Hold; done.
      * intros _. apply Hin. right. by subst b.
    + destruct (Hopp e2 He2) as [-> Hnb1]; [unfold v in *; congruence..|]. split.
      * intros _ Hx%Hold; done.
      * rewrite Hint, Hin. intros [Hx|[Hx|Hx]].
        -- destruct (Hnb (BTree e)); auto.
        -- destruct (Hnb (BGray e)); auto.
        -- by subst b.
    + congruence.
Qed.


Lemma J_scan u es pre col q tr col' q' : bfs_scan es col q = (tr, col', q') ->
  (forall e, e ∈ es -> e_src e = u) ->
  J (Some u) es pre col q -> J (Some u) [] (pre ++ tr) col' q'.
Proof.
  revert pre col q tr col' q'. induction es as [|e es IH]; intros pre col q tr col' q'; cbn.
  { intros [= <- <- <-] _. by rewrite app_nil_r. }
  intros Hs Hes HJ. assert (Hu : e_src e = u) by (apply Hes; set_solver).
  assert (Hes' : forall e, e ∈ es -> e_src e = u) by (intros; apply Hes; set_solver).
  destruct (col !! e_tgt e) as [c|] eqn:Hc.
  - destruct c.
    + destruct (bfs_scan es col q) as [[tr1 c1] q1] eqn:Hs1. injection Hs as <- <- <-.
      change (BGray e :: tr1) with ([BGray e] ++ tr1). rewrite app_assoc.
      eapply IH; [done|done|]. by eapply J_step_old.
    + destruct (bfs_scan es col q) as [[tr1 c1] q1] eqn:Hs1. injection Hs as <- <- <-.
      change (BBlack e :: tr1) with ([BBlack e] ++ tr1). rewrite app_assoc.
      eapply IH; [done|done|]. by eapply J_step_old.
  - destruct (bfs_scan es _ _) as [[tr1 c1] q1] eqn:Hs1. injection Hs as <- <- <-.
    change (BTree e :: BDiscover (e_tgt e) :: tr1) with ([BTree e; BDiscover (e_tgt e)] ++ tr1).
    rewrite app_assoc. eapply IH; [done|done|]. by apply J_step_tree.
Qed.

Lemma J_loop n pre col q tr : bfs_loop n out col q = Some tr -> J None [] pre col q ->
  exists col', J None [] (pre ++ tr) col' [].
Proof.
  revert pre col q tr. induction n as [|n IH]; intros pre col q tr; cbn.
  { destruct q; [|done]. intros [= <-]. rewrite app_nil_r. eauto. }
  destruct q as [|u q]; [intros [= <-]; rewrite app_nil_r; eauto|].
  destruct (bfs_scan (out u) col q) as [[tr1 c1] q1] eqn:Hs.
  destruct (bfs_loop n out (<[u := CBlack]> c1) q1) as [tr2|] eqn:Hl; [|done].
  intros [= <-] HJ. apply J_start in HJ. eapply J_scan in HJ; [|done|by apply Hsrc].
  apply J_finish in HJ. eapply IH in HJ as [c' HJ]; [|done]. exists c'.
  rewrite <- !app_assoc in HJ. done.
Qed.

(** Fuel: every vertex is popped at most once. *)
Lemma scan_col es col q tr col' q' : bfs_scan es col q = (tr, col', q') ->
  (forall v, col' !! v = Some CBlack <-> col !! v = Some CBlack) /\
  (forall v, v ∈ q' -> v ∈ q \/ exists e, e ∈ es /\ e_tgt e = v).
Proof.
  revert col q tr col' q'. induction es as [|e es IH]; intros col q tr col' q'; cbn.
  { intros [= <- <- <-]. auto. }
  destruct (col !! e_tgt e) as [c|] eqn:Hc.
  - destruct c; destruct (bfs_scan es col q) as [[tr1 c1] q1] eqn:Hs1; intros [= <- <- <-];
      apply IH in Hs1 as [Ha Hb]; (split; [done|]);
      intros v [?|(e' & ? & ?)]%Hb; [by left| |by left|]; right; exists e'; set_solver.
  - destruct (bfs_scan es _ _) as [[tr1 c1] q1] eqn:Hs1. intros [= <- <- <-].
    apply IH in Hs1 as [Ha Hb]. split.
    + intros v. rewrite Ha. destruct (decide (e_tgt e = v)) as [<-|].
      * rewrite lookup_insert, Hc. done.
      * by rewrite lookup_insert_ne.
    + intros v [?|(e' & ? & ?)]%Hb.
      * apply elem_of_app in H as [?|?%elem_of_list_singleton]; [by left|].
        right. exists e. set_solver.
      * right. exists e'. set_solver.
Qed.

Lemma filter_length_lt {A} (P Q : A -> Prop) `{!forall x, Decision (P x)} `{!forall x, Decision (Q x)}
  (l : list A) x : (forall y, Q y -> P y) -> x ∈ l -> P x -> ~ Q x ->
  length (filter Q l) < length (filter P l).
Proof.
  intros Himp. induction l as [|y l IH]; intros Hx Hp Hq; [set_solver|].
  assert (Hle : length (filter Q l) <= length (filter P l)).
  { clear IH Hx. induction l as [|z l IH]; [done|].
    rewrite !filter_cons. repeat case_decide; cbn; try lia. naive_solver. }
  rewrite !filter_cons. apply elem_of_cons in Hx as [-> |Hx].
  - rewrite decide_False, decide_True by done. cbn. lia.
  - specialize (IH Hx Hp Hq). repeat case_decide; cbn; try lia. naive_solver.
Qed.

Variable V : list vid.
Hypothesis Hclosed : forall u e, u ∈ V -> e ∈ out u -> e_tgt e ∈ V.

Lemma loop_fuel n pre col q : (forall v, v ∈ q -> v ∈ V) -> J None [] pre col q ->
  length (filter (fun v => col !! v <> Some CBlack) V) <= n ->
  exists tr, bfs_loop n out col q = Some tr.
Proof.
  revert pre col q. induction n as [|n IH]; intros pre col q Hq HJ Hlen.
  - destruct q as [|u q]; [by eexists|]. exfalso.
    assert (Hu : u ∈ filter (fun v => col !! v <> Some CBlack) V).
    { apply elem_of_list_filter. split; [|apply Hq; set_solver].
      assert (col !! u = Some CGray); [|congruence]. apply (j_gray _ _ _ _ _ HJ). cbn. set_solver. }
    destruct (filter _ V); [set_solver|cbn in *; lia].
  - destruct q as [|u q]; cbn; [by eexists|].
    destruct (bfs_scan (out u) col q) as [[tr1 c1] q1] eqn:Hs.
    assert (Hg : col !! u = Some CGray) by (apply (j_gray _ _ _ _ _ HJ); cbn; set_solver).
    apply J_start in HJ. eapply J_scan in HJ; [|done|by apply Hsrc]. apply J_finish in HJ.
    apply scan_col in Hs as [Hb Hq1].
    edestruct (IH ((pre ++ tr1) ++ [BFinish u]) (<[u := CBlack]> c1) q1) as [tr2 Htr2]; [|exact HJ| |].
    + intros v [?|(e & He & <-)]%Hq1; [apply Hq; set_solver|]. eapply Hclosed; [|done]. apply Hq. set_solver.
    + assert (length (filter (fun v => <[u := CBlack]> c1 !! v <> Some CBlack) V) <
              length (filter (fun v => col !! v <> Some CBlack) V)); [|lia].
      apply (filter_length_lt _ _ _ u).
      * intros y Hy Hc. apply Hy. destruct (decide (u = y)) as [<-|]; [by rewrite lookup_insert|].
        rewrite lookup_insert_ne by done. by apply Hb.
      * apply Hq. set_solver.
      * congruence.
      * rewrite lookup_insert. naive_solver.
    + rewrite Htr2. eauto.
Qed.

(** The result *)
Definition next (u v : vid) : Prop := exists e, e ∈ out u /\ e_tgt e = v.

Record bfs_result (tr : list bev) : Prop := {
  br_disc : forall v, is_Some (tdep root tr !! v) <-> linked next root v;
  br_ex : forall v, filter (fun e => e_src e = v) (ex tr) =
            if decide (is_Some (tdep root tr !! v)) then out v else [];
  br_dist : forall v l, route next root v l -> S (dp root tr v) <= length l;
  br_tree : forall e, BTree e ∈ tr ->
      e_tgt e <> root /\ e ∈ out (e_src e) /\ is_Some (tdep root tr !! e_src e) /\
      is_Some (tdep root tr !! e_tgt e) /\ dp root tr (e_tgt e) = S (dp root tr (e_src e));
  br_tuniq : forall e e', BTree e ∈ tr -> BTree e' ∈ tr -> e_tgt e = e_tgt e' -> e = e';
  br_tsome : forall v, is_Some (tdep root tr !! v) -> v <> root -> exists e, BTree e ∈ tr /\ e_tgt e = v;
  br_root : is_Some (tdep root tr !! root) /\ dp root tr root = 0;
  br_pair : forall e e', e ∈ ex tr -> e' ∈ ex tr -> e_src e <> e_tgt e ->
      e_src e' = e_tgt e -> e_tgt e' = e_src e ->
      (BBlack e ∈ tr -> BBlack e' ∉ tr) /\
      (BTree e ∈ tr \/ BGray e ∈ tr -> BBlack e' ∈ tr) }.

Lemma J_final pre col : J None [] pre col [] -> bfs_result pre.
Proof.
  intros [H1 H2 H3 H4 H5 H6 H7 H8 H9 H10 H11 H12 H13 H14].
  assert (Hblk : forall v, is_Some (col !! v) -> col !! v = Some CBlack).
  { intros v [[] Hc]; [|done]. apply H2 in Hc. cbn in Hc. set_solver. }
  assert (Hex : forall v, filter (fun e => e_src e = v) (ex pre) =
            if decide (is_Some (tdep root pre !! v)) then out v else []).
  { intros v. specialize (H4 v). rewrite (decide_False (P := None = Some v)), app_nil_r in H4 by done.
    rewrite H4. pose proof (H1 v) as Hd. pose proof (Hblk v). repeat case_decide; naive_solver. }
  assert (Hnext : forall u v, is_Some (col !! u) -> next u v ->
            is_Some (col !! v) /\ dp root pre v <= S (dp root pre u)).
  { intros u v Hu (e & He & <-). assert (Hin : e ∈ filter (fun e => e_src e = u) (ex pre)).
    { rewrite Hex, decide_True; [done|]. by apply H1. }
    apply elem_of_list_filter in Hin as [<- Hin]. by apply H5 in Hin as (_ & ? & ?). }
  assert (Hroute : forall n v l, length l = n -> route next root v l ->
            is_Some (col !! v) /\ S (dp root pre v) <= length l).
  { induction n as [|n IH]; intros v l Hn Hr.
    - destruct l; [by apply route_nil in Hr|done].
    - destruct (route_inv_snoc _ _ _ _ Hr) as [[-> <-]|(l' & b & -> & Hr' & Hb)].
      + destruct H9 as [? ->]. cbn. auto.
      + rewrite app_length in *. cbn in *. destruct (IH b l' ltac:(lia) Hr') as [Hsb Hle].
        destruct (Hnext b v Hsb Hb). split; [done|lia]. }
  assert (Htree : forall e, BTree e ∈ pre ->
      e_tgt e <> root /\ e ∈ out (e_src e) /\ is_Some (tdep root pre !! e_src e) /\
      is_Some (tdep root pre !! e_tgt e) /\ dp root pre (e_tgt e) = S (dp root pre (e_src e))).
  { intros e He. destruct (H6 e He) as [Hr Hd]. assert (Hin : e ∈ ex pre) by (apply elem_ex; auto).
    split; [done|]. destruct (H5 e Hin) as (Ha & Hb & _). rewrite H1 in Ha, Hb.
    split; [|done].
    assert (Hin' : e ∈ filter (fun e' => e_src e' = e_src e) (ex pre)) by by apply elem_of_list_filter.
    rewrite Hex, decide_True in Hin' by done. done. }
  split; try done.
  - intros v. rewrite <- H1. split.
    + intros Hv. remember (dp root pre v) as n eqn:Hn. revert v Hv Hn.
      induction n as [n IH] using lt_wf_ind. intros v Hv Hn.
      destruct (H8 v Hv) as [-> |(e & He & <-)]; [apply linked_refl|].
      destruct (Htree e He) as (_ & Ho & Hs & Ht & Hd). rewrite <- H1 in Hs.
      eapply linked_trans; [eapply (IH (dp root pre (e_src e))); [lia|done|done]|].
      apply linked_step. by exists e.
    + intros [l Hl]. by eapply Hroute.
  - intros v l Hl. by eapply Hroute.
  - intros e e' He He' Heq. eapply (NoDup_fmap_inj e_tgt); [exact H7|by apply elem_te..|done].
  - intros v Hv Hne. rewrite <- H1 in Hv. destruct (H8 v Hv); [done|auto].
  - by rewrite <- H1.
Qed.

End bfs.
