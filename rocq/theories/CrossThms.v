(** Removing a tree edge below which there are cross edges, in general (C19). *)
From stdpp Require Import prelude strings gmap.
From Verif Require Import ListLib Outcome Digraph Bfs TreeView SpecWalk WalkThms SpecTree SpecView SpecCross BuildThms SyncThms VisitThms
  RemoveThms.

(** *** Counting occurrences *)

Definition cnt (i : nat) (l : list nat) : nat := length (filter (fun j => j = i) l).

Lemma cnt_app i l1 l2 : cnt i (l1 ++ l2) = cnt i l1 + cnt i l2.
Proof. unfold cnt. by rewrite filter_app, app_length. Qed.

Lemma cnt_cons i j l : cnt i (j :: l) = (if decide (j = i) then 1 else 0) + cnt i l.
Proof. unfold cnt. rewrite filter_cons. by destruct (decide (j = i)). Qed.

Lemma cnt_elem i l : i ∈ l <-> 1 <= cnt i l.
Proof.
  induction l as [|j l IH]; [cbn; split; [by intros ?%elem_of_nil|lia]|]. rewrite cnt_cons, elem_of_cons, IH.
  destruct (decide (j = i)) as [->|]; [split; [lia|by left]|]. split; [intros [?|?]; [congruence|lia]|]. intros ?. right. lia.
Qed.

(** *** A list without the elements at some positions *)

Fixpoint omit {A} (ds : list nat) (k : nat) (l : list A) : list A :=
  match l with
  | [] => []
  | x :: l' => (if bool_decide (k ∈ ds) then [] else [x]) ++ omit ds (S k) l'
  end.

Lemma omit_nil {A} k (l : list A) : omit [] k l = l.
Proof. revert k. induction l as [|x l IH]; intros k; [done|]. cbn. rewrite bool_decide_false by apply not_elem_of_nil. cbn. by rewrite IH. Qed.

Lemma omit_delete {A} ds (l : list A) : forall k i, k <= i -> (forall j, j ∈ ds -> i < j) ->
  delete (i - k) (omit ds k l) = omit (i :: ds) k l.
Proof.
  induction l as [|x l IH]; intros k i Hk Hds; [done|]. cbn [omit].
  rewrite (bool_decide_false (k ∈ ds)) by (intros Hx%Hds; lia). cbn [app].
  destruct (decide (k = i)) as [->|Hne].
  - rewrite Nat.sub_diag. cbn. rewrite bool_decide_true by by left. cbn.
    clear IH. assert (H : forall k, i < k -> omit ds k l = omit (i :: ds) k l); [|apply H; lia].
    clear. induction l as [|x l IH]; intros k Hk; [done|]. cbn. rewrite (IH (S k)) by lia. f_equal.
    rewrite (bool_decide_ext (k ∈ i :: ds) (k ∈ ds)); [done|]. rewrite elem_of_cons. split; [intros [?|?]; [lia|done]|auto].
  - replace (i - k) with (S (i - S k)) by lia. cbn. rewrite IH by (try done; lia).
    rewrite bool_decide_false; [done|]. rewrite elem_of_cons. intros [->|Hx%Hds]; lia.
Qed.

Lemma elem_omit {A} ds (l : list A) x : forall k, x ∈ omit ds k l <-> exists j, l !! j = Some x /\ k + j ∉ ds.
Proof.
  induction l as [|y l IH]; intros k; cbn [omit].
  - split; [by intros ?%elem_of_nil|]. intros (j & Hj & _). by rewrite lookup_nil in Hj.
  - rewrite elem_of_app, IH. split.
    + intros [Hx|(j & Hj & Hn)].
      * case_bool_decide as Hd; [by apply elem_of_nil in Hx|]. apply elem_of_list_singleton in Hx as ->. exists 0.
        rewrite Nat.add_0_r. done.
      * exists (S j). split; [done|]. by rewrite Nat.add_succ_r.
    + intros ([|j] & Hj & Hn).
      * injection Hj as ->. left. rewrite Nat.add_0_r in Hn. rewrite bool_decide_false by done. by left.
      * right. exists j. split; [done|]. by rewrite Nat.add_succ_r in Hn.
Qed.

Lemma omit_sublist {A} ds (l : list A) : forall k, omit ds k l `sublist_of` l.
Proof.
  induction l as [|y l IH]; intros k; [done|]. cbn [omit]. case_bool_decide; cbn.
  - by apply sublist_cons.
  - by apply sublist_skip.
Qed.

(** *** The steps of the bookkeeping *)

Section steps.
Variable l : list cross.

(** What the state is after the iterators [pre]. *)
Record after (pre : list nat) (s : TreeView.xstate) : Prop := {
  af_leaving : forall j, j ∈ xs_leaving s <-> cnt j pre = 1;
  af_cross : exists ds, xs_cross s = omit ds 0 l /\ (forall j, j ∈ ds <-> cnt j pre = 2) /\
               (forall j, j ∈ ds -> xs_limit s <= j) /\ (xs_limit s = length l \/ xs_limit s ∈ ds);
  af_limit : xs_limit s <= length l }.

Lemma after_start : after [] (XState l (length l) []).
Proof.
  split; cbn; [|exists []|lia].
  - intros j. unfold cnt. cbn. split; [by intros ?%elem_of_nil|done].
  - rewrite omit_nil. split; [done|]. unfold cnt. cbn. split; [|split; [|by left]]; intros j; [split; [|done]|];
      by intros ?%elem_of_nil.
Qed.

Lemma after_step pre i s s' : after pre s -> cnt i pre <= 1 -> (forall j, j ∈ pre -> j < length l) -> i < length l ->
  xs_step i s = Some s' -> after (pre ++ [i]) s'.
Proof.
  intros [H1 (ds & H2 & H3 & H4 & H5) H6] Hi Hpre Hil. unfold xs_step. case_bool_decide as Hlim; cbn [andb]; [|done].
  destruct (forallb _ _) eqn:Hall; [|done].
  assert (Hlv : forall j, j ∈ xs_leaving s -> j < xs_limit s).
  { intros j Hj%elem_of_list_In. rewrite forallb_forall in Hall. by apply Nat.ltb_lt, Hall. }
  assert (Hc1 : forall j, cnt j (pre ++ [i]) = cnt j pre + if decide (i = j) then 1 else 0).
  { intros j. rewrite cnt_app, cnt_cons. unfold cnt at 2. cbn. lia. }
  case_bool_decide as Hin; intros [= <-].
  - assert (Hci : cnt i pre = 1) by by apply H1. split; cbn.
    + intros j. rewrite elem_of_list_filter, H1, Hc1. destruct (decide (i = j)); [naive_solver lia|]. naive_solver lia.
    + exists (i :: ds). split; [|split; [|split]].
      * rewrite H2. rewrite <- (omit_delete ds l 0 i); [by rewrite Nat.sub_0_r|lia|]. intros j Hj%H4. lia.
      * intros j. rewrite elem_of_cons, H3, Hc1. destruct (decide (i = j)) as [->|]; [split; [lia|by left]|].
        split; [intros [?|?]; [congruence|lia]|]. intros ?. right. lia.
      * intros j [->|Hj%H4]%elem_of_cons; lia.
      * right. by left.
    + lia.
  - assert (Hci : cnt i pre = 0). { rewrite H1 in Hin. lia. } split; cbn.
    + intros j. rewrite elem_of_app, H1, elem_of_list_singleton, Hc1. destruct (decide (i = j)) as [->|]; [|naive_solver lia].
      split; [lia|]. by right.
    + exists ds. split; [done|]. split; [|done]. intros j. rewrite H3, Hc1. destruct (decide (i = j)) as [<-|]; lia.
    + done.
Qed.

Lemma after_steps post : forall pre s s', after pre s -> (forall j, cnt j (pre ++ post) <= 2) ->
  (forall j, j ∈ pre ++ post -> j < length l) -> xs_steps post s = Some s' -> after (pre ++ post) s'.
Proof.
  induction post as [|i post IH]; intros pre s s' Ha Hc Hb; cbn [xs_steps]; [intros [= <-]; by rewrite app_nil_r|].
  destruct (xs_step i s) as [s1|] eqn:Hs; [|done]. intros Hp.
  replace (pre ++ i :: post) with ((pre ++ [i]) ++ post) in * by by rewrite <- app_assoc.
  eapply IH; [|done..|done]. eapply after_step; [done| | | |done].
  - specialize (Hc i). rewrite !cnt_app, cnt_cons, decide_True in Hc by done. lia.
  - intros j Hj. apply Hb. set_solver.
  - apply Hb. set_solver.
Qed.

Lemma step_limit i s s' : xs_step i s = Some s' -> i < xs_limit s /\ xs_limit s' <= xs_limit s.
Proof.
  unfold xs_step. case_bool_decide; cbn [andb]; [|done]. destruct (forallb _ _); [|done].
  case_bool_decide; intros [= <-]; cbn; lia.
Qed.

Lemma steps_limit post : forall s s' j, xs_steps post s = Some s' -> j ∈ post -> j < xs_limit s.
Proof.
  induction post as [|i post IH]; intros s s' j; cbn [xs_steps]; [by intros _ ?%elem_of_nil|].
  destruct (xs_step i s) as [s1|] eqn:Hs; [|done]. apply step_limit in Hs as [Hi Hl].
  intros Hp [->|Hj]%elem_of_cons; [done|]. specialize (IH _ _ _ Hp Hj). lia.
Qed.

Lemma steps_app l1 l2 s : xs_steps (l1 ++ l2) s = match xs_steps l1 s with Some s' => xs_steps l2 s' | None => None end.
Proof. revert s. induction l1 as [|i l1 IH]; intros s; [done|]. cbn. destruct (xs_step i s); [apply IH|done]. Qed.

(** Entries are completed from the end of the vector to its beginning. *)
Lemma steps_descending is s' : (forall j, cnt j is <= 2) -> (forall j, j ∈ is -> j < length l) ->
  xs_steps is (XState l (length l) []) = Some s' ->
  forall pre post i j, is = pre ++ post -> cnt i pre = 2 -> i < j -> j ∉ post.
Proof.
  intros Hc Hb Hs pre post i j -> Hi Hij Hj. rewrite steps_app in Hs.
  destruct (xs_steps pre _) as [s1|] eqn:Hs1; [|done].
  assert (Ha : after pre s1).
  { eapply (after_steps pre []); [apply after_start| | |done]; cbn [app].
    - intros k. specialize (Hc k). rewrite cnt_app in Hc. lia.
    - intros k Hk. apply Hb. set_solver. }
  destruct Ha as [_ (ds & _ & H3 & H4 & _) _]. apply H3, H4 in Hi.
  pose proof (steps_limit _ _ _ _ Hs Hj). lia.
Qed.

Lemma steps_defined is : (forall j, cnt j is = 0 \/ cnt j is = 2) -> (forall j, j ∈ is -> j < length l) ->
  (forall pre post i j, is = pre ++ post -> cnt i pre = 2 -> i < j -> j ∉ post) ->
  exists s', xs_steps is (XState l (length l) []) = Some s'.
Proof.
  intros Hc Hb Hd.
  assert (Hgen : forall post pre s, is = pre ++ post -> after pre s -> exists s', xs_steps post s = Some s').
  { induction post as [|i post IH]; intros pre s His Ha; [by exists s|]. cbn [xs_steps].
    assert (Hcp : forall j, cnt j pre + cnt j (i :: post) = 0 \/ cnt j pre + cnt j (i :: post) = 2).
    { intros j. specialize (Hc j). by rewrite His, cnt_app in Hc. }
    assert (Hlow : forall j, cnt j (i :: post) >= 1 -> j < xs_limit s).
    { intros j Hj. destruct Ha as [_ (ds & _ & H3 & _ & [H5|H5]) _].
      - rewrite H5. apply Hb. rewrite His. apply elem_of_app. right. by apply cnt_elem.
      - apply H3 in H5. destruct (decide (xs_limit s < j)) as [Hlt|Hge].
        + exfalso. by apply (Hd pre (i :: post) (xs_limit s) j His H5 Hlt), cnt_elem.
        + destruct (decide (j = xs_limit s)) as [->|]; [|lia]. specialize (Hcp (xs_limit s)). lia. }
    assert (Hi1 : cnt i (i :: post) >= 1) by (rewrite cnt_cons, decide_True by done; lia).
    destruct (xs_step i s) as [s1|] eqn:Hs.
    - apply (IH (pre ++ [i])); [by rewrite <- app_assoc|]. eapply after_step; [done| | | |done].
      + specialize (Hcp i). lia.
      + intros j Hj. apply Hb. rewrite His. set_solver.
      + apply Hb. rewrite His. set_solver.
    - exfalso. unfold xs_step in Hs. rewrite bool_decide_true in Hs by by apply Hlow.
      assert (Hf : forallb (fun j => j <? xs_limit s) (xs_leaving s) = true).
      { apply forallb_forall. intros j Hj%elem_of_list_In. apply Nat.ltb_lt, Hlow.
        apply (af_leaving _ _ Ha) in Hj. specialize (Hcp j). lia. }
      rewrite Hf in Hs. cbn [andb] in Hs. by destruct (bool_decide _). }
  eapply (Hgen is []); [done|]. apply after_start.
Qed.

End steps.

(** *** How often the iterator of a cross edge comes up *)

Definition b2n (P : Prop) `{!Decision P} : nat := if decide P then 1 else 0.

Lemma touching_app v l1 l2 : forall k, xs_touching v (l1 ++ l2) k = xs_touching v l1 k ++ xs_touching v l2 (k + length l1).
Proof.
  induction l1 as [|x l1 IH]; intros k; cbn [xs_touching app length]; [by rewrite Nat.add_0_r|].
  rewrite IH, <- !app_assoc. by rewrite Nat.add_succ_r.
Qed.

Lemma cnt_touching v (x : cross) l : forall k i, l !! i = Some x ->
  cnt (k + i) (xs_touching v l k) = b2n (ce_origin x = v) + b2n (ce_target x = v).
Proof.
  induction l as [|y l IH]; intros k i Hi; [done|]. cbn [xs_touching]. rewrite !cnt_app.
  destruct i as [|i]; cbn in Hi.
  - injection Hi as ->. rewrite Nat.add_0_r.
    assert (H0 : cnt k (xs_touching v l (S k)) = 0).
    { destruct (cnt k _) eqn:Hc; [done|]. exfalso.
      assert (Hk : k ∈ xs_touching v l (S k)) by (apply cnt_elem; lia).
      apply elem_xs_touching in Hk as (j & z & ? & _). lia. }
    rewrite H0, Nat.add_0_r. unfold b2n.
    destruct (Nat.eqb_spec (ce_origin x) v), (Nat.eqb_spec (ce_target x) v); rewrite ?decide_True, ?decide_False by done;
      unfold cnt; cbn; rewrite ?filter_cons; rewrite ?decide_True by done; cbn; done.
  - replace (k + S i) with (S k + i) by lia. rewrite (IH _ _ Hi).
    assert (H0 : forall b : bool, cnt (S k + i) (if b then [k] else []) = 0).
    { intros []; [|done]. rewrite cnt_cons, decide_False by lia. done. }
    rewrite !H0. done.
Qed.

Lemma cnt_touch_all w i x vs : NoDup vs -> tv_cross w !! i = Some x ->
  cnt i (touch_all w vs) = b2n (ce_origin x ∈ vs) + b2n (ce_target x ∈ vs).
Proof.
  intros Hnd Hx. induction vs as [|v vs IH].
  - cbn. unfold b2n. rewrite !decide_False by apply not_elem_of_nil. done.
  - apply NoDup_cons in Hnd as [Hv Hnd]. change (touch_all w (v :: vs)) with (xs_touching v (tv_cross w) 0 ++ touch_all w vs).
    rewrite cnt_app, (IH Hnd). pose proof (cnt_touching v x (tv_cross w) 0 i Hx) as Hc. cbn in Hc. rewrite Hc.
    assert (Hb : forall a : vid, b2n (a ∈ v :: vs) = b2n (a = v) + b2n (a ∈ vs)).
    { intros a. unfold b2n. destruct (decide (a = v)) as [->|Hne].
      - rewrite decide_True by by left. by rewrite decide_False.
      - destruct (decide (a ∈ vs)); [rewrite decide_True by by right|rewrite decide_False]; try done.
        by intros [?|?]%elem_of_cons. }
    rewrite !Hb. lia.
Qed.

Lemma cnt_touch_none w i vs : tv_cross w !! i = None -> cnt i (touch_all w vs) = 0.
Proof.
  intros Hn. destruct (cnt i _) eqn:Hc; [done|]. exfalso. assert (Hi : i ∈ touch_all w vs) by (apply cnt_elem; lia).
  apply elem_touch_all in Hi as (v & x & _ & Hx & _). congruence.
Qed.

Lemma touch_all_app w vs1 vs2 : touch_all w (vs1 ++ vs2) = touch_all w vs1 ++ touch_all w vs2.
Proof.
  induction vs1 as [|v vs1 IH]; [done|].
  change (touch_all w ((v :: vs1) ++ vs2)) with (xs_touching v (tv_cross w) 0 ++ touch_all w (vs1 ++ vs2)).
  change (touch_all w (v :: vs1)) with (xs_touching v (tv_cross w) 0 ++ touch_all w vs1). by rewrite IH, app_assoc.
Qed.

(** *** TreeView::removeEdge on a tree edge *)

Lemma set_cross_twice x y w : tv_set_cross x (tv_set_cross y w) = tv_set_cross x w.
Proof. done. Qed.

Lemma set_cross_same w : tv_set_cross (tv_cross w) w = w.
Proof. by destruct w. Qed.

Lemma remove_vertices_cross x vs : forall w, tv_remove_vertices vs (tv_set_cross x w) =
  (tv_set_cross x (fst (tv_remove_vertices vs w)), snd (tv_remove_vertices vs w)).
Proof.
  induction vs as [|v vs IH]; intros w; [done|]. cbn [tv_remove_vertices].
  change (tv_tree (tv_set_cross x w)) with (tv_tree w). case_bool_decide; [|done]. rewrite <- IH. done.
Qed.

Lemma visit_cross ord w n : forall q,
  tv_visit_bfs n (fun w' => ord (tv_set_cross (tv_cross w) w')) (tv_set_cross [] w) q = tv_visit_bfs n ord w q.
Proof.
  induction n as [|n IH]; intros [|v q]; try done. cbn [tv_visit_bfs].
  rewrite set_cross_twice, set_cross_same. change (tv_tree (tv_set_cross [] w)) with (tv_tree w).
  change (tv_get_parent (tv_set_cross [] w) v) with (tv_get_parent w v). by rewrite IH.
Qed.

Lemma child_set_cross x w p c : child (tv_set_cross x w) p c <-> child w p c.
Proof. done. Qed.

Lemma remove_edge_general ord o t w p c : is_tree w -> ord_ok ord -> child w p c -> same_ends o t p c ->
  exists vs wp, fst <$> fst (tv_visit_bfs (S (size (tv_tree w))) ord w [c]) = vs /\ NoDup vs /\
    (forall v, v ∈ vs <-> linked (child w) c v) /\ is_tree wp /\ pruned (tv_set_cross [] w) c wp /\
    tv_remove_edge ord o t w =
      match xs_steps (touch_all w vs) (XState (tv_cross w) (length (tv_cross w)) []) with
      | None => (w, UB)
      | Some xs => (tv_set_cross (xs_cross xs) wp, match xs_leaving xs with [] => Ret tt | _ => Throw XRuntime end)
      end.
Proof.
  intros Ht Ho Hpc Hends.
  set (w0 := tv_set_cross [] w). set (ord0 := fun w' => ord (tv_set_cross (tv_cross w) w')).
  assert (Ht0 : is_tree w0) by by apply (is_tree_ext w).
  assert (Ho0 : ord_ok ord0) by (intros w' v l; apply Ho).
  assert (Hnb : no_cross_below w0 c) by (intros x v Hx%elem_of_nil; done).
  destruct (remove_edge_tree ord0 o t w0 p c) as (wp & r & Hrem & Htp & Hpr & Hret & _); [done..| |].
  { by intros x Hx%elem_of_nil. }
  rewrite (Hret Hnb) in Hrem. clear Hret r.
  assert (Hce : tv_vertex_exists w c = true).
  { apply tv_vertex_exists_iff. by apply (child_dom w p c Ht). }
  destruct (bfs_visits w Ht c Hce ord (S (size (tv_tree w)))) as (vis & Hvis & [Hnd Hall Hord]); [done|lia|].
  exists (vis.*1), wp. rewrite Hvis. split; [done|]. split; [done|]. split.
  { intros v. rewrite elem_of_list_fmap. split.
    - intros ([v' q] & -> & Hv%Hall). apply Hv.
    - intros Hl. assert (Hvd : v ∈ dom (tv_tree w)) by (apply (below_in w Ht c); done).
      destruct (it_child _ Ht _ _ Hpc) as [Hcr _].
      assert (Hvr : v <> tv_root w).
      { intros ->. destruct Hl as [l Hl]. apply route_inv_snoc in Hl as [[_ ->]|(l' & b & _ & _ & Hb)]; [done|].
        by apply (it_child _ Ht) in Hb as [? _]. }
      destruct (it_parent _ Ht v) as (q & Hq & _); [by apply tv_vertex_exists_iff|done|].
      exists (v, q). split; [done|]. by apply Hall. }
  split; [done|]. split; [done|].
  unfold tv_remove_edge in Hrem |- *. change (tv_tree w0) with (tv_tree w) in Hrem.
  destruct (if _ =? o then _ else _) as [rt|] eqn:Hreal; [|done].
  unfold ord0, w0 in Hrem. rewrite visit_cross in Hrem.
  assert (rt = c) as ->.
  { destruct (tv_visit_bfs _ ord w [rt]) as [vis' r'] eqn:Hv'.
    (* the real target is the child *)
    assert (Hvp : vr_parent (tv_rel (tv_tree w) c) = p).
    { destruct (it_child _ Ht _ _ Hpc) as [_ Hpar]. apply get_parent_iff in Hpar as (r0 & Hr0 & <-);
        [unfold tv_rel; by rewrite Hr0|]. apply tv_vertex_exists_not, (it_null _ Ht). }
    destruct Hends as [[<- <-]|[<- <-]].
    - rewrite Hvp, Nat.eqb_refl in Hreal. congruence.
    - rewrite Hvp, Nat.eqb_refl in Hreal.
      destruct (Nat.eqb_spec (vr_parent (tv_rel (tv_tree w) p)) c) as [Hx|]; [|congruence]. exfalso.
      assert (Hpd : p ∈ dom (tv_tree w)) by by apply (child_dom w p c Ht).
      pose proof (proj1 (tv_vertex_exists_iff _ _) Hce) as Hcd.
      apply elem_of_dom in Hpd as [r0 Hr0]. unfold tv_rel in Hx. rewrite Hr0 in Hx. cbn in Hx.
      assert (Hcp : child w c p).
      { rewrite <- Hx. apply (parent_child w p r0); [done|done|]. rewrite Hx. intros ->.
        by apply (proj1 (tv_vertex_exists_not _ _) (it_null _ Ht)). }
      eapply (acyclic w Ht c p); [done| |done]. by apply linked_step. }
  rewrite Hvis in Hrem |- *. rewrite fst_touch.
  assert (Hnil : mjoin ((fun vp : vid * vid => xs_touching vp.1 (tv_cross (tv_set_cross [] w)) 0) <$> vis) = []).
  { clear. induction vis as [|x vis IH]; [done|]. cbn in *. done. }
  rewrite Hnil in Hrem. cbn [xs_steps xs_cross xs_leaving] in Hrem.
  rewrite set_cross_twice, remove_vertices_cross in Hrem.
  destruct (xs_steps _ _) as [xs|]; [|done]. rewrite remove_vertices_cross.
  destruct (tv_remove_vertices (rev vis.*1) w) as [w2 r2]. cbn [fst snd] in *.
  destruct r2; [|by injection Hrem..]. injection Hrem as <-. rewrite set_cross_twice.
  by destruct (xs_leaving xs).
Qed.

Section cases.
Variables (ord : order) (o t : vid) (w : tview) (p c : vid).
Hypothesis Ht : is_tree w.
Hypothesis Ho : ord_ok ord.
Hypothesis Hpc : child w p c.
Hypothesis Hends : same_ends o t p c.
Hypothesis Hself : forall x, x ∈ tv_cross w -> ce_origin x <> ce_target x.

(** The order in which the part below [c] is visited. *)
Let vs0 : list vid := fst <$> fst (tv_visit_bfs (S (size (tv_tree w))) ord w [c]).

Lemma inside_dec (vs : list vid) x : (forall v, v ∈ vs <-> linked (child w) c v) ->
  (inside w c x <-> ce_origin x ∈ vs /\ ce_target x ∈ vs).
Proof. intros Hvs. unfold inside. by rewrite !Hvs. Qed.

Lemma cnt_cases (vs : list vid) i x : NoDup vs -> (forall v, v ∈ vs <-> linked (child w) c v) -> tv_cross w !! i = Some x ->
  (cnt i (touch_all w vs) = 2 <-> inside w c x) /\ (cnt i (touch_all w vs) = 1 <-> leaving w c x) /\
  cnt i (touch_all w vs) <= 2.
Proof.
  intros Hnd Hvs Hx. rewrite (cnt_touch_all _ _ x) by done. unfold inside, leaving. rewrite <- !Hvs. unfold b2n.
  repeat case_decide; split_and?; try lia; split; try lia; tauto.
Qed.

Lemma pruned_set_cross kept wp : pruned (tv_set_cross [] w) c wp -> pruned (tv_set_cross kept w) c (tv_set_cross kept wp).
Proof. intros [P1 P2 P3 P4 P5 P6]. split; done. Qed.

Lemma remove_edge_cases : exists w' r, tv_remove_edge ord o t w = (w', r) /\
  ((w' = w /\ r = UB) \/
   (is_tree w' /\ trimmed w c w' /\
    ((r = Ret tt /\ forall x, x ∈ tv_cross w -> ~ leaving w c x) \/
     (r = Throw XRuntime /\ exists x, x ∈ tv_cross w /\ leaving w c x)))).
Proof.
  destruct (remove_edge_general ord o t w p c) as (vs & wp & _ & Hnd & Hvs & Htp & Hpr & Heq); try done.
  rewrite Heq. destruct (xs_steps _ _) as [xs|] eqn:Hxs; [|eexists _, _; split; [done|]; by left].
  eexists _, _. split; [done|]. right.
  assert (Ha : after (tv_cross w) (touch_all w vs) xs).
  { eapply (after_steps (tv_cross w) (touch_all w vs) []); [apply after_start| | |done]; cbn [app].
    - intros j. destruct (tv_cross w !! j) as [x|] eqn:Hx; [by apply (cnt_cases vs j x)|]. rewrite cnt_touch_none by done. lia.
    - intros j (v & x & _ & Hx & _)%elem_touch_all. by apply lookup_lt_Some in Hx. }
  destruct Ha as [A1 (ds & A2 & A3 & _) _].
  split; [by apply (is_tree_ext wp)|]. split.
  - exists (xs_cross xs). split; [by apply pruned_set_cross|]. rewrite A2. split; [apply omit_sublist|].
    intros x. rewrite elem_omit. cbn [Nat.add]. split.
    + intros (j & Hj & Hn). split; [by apply elem_of_list_lookup_2 in Hj|]. rewrite A3 in Hn. intros Hi. apply Hn.
      by apply (cnt_cases vs j x).
    + intros [(j & Hj)%elem_of_list_lookup Hn]. exists j. split; [done|]. rewrite A3. intros Hc. apply Hn.
      by apply (cnt_cases vs j x).
  - destruct (xs_leaving xs) as [|j le] eqn:Hle.
    + left. split; [done|]. intros x (j & Hj)%elem_of_list_lookup Hl.
      apply (cnt_cases vs j x) in Hl; [|done..]. apply A1 in Hl. by apply elem_of_nil in Hl.
    + right. split; [done|]. assert (Hj : cnt j (touch_all w vs) = 1) by (apply A1; by left).
      destruct (tv_cross w !! j) as [x|] eqn:Hx; [|rewrite cnt_touch_none in Hj; [lia|done]].
      exists x. split; [by apply elem_of_list_lookup_2 in Hx|]. by apply (cnt_cases vs j x).
Qed.

Lemma cnt_prefix_le i (l1 l2 : list nat) : l1 `prefix_of` l2 -> cnt i l1 <= cnt i l2.
Proof. intros [k ->]. rewrite cnt_app. lia. Qed.

(** Without leaving cross edges: defined exactly if the entries are completed from last to first. *)
Lemma remove_edge_defined : (forall x, x ∈ tv_cross w -> ~ leaving w c x) ->
  (snd (tv_remove_edge ord o t w) = Ret tt <-> backwards w c vs0).
Proof.
  intros Hnl. unfold vs0.
  destruct (remove_edge_general ord o t w p c) as (vs & wp & -> & Hnd & Hvs & Htp & Hpr & Heq); try done.
  rewrite Heq.
  assert (Hcnt : forall j, cnt j (touch_all w vs) = 0 \/ cnt j (touch_all w vs) = 2).
  { intros j. destruct (tv_cross w !! j) as [x|] eqn:Hx; [|left; by apply cnt_touch_none].
    destruct (cnt_cases vs j x) as (_ & H1 & H2); [done..|]. apply elem_of_list_lookup_2 in Hx.
    specialize (Hnl x Hx). rewrite <- H1 in Hnl. lia. }
  assert (Hbd : forall j, j ∈ touch_all w vs -> j < length (tv_cross w)).
  { intros j (v & x & _ & Hx & _)%elem_touch_all. by apply lookup_lt_Some in Hx. }
  split.
  - destruct (xs_steps _ _) as [xs|] eqn:Hxs; [|done]. intros _ i j x y Hx Hy Hij Hix Hiy.
    assert (Hle2 : forall j, cnt j (touch_all w vs) <= 2) by (intros k; destruct (Hcnt k); lia).
    pose proof (steps_descending (tv_cross w) _ _ Hle2 Hbd Hxs) as Hdesc.
    (* the last end of [y] to come up *)
    assert (Hlast : exists vs1 v vs2, vs = vs1 ++ v :: vs2 /\
      ((v = ce_origin y /\ ce_target y ∈ vs1) \/ (v = ce_target y /\ ce_origin y ∈ vs1))).
    { destruct (proj1 (inside_dec vs y Hvs) Hiy) as [H1 H2].
      apply elem_of_list_split in H1 as (a1 & a2 & Ha). apply elem_of_list_split in H2 as (b1 & b2 & Hb).
      assert (Hne : ce_origin y <> ce_target y) by (apply Hself; by apply elem_of_list_lookup_2 in Hy).
      destruct (decide (ce_target y ∈ a1)) as [Hin|Hn1]; [exists a1, (ce_origin y), a2; split; [done|]; by left|].
      exists b1, (ce_target y), b2. split; [done|]. right. split; [done|].
      assert (Htin : ce_target y ∈ a2).
      { assert (Hx' : ce_target y ∈ vs) by (rewrite Hb; set_solver). rewrite Ha in Hx'. set_solver. }
      apply elem_of_list_split in Htin as (c1 & c2 & Hc). rewrite Hc in Ha.
      assert (b1 = a1 ++ ce_origin y :: c1) as ->.
      { rewrite Ha in Hb. replace (a1 ++ ce_origin y :: c1 ++ ce_target y :: c2) with
          ((a1 ++ ce_origin y :: c1) ++ ce_target y :: c2) in * by by rewrite <- app_assoc.
        rewrite Ha in Hnd. assert (Hnd2 := Hnd). rewrite Hb in Hnd2.
        assert (Hlen : length (a1 ++ ce_origin y :: c1) = length b1).
        { eapply (NoDup_lookup _ _ _ (ce_target y)); [exact Hnd| |].
          - by apply list_lookup_middle.
          - rewrite Hb. by apply list_lookup_middle. }
        by apply app_inj_1 in Hb as [? _]. }
      set_solver. }
    destruct Hlast as (vs1 & v & vs2 & -> & Hv).
    exists (length (vs1 ++ [v])). replace (vs1 ++ v :: vs2) with ((vs1 ++ [v]) ++ vs2) in * by by rewrite <- app_assoc.
    rewrite take_app. split; [destruct Hv as [[-> ?]|[-> ?]]; set_solver|]. intros [Hx1 Hx2].
    (* otherwise [x] is complete right before the last end of [y] is recorded *)
    apply NoDup_app in Hnd as (Hnd1 & _ & _). apply NoDup_app in Hnd1 as Hnd1'. destruct Hnd1' as (Hnd0 & Hv1 & _).
    assert (Hyv : ce_origin y = v \/ ce_target y = v) by (destruct Hv as [[-> ?]|[-> ?]]; auto).
    set (l := tv_cross w) in *.
    assert (Hl : l = take j l ++ y :: drop (S j) l) by by rewrite take_drop_middle.
    assert (Hsplit : xs_touching v l 0 = xs_touching v (take j l) 0 ++ xs_touching v (y :: drop (S j) l) j).
    { rewrite Hl at 1. rewrite touching_app, take_length_le; [done|]. apply lookup_lt_Some in Hy. lia. }
    apply (Hdesc (touch_all w vs1 ++ xs_touching v (take j l) 0)
             (xs_touching v (y :: drop (S j) l) j ++ touch_all w vs2) i j).
    + rewrite !touch_all_app. change (touch_all w [v]) with (xs_touching v l 0 ++ []). rewrite app_nil_r, Hsplit.
      by rewrite <- !app_assoc.
    + rewrite cnt_app, (cnt_touch_all w i x vs1) by done.
      assert (Hxi : take j l !! i = Some x) by by rewrite lookup_take.
      pose proof (cnt_touching v x (take j l) 0 i Hxi) as Hcx. cbn [Nat.add] in Hcx. rewrite Hcx.
      assert (Hb : forall a : vid, b2n (a ∈ vs1 ++ [v]) = b2n (a ∈ vs1) + b2n (a = v)).
      { intros a. unfold b2n. destruct (decide (a ∈ vs1)).
        - rewrite decide_True by set_solver. rewrite decide_False; [done|]. intros ->. apply (Hv1 v); set_solver.
        - destruct (decide (a = v)); [rewrite decide_True by set_solver|rewrite decide_False by set_solver]; done. }
      pose proof (Hb (ce_origin x)) as Ha. pose proof (Hb (ce_target x)) as Hb'. unfold b2n in *.
      rewrite decide_True in Ha by done. rewrite decide_True in Hb' by done. lia.
    + done.
    + apply elem_of_app. left. apply elem_xs_touching. exists 0, y. split; [lia|]. done.
  - intros Hback. destruct (steps_defined (tv_cross w) (touch_all w vs)) as [xs Hxs]; [done|done| |].
    + intros pre post i j His Hci Hij Hj.
      assert (Hjc : cnt j (touch_all w vs) = 2).
      { destruct (Hcnt j) as [H0|]; [|done]. exfalso. rewrite His, cnt_app in H0. apply cnt_elem in Hj. lia. }
      assert (Hic : cnt i (touch_all w vs) = 2).
      { destruct (Hcnt i) as [H0|]; [|done]. exfalso. rewrite His, cnt_app in H0. lia. }
      destruct (tv_cross w !! i) as [x|] eqn:Hx; [|rewrite cnt_touch_none in Hic by done; lia].
      destruct (tv_cross w !! j) as [y|] eqn:Hy; [|rewrite cnt_touch_none in Hjc by done; lia].
      destruct (Hback i j x y Hx Hy Hij) as (k & [Hy1 Hy2] & Hnx); [by apply (cnt_cases vs i x)|by apply (cnt_cases vs j y)|].
      assert (Hndk : NoDup (take k vs)) by (pose proof Hnd as Hx'; rewrite <- (take_drop k vs) in Hx'; by apply NoDup_app in Hx' as [? _]).
      assert (Hpk : touch_all w (take k vs) `prefix_of` touch_all w vs).
      { rewrite <- (take_drop k vs) at 2. rewrite touch_all_app. by apply prefix_app_r. }
      assert (Hpp : pre `prefix_of` touch_all w vs) by (rewrite His; by apply prefix_app_r).
      assert (Hjk : cnt j (touch_all w (take k vs)) = 2).
      { rewrite (cnt_touch_all w j y) by done. unfold b2n. by rewrite !decide_True. }
      assert (Hik : cnt i (touch_all w (take k vs)) < 2).
      { rewrite (cnt_touch_all w i x) by done. unfold b2n. repeat case_decide; try lia. exfalso. by apply Hnx. }
      assert (Hjp : cnt j pre <= 1).
      { rewrite His, cnt_app in Hjc. apply cnt_elem in Hj. lia. }
      destruct (prefix_weak_total _ _ _ Hpp Hpk) as [Hp|Hp].
      * apply (cnt_prefix_le i) in Hp. lia.
      * apply (cnt_prefix_le j) in Hp. lia.
    + rewrite Hxs. destruct (xs_leaving xs) as [|j le] eqn:Hle; [done|]. exfalso.
      assert (Ha : after (tv_cross w) (touch_all w vs) xs).
      { eapply (after_steps (tv_cross w) (touch_all w vs) []); [apply after_start| |done|done]; cbn [app].
        intros k. destruct (Hcnt k); lia. }
      assert (Hj : cnt j (touch_all w vs) = 1) by (apply (af_leaving _ _ _ Ha); rewrite Hle; by left).
      destruct (Hcnt j); lia.
Qed.

End cases.
