(** Ending and resuming the subscription of a view, connecting its slots: proofs. *)
From stdpp Require Import prelude strings gmap.
From Verif Require Import ListLib Outcome Digraph Bfs TreeView GraphModel GraphOps GraphWf GraphStep
  SpecObs SpecView GraphStore GraphRefine GraphThms SpecWalk WalkThms BfsThms BfsFind SpecTree BuildThms SyncThms
  ViewStep ViewSync ViewRun ViewFollow ViewObjModel SpecViewObj ViewObjThms.

Section life.
Context {D E : Type} (d0 : D) (einv : E -> E) (i : viewid).
Implicit Types (s : gst D E) (w : tview).

(** *** A view that is not subscribed is not touched *)

Definition spares s s' : Prop := gs_views s' !! i = gs_views s !! i /\ gs_subs s' = gs_subs s.
Definition sparing {A} (m : call (gst D E) A) : Prop :=
  forall s s' ev r, i ∉ gs_subs s -> m s = (s', ev, r) -> spares s s'.

Lemma sparing_bind {A B} (m : call (gst D E) A) (k : A -> call (gst D E) B) :
  sparing m -> (forall a, sparing (k a)) -> sparing (cbind m k).
Proof.
  intros Hm Hk s s' ev r Hi [(s1 & ev1 & a & ev2 & H1 & H2 & ->)|[(x & Hx & ->)|[[H ->]|[H ->]]]]%cbind_inv; eauto.
  destruct (Hm _ _ _ _ Hi H1) as [A1 A2]. rewrite <-A2 in Hi.
  destruct (Hk _ _ _ _ _ Hi H2) as [B1 B2]. split; congruence.
Qed.
Lemma sparing_read {A} (f : gst D E -> outcome A) : sparing (cread f).
Proof. by intros s s' ev r _ [= <- _ _]. Qed.
Lemma sparing_ret {A} (a : A) : sparing (cret a).
Proof. by intros s s' ev r _ [= <- _ _]. Qed.
Lemma sparing_notify e : sparing (cnotify e).
Proof. by intros s s' ev r _ [= <- _ _]. Qed.
Lemma sparing_dg (f : gst D E -> digraph D E) : sparing (cmodify (fun s => gs_set_dg (f s) s)).
Proof. by intros s s' ev r _ [= <- _ _]. Qed.
Lemma sparing_for f l s s' ev r : i ∉ l -> for_views f l s = (s', ev, r) -> spares s s'.
Proof.
  revert s s' ev r. induction l as [|j l IH]; intros s s' ev r Hi; [by intros [= <- _ _]|]. cbn [for_views].
  apply not_elem_of_cons in Hi as [Hne Hi].
  destruct (gs_views s !! j) as [w|] eqn:Hw; [|by intros [= <- _ _]].
  destruct (f j w) as [w' rj].
  assert (Hk : spares s (gs_set_view j w' s)).
  { split; [|done]. cbn. by rewrite lookup_insert_ne. }
  destruct rj; [|by intros [= <- _ _]..]. intros H. apply IH in H; [|done].
  destruct Hk as [A1 A2], H as [B1 B2]. split; congruence.
Qed.

Lemma sparing_add_vertex f d : sparing (add_vertex (D := D) (E := E) f d).
Proof. intros s s' ev r _. unfold add_vertex. destruct (bg_add_vertex f d (gs_dg s)). by intros [= <- _ _]. Qed.
Lemma sparing_emplace f d : sparing (emplace_frame (D := D) (E := E) f d).
Proof.
  intros s s' ev r Hi. unfold emplace_frame. destruct (_ =? _); [|by intros [= <- _ _]]. by apply sparing_add_vertex.
Qed.

Ltac sp := repeat first
  [ apply sparing_bind; [|intros ?] | apply sparing_read | apply sparing_ret | apply sparing_notify
  | apply sparing_dg | apply sparing_add_vertex | apply sparing_emplace
  | match goal with |- sparing (match ?x with _ => _ end) => destruct x end
  | match goal with |- sparing (if ?x then _ else _) => destruct x end ].

Lemma sparing_add_edge_v o t p : sparing (add_edge_v (D := D) einv o t p).
Proof.
  unfold add_edge_v. sp.
  - intros s s' ev r _. destruct (bg_add_edge o t p (gs_dg s)). by intros [= <- _ _].
  - intros s s' ev r Hi. unfold add_edge_to_tree_views. by apply sparing_for.
Qed.
Lemma sparing_add_edge o t p : sparing (add_edge d0 einv o t p).
Proof.
  intros s. unfold add_edge. cbn zeta.
  apply (sparing_bind (if bg_vertex (gs_dg s) o =? null_vertex then add_vertex o d0 else cret (bg_vertex (gs_dg s) o))).
  - destruct (_ =? _); [apply sparing_add_vertex|apply sparing_ret].
  - intros vo. apply sparing_bind; [|intros vt; apply sparing_add_edge_v].
    destruct (_ =? _); [apply sparing_add_vertex|apply sparing_ret].
Qed.
Lemma sparing_boost_remove e : sparing (boost_remove_edge (D := D) (E := E) e).
Proof. intros s s' ev r _. unfold boost_remove_edge. destruct (bg_remove_edge e (gs_dg s)); by intros [= <- _ _]. Qed.
Lemma sparing_remove_impl ord o t vo vt : sparing (remove_edge_impl (D := D) (E := E) ord o t vo vt).
Proof.
  unfold remove_edge_impl. sp; try apply sparing_boost_remove.
  intros s s' ev r Hi. unfold remove_edge_from_tree_views. by apply sparing_for.
Qed.
Lemma sparing_remove_v ord o t : sparing (remove_edge_v (D := D) (E := E) ord o t).
Proof. unfold remove_edge_v. do 2 (apply sparing_bind; [apply sparing_read|intros ?]). apply sparing_remove_impl. Qed.
Lemma sparing_remove ord o t : sparing (remove_edge (D := D) (E := E) ord o t).
Proof. unfold remove_edge. do 2 (apply sparing_bind; [apply sparing_read|intros ?]). apply sparing_remove_impl. Qed.
Lemma sparing_set_v o t p : sparing (set_edge_property_v (D := D) einv o t p).
Proof. unfold set_edge_property_v. sp. Qed.
Lemma sparing_loop n ord v : sparing (disconnect_loop (D := D) (E := E) n ord v).
Proof.
  induction n as [|n IH]; intros s s' ev r; cbn [disconnect_loop];
    (destruct (bg_out (gs_dg s) v) as [|e l]; [by intros _ [= <- _ _]|]).
  - by intros _ [= <- _ _].
  - revert s s' ev r. apply sparing_bind; [apply sparing_remove_v|done].
Qed.

Lemma sparing_op ord op : ~ view_op op -> sparing (gstep d0 einv ord op).
Proof.
  destruct op; cbn [view_op gstep]; intros Hn; try (by destruct Hn).
  - apply sparing_bind; [apply sparing_emplace|intros; apply sparing_ret].
  - apply sparing_bind; [apply sparing_emplace|intros; apply sparing_ret].
  - apply sparing_add_edge.
  - apply sparing_add_edge_v.
  - apply sparing_remove.
  - apply sparing_remove_v.
  - unfold set_edge_property. do 2 (apply sparing_bind; [apply sparing_read|intros ?]). apply sparing_set_v.
  - apply sparing_set_v.
  - unfold disconnect_frame. apply sparing_bind; [apply sparing_read|intros ?]. intros s s' ev r. apply sparing_loop.
  - unfold remove_frame. sp.
  - intros s s' ev r _. unfold set_frame_data. destruct (bg_alive _ _); by intros [= <- _ _].
Qed.

Definition frozen s w : Prop := gs_views s !! i = Some w /\ i ∉ gs_subs s.

Lemma get_tree_v_frozen root keep j s s' ev r w :
  j <> i -> frozen s w -> get_tree_v root keep j s = (s', ev, r) -> frozen s' w.
Proof.
  intros Hne [H1 H2]. unfold get_tree_v. destruct (gs_views s !! j) as [wj|] eqn:Hj; [|by intros [= <- _ _]].
  destruct (get_tree_into s root wj) as [wj'| | |]; [|by intros [= <- _ _]..].
  destruct keep; [|intros [= <- _ _]; split; [cbn; by rewrite lookup_insert_ne|done]].
  unfold subscribe_tree_view. cbn. rewrite lookup_insert. cbn.
  assert (Hn : i ∉ gs_subs s ++ [j]).
  { intros [Hi|Hi%elem_of_list_singleton]%elem_of_app; congruence. }
  destruct (tv_pub wj'); intros [= <- _ _]; split; try done; cbn; by rewrite ?lookup_insert_ne.
Qed.

Lemma not_in_filter j (l : list viewid) : i ∉ l -> i ∉ filter (fun k => k <> j) l.
Proof. by intros Hi [_ ?]%elem_of_list_filter. Qed.

Lemma view_op_frozen ord op s s' ev r w :
  view_op op -> op_not i op -> op_no_slot i op -> frozen s w -> gstep d0 einv ord op s = (s', ev, r) -> frozen s' w.
Proof.
  intros Hv Hnot Hsl Hf Hs. pose proof Hf as [H1 H2].
  destruct op; try done; clear Hv; cbn [gstep op_not op_no_slot] in Hs, Hnot, Hsl.
  - unfold new_view in Hs. destruct (gs_views s !! i0) eqn:Hi0; injection Hs as <- _ _; [done|].
    split; [|done]. cbn. rewrite lookup_insert_ne; [done|congruence].
  - unfold get_tree in Hs. apply cbind_inv in Hs as [(s1 & ev1 & a & ev2 & G1 & G2 & ->)|[(x & Hx & ->)|[[Hx ->]|[Hx ->]]]];
      [|by injection Hx as <- _ _..]. injection G1 as <- _ _. by eapply get_tree_v_frozen.
  - by eapply get_tree_v_frozen.
  - injection Hs as <- _ _. split; [done|]. by apply not_in_filter.
  - unfold view_unsubscribe in Hs. destruct (gs_views s !! i0) as [w0|] eqn:Hi0; [|by injection Hs as <- _ _].
    destruct (tv_pub w0); injection Hs as <- _ _; [|done].
    split; [cbn; by rewrite lookup_insert_ne by done|]. by apply not_in_filter.
  - unfold destroy_view in Hs. destruct (gs_views s !! i0) as [w0|] eqn:Hi0; [|by injection Hs as <- _ _].
    destruct (tv_pub w0); injection Hs as <- _ _; (split; [cbn; by rewrite lookup_delete_ne by done|]); [by apply not_in_filter|done].
  - destruct (gs_views s !! i0) as [w0|] eqn:Hi0; [|unfold move_view in Hs; rewrite Hi0 in Hs; by injection Hs as <- _ _].
    destruct (gs_views s !! j) as [wj|] eqn:Hj;
      [unfold move_view in Hs; rewrite Hi0, Hj in Hs; by injection Hs as <- _ _|].
    rewrite (move_view_eq i0 j w0) in Hs by done. injection Hs as <- _ _.
    assert (j <> i) by congruence. split; cbn.
    + by rewrite !lookup_insert_ne by done.
    + destruct (tv_pub w0); [|done]. intros [Hi|Hi%elem_of_list_singleton]%elem_of_app; [|congruence].
      by apply (not_in_filter i0) in H2.
  - unfold copy_view in Hs. destruct (gs_views s !! i0) as [w0|] eqn:Hi0; [|by injection Hs as <- _ _].
    destruct (gs_views s !! j) as [wj|] eqn:Hj; [by injection Hs as <- _ _|].
    injection Hs as <- _ _. split; [|done]. cbn. rewrite lookup_insert_ne; [done|congruence].
  - unfold slot_view in Hs. destruct (gs_views s !! i0) as [w0|] eqn:Hi0; [|by injection Hs as <- _ _].
    injection Hs as <- _ _. split; [|done]. cbn. by rewrite lookup_insert_ne.
Qed.

Lemma gstep_frozen ord op s s' ev r w :
  op_not i op -> op_no_slot i op -> frozen s w -> gstep d0 einv ord op s = (s', ev, r) -> frozen s' w.
Proof.
  intros Hnot Hsl Hf Hs. assert (Hd : view_op op \/ ~ view_op op) by (destruct op; cbn; tauto). destruct Hd as [Hv|Hv].
  - by eapply view_op_frozen.
  - destruct Hf as [H1 H2]. destruct (sparing_op ord op Hv s s' ev r H2 Hs) as [A1 A2]. split; congruence.
Qed.

Lemma run_frozen h s s' ev r w :
  gs_views s !! i = Some w -> i ∉ gs_subs s ->
  Forall (fun x => op_not i (snd x)) h -> Forall (fun x => op_no_slot i (snd x)) h ->
  run d0 einv h s = (s', ev, r) -> gs_views s' !! i = Some w /\ i ∉ gs_subs s'.
Proof.
  intros H1 H2. assert (Hf : frozen s w) by done. clear H1 H2. revert s s' ev r Hf.
  induction h as [|[ord op] h IH]; intros s s' ev r Hf Hn Hs; cbn [run]; [by intros [= <- _ _]|].
  apply Forall_cons in Hn as [Hn1 Hn], Hs as [Hs1 Hs]. cbn in Hn1, Hs1.
  destruct (gstep d0 einv ord op s) as [[s1 ev1] r1] eqn:H1.
  pose proof (gstep_frozen _ _ _ _ _ _ _ Hn1 Hs1 Hf H1) as Hf1.
  destruct r1 as [a|x| |]; [| |by intros [= <- _ _]..];
    (destruct (run d0 einv h s1) as [[s2 ev2] r2] eqn:H2; intros [= <- _ _]; by eapply IH).
Qed.

(** *** Ending a subscription *)

Lemma not_pub_not_sub s w : subs_ok s -> gs_views s !! i = Some w -> tv_pub w = false -> i ∉ gs_subs s.
Proof. intros [_ Hso] Hw Hp Hin. destruct (Hso i Hin) as (w' & ? & ?). congruence. Qed.

Lemma filter_none (l : list viewid) : i ∉ l -> filter (fun k => k <> i) l = l.
Proof.
  induction l as [|j l IH]; [done|]. intros [Hne Hi]%not_elem_of_cons.
  rewrite filter_cons_True by done. by rewrite IH.
Qed.

Lemma unsubscribe_effect s w : reachable d0 einv s -> gs_views s !! i = Some w ->
  exists s' w', view_unsubscribe i s = (s', [], Ret tt) /\ gs_dg s' = gs_dg s /\
    gs_subs s' = filter (fun k => k <> i) (gs_subs s) /\ gs_views s' !! i = Some w' /\
    same_view w w' /\ same_slots w w' /\ tv_log w' = tv_log w /\ tv_pub w' = false /\
    forall k, k <> i -> gs_views s' !! k = gs_views s !! k.
Proof.
  intros Hre Hw. pose proof (reachable_subs_ok d0 einv s Hre) as Hso. unfold view_unsubscribe. rewrite Hw.
  destruct (tv_pub w) eqn:Hp.
  - eexists _, _. split; [done|]. cbn. rewrite lookup_insert. do 3 (split; [done|]). split; [done|].
    split; [by intros []|]. split; [done|]. split; [done|]. intros k Hk. by rewrite lookup_insert_ne.
  - exists s, w. split; [done|]. split; [done|].
    split; [by rewrite filter_none by by eapply not_pub_not_sub|]. split; [done|]. split; [done|]. split; [by intros []|]. done.
Qed.

Lemma unsubscribe_tree_view_effect s :
  exists s', unsubscribe_tree_view i s = (s', [], Ret tt) /\ gs_dg s' = gs_dg s /\
    gs_subs s' = filter (fun k => k <> i) (gs_subs s) /\ gs_views s' = gs_views s.
Proof. by eexists. Qed.

Lemma destroy_effect s w : reachable d0 einv s -> gs_views s !! i = Some w ->
  exists s', destroy_view i s = (s', [], Ret tt) /\ gs_dg s' = gs_dg s /\
    gs_subs s' = filter (fun k => k <> i) (gs_subs s) /\ gs_views s' !! i = None /\
    forall k, k <> i -> gs_views s' !! k = gs_views s !! k.
Proof.
  intros Hre Hw. pose proof (reachable_subs_ok d0 einv s Hre) as Hso. unfold destroy_view. rewrite Hw.
  destruct (tv_pub w) eqn:Hp; (eexists; split; [done|]; cbn; split; [done|]; split).
  - done.
  - split; [by rewrite lookup_delete|]. intros k Hk. by rewrite lookup_delete_ne.
  - by rewrite filter_none by by eapply not_pub_not_sub.
  - split; [by rewrite lookup_delete|]. intros k Hk. by rewrite lookup_delete_ne.
Qed.

(** *** Resuming it *)

Lemma filter_gone (l : list viewid) : i ∉ filter (fun k => k <> i) l.
Proof. by intros [? _]%elem_of_list_filter. Qed.

Lemma resume s w rf root : reachable d0 einv s -> gs_views s !! i = Some w -> get_vertex s rf = Ret root ->
  exists s1 w1, (view_unsubscribe i ;;; clear_view i ;;; get_tree rf true i) s = (s1, [], Ret tt) /\
    gs_dg s1 = gs_dg s /\ gs_subs s1 = filter (fun k => k <> i) (gs_subs s) ++ [i] /\
    gs_views s1 !! i = Some w1 /\ in_sync (gs_dg s1) w1 /\ tv_root w1 = root /\
    (forall k, k <> i -> gs_views s1 !! k = gs_views s !! k) /\
    forall h s2 ev r, hist_noself h -> Forall (fun x => op_not i (snd x)) h ->
      run d0 einv h s1 = (s2, ev, r) -> r <> UB -> r <> Fuel -> growing rf ev ->
      exists w', gs_views s2 !! i = Some w' /\ in_sync (gs_dg s2) w' /\ get_vertex s2 rf = Ret (tv_root w').
Proof.
  intros Hre Hw Hv. destruct (unsubscribe_effect s w Hre Hw) as (sa & wa & Ha & A1 & A2 & A3 & A4 & A5 & A6 & A7 & A8).
  pose proof (reachable_wf d0 einv s Hre) as Hwf. pose proof (reachable_subs_ok d0 einv s Hre) as Hso. apply get_vertex_inv in Hv.
  erewrite cbind_ret by exact Ha. erewrite cbind_ret by (unfold clear_view; by rewrite A3).
  destruct (get_tree_ok einv (gs_set_view i (tv_clear wa) sa) rf root true i (tv_clear wa))
    as (s1 & w1 & H1 & H2 & H3 & H4 & H5 & H6 & H7 & H8 & _); try done.
  { cbn. by rewrite A1. }
  { cbn. by rewrite A1. }
  { cbn. by rewrite lookup_insert. }
  cbn in H2, H3, H6. rewrite A1 in H2, H6. rewrite A2 in H3.
  exists s1, w1. split; [by rewrite H1|]. split; [done|]. split; [done|]. split; [done|]. split; [by rewrite H2|].
  split; [done|]. split; [intros k Hk; rewrite H5 by done; cbn; rewrite lookup_insert_ne by done; by apply A8|].
  intros h s2 ev r Hns Hnot Hrun Hr1 Hr2 Hgr. assert (Hok : ok r) by by destruct r.
  assert (Hso1 : subs_ok s1).
  { destruct Hso as [Hnd Hall]. split.
    - rewrite H3. apply NoDup_app. split; [by apply NoDup_filter|]. split; [|apply NoDup_singleton].
      intros x Hx ->%elem_of_list_singleton. by apply filter_gone in Hx.
    - intros j. rewrite H3. intros [[Hj1 Hj2]%elem_of_list_filter| ->%elem_of_list_singleton]%elem_of_app.
      + rewrite H5 by done. cbn. rewrite lookup_insert_ne by done. rewrite A8 by done. by apply Hall.
      + exists w1. by rewrite H8. }
  destruct (run_vsteps d0 einv i h s1 s2 ev r w1) as (w2 & (_ & _ & Hw2) & Hvs); try done.
  { by rewrite H2. }
  { split; [apply Hso1|]. split; [rewrite H3; apply elem_of_app; right; by left|done]. }
  apply (vsteps_sync einv _ _ _ rf) in Hvs as [G1 G2]; cbn in *; try done.
  - exists w2. split; [done|]. split; [done|]. apply (get_vertex_some einv); [|done].
    eapply lsteps_wf; [|eapply run_lsteps; [|done..]]; by rewrite H2.
  - by rewrite H2.
  - by rewrite H2.
  - by rewrite H2, H7.
Qed.

Lemma get_tree_pub s rf root w s2 : get_vertex s rf = Ret root -> gs_views s !! i = Some w -> tv_pub w = true ->
  get_tree rf false i s = (s2, [], Ret tt) -> exists s', get_tree rf true i s = (s', [], UB).
Proof.
  intros Hg Hl Hp. unfold get_tree. rewrite !(cbind_read_ret (fun x => get_vertex x rf) _ _ _ Hg). unfold get_tree_v. rewrite Hl.
  destruct (get_tree_into s root w) as [w3| | |] eqn:Hi; [|by intros [=]..]. intros _.
  unfold subscribe_tree_view. cbn. rewrite lookup_insert. cbn.
  apply get_tree_into_pub in Hi. rewrite Hi, Hp. by eexists.
Qed.

Lemma resume_after_graph_call s w rf root : reachable d0 einv s -> gs_views s !! i = Some w -> i ∈ gs_subs s ->
  get_vertex s rf = Ret root ->
  exists s', (unsubscribe_tree_view i ;;; clear_view i ;;; get_tree rf true i) s = (s', [], UB).
Proof.
  intros Hre Hw Hin Hv. pose proof (reachable_wf d0 einv s Hre) as Hwf.
  destruct (reachable_subs_ok d0 einv s Hre) as [_ Hall]. destruct (Hall i Hin) as (w' & Hw' & Hp).
  assert (w' = w) as -> by congruence. apply get_vertex_inv in Hv.
  set (s1 := gs_set_view i (tv_clear w) (GSt (gs_dg s) (filter (fun k => k <> i) (gs_subs s)) (gs_views s))).
  assert (Hc : (clear_view i ;;; get_tree rf true i)
                 (GSt (gs_dg s) (filter (fun k => k <> i) (gs_subs s)) (gs_views s)) = get_tree rf true i s1).
  { erewrite cbind_ret by (unfold clear_view; cbn; by rewrite Hw). fold s1. by destruct (get_tree rf true i s1) as [[? ?] ?]. }
  destruct (get_tree_ok einv s1 rf root false i (tv_clear w)) as (s2 & w2 & H1 & _); try done.
  { cbn. by rewrite lookup_insert. }
  assert (Hl : gs_views s1 !! i = Some (tv_clear w)) by (cbn; by rewrite lookup_insert).
  assert (Hg : get_vertex s1 rf = Ret root) by by apply (get_vertex_some einv).
  destruct (get_tree_pub s1 rf root (tv_clear w) s2 Hg Hl Hp H1) as [s3 H3].
  exists s3. unfold unsubscribe_tree_view. erewrite cbind_ret by done. by rewrite Hc, H3.
Qed.

(** *** Slots and copies *)

Lemma slot_effect s w k on c : gs_views s !! i = Some w ->
  exists s' w', slot_view i k on c s = (s', [], Ret tt) /\ gs_dg s' = gs_dg s /\ gs_subs s' = gs_subs s /\
    gs_views s' !! i = Some w' /\ same_view w w' /\ tv_pub w' = tv_pub w /\ tv_log w' = tv_log w /\
    slots_of k w' = (if on then slots_of k w ++ [c] else filter (fun x => x <> c) (slots_of k w)) /\
    (forall k', k' <> k -> slots_of k' w' = slots_of k' w) /\
    forall j, j <> i -> gs_views s' !! j = gs_views s !! j.
Proof.
  intros Hw. unfold slot_view. rewrite Hw. eexists _, _. split; [done|]. cbn. rewrite lookup_insert.
  do 3 (split; [done|]). split; [by destruct k|]. split; [by destruct k|]. split; [by destruct k|].
  split; [by destruct k|]. split; [intros k' Hk; by destruct k, k'|].
  intros j Hj. by rewrite lookup_insert_ne.
Qed.

End life.

Lemma copy_view_exact {D E : Type} (s : gst D E) i j w : gs_views s !! i = Some w -> gs_views s !! j = None ->
  exists s' w', copy_view i j s = (s', [], Ret tt) /\ gs_dg s' = gs_dg s /\ gs_subs s' = gs_subs s /\
    gs_views s' !! j = Some w' /\ tv_root w' = tv_root w /\ tv_tree w' = tv_tree w /\ tv_cross w' = tv_cross w /\
    tv_pub w' = tv_pub w /\ (forall k, slots_of k w' = []) /\
    forall k, k <> j -> gs_views s' !! k = gs_views s !! k.
Proof.
  intros Hw Hj. unfold copy_view. rewrite Hw, Hj. eexists _, _. split; [done|]. cbn. rewrite lookup_insert.
  do 7 (split; [done|]). split; [by intros []|]. intros k Hk. by rewrite lookup_insert_ne.
Qed.
