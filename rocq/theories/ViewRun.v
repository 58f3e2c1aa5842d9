(** Histories seen by one subscribed view. *)
From stdpp Require Import prelude strings gmap.
From Verif Require Import ListLib Outcome Digraph Bfs TreeView GraphModel GraphOps GraphWf GraphStep
  SpecObs SpecView GraphStore GraphRefine GraphThms SpecWalk WalkThms BfsThms BfsFind SpecTree BuildThms SyncThms ViewStep ViewSync.

Section viewrun.
Context {D E : Type} (d0 : D) (einv : E -> E).
Local Notation dg_wf := (dg_wf einv).
Local Notation lstep := (lstep einv).
Local Notation vstep := (vstep einv).
Local Notation vsteps := (vsteps einv).
Implicit Types (s : gst D E) (g : digraph D E) (w : tview).

(** *** Graph calls leave subscriptions and publisher pointers alone *)

Definition keeps s s' : Prop :=
  gs_subs s' = gs_subs s /\ forall j, wire <$> gs_views s' !! j = wire <$> gs_views s !! j.
Definition keeping {A} (m : call (gst D E) A) : Prop := forall s s' ev r, m s = (s', ev, r) -> keeps s s'.

Lemma keeps_refl s : keeps s s. Proof. done. Qed.
Lemma keeps_trans s1 s2 s3 : keeps s1 s2 -> keeps s2 s3 -> keeps s1 s3.
Proof. intros [H1 H2] [H3 H4]. split; [congruence|]. intros j. by rewrite H4, H2. Qed.

Lemma keeping_bind {A B} (m : call (gst D E) A) (k : A -> call (gst D E) B) :
  keeping m -> (forall a, keeping (k a)) -> keeping (cbind m k).
Proof.
  intros Hm Hk s s' ev r [(s1 & ev1 & a & ev2 & H1 & H2 & ->)|[(x & Hx & ->)|[[H ->]|[H ->]]]]%cbind_inv;
    eauto using keeps_trans.
  eapply keeps_trans; [by eapply Hm|by eapply Hk].
Qed.
Lemma keeping_read {A} (f : gst D E -> outcome A) : keeping (cread f).
Proof. by intros s s' ev r [= <- _ _]. Qed.
Lemma keeping_ret {A} (a : A) : keeping (cret a).
Proof. by intros s s' ev r [= <- _ _]. Qed.
Lemma keeping_notify e : keeping (cnotify e).
Proof. by intros s s' ev r [= <- _ _]. Qed.
Lemma keeping_dg (f : gst D E -> digraph D E) : keeping (cmodify (fun s => gs_set_dg (f s) s)).
Proof. by intros s s' ev r [= <- _ _]. Qed.
Lemma keeping_for f l : (forall i w, wire (fst (f i w)) = wire w) -> keeping (for_views f l).
Proof.
  intros Hf. induction l as [|i l IH]; [apply keeping_ret|]. intros s s' ev r. cbn [for_views].
  destruct (gs_views s !! i) as [w|] eqn:Hw; [|by intros [= <- _ _]].
  specialize (Hf i w). destruct (f i w) as [w' ri]. cbn in Hf.
  assert (Hk : keeps s (gs_set_view i w' s)).
  { split; [done|]. intros j. cbn. destruct (decide (i = j)) as [->|].
    - rewrite lookup_insert, Hw. cbn. by rewrite Hf.
    - by rewrite lookup_insert_ne. }
  destruct ri; [|by intros [= <- _ _]..]. intros H. eapply keeps_trans; [done|]. by eapply IH.
Qed.

Lemma keeping_add_vertex f d : keeping (add_vertex (D := D) (E := E) f d).
Proof. intros s s' ev r. unfold add_vertex. destruct (bg_add_vertex f d (gs_dg s)). by intros [= <- _ _]. Qed.
Lemma keeping_emplace f d : keeping (emplace_frame (D := D) (E := E) f d).
Proof.
  intros s s' ev r. unfold emplace_frame. destruct (_ =? _); [|by intros [= <- _ _]]. apply keeping_add_vertex.
Qed.

Ltac kp := repeat first
  [ apply keeping_bind; [|intros ?] | apply keeping_read | apply keeping_ret | apply keeping_notify
  | apply keeping_dg | apply keeping_add_vertex | apply keeping_emplace
  | match goal with |- keeping (match ?x with _ => _ end) => destruct x end
  | match goal with |- keeping (if ?x then _ else _) => destruct x end ].

Lemma keeping_add_edge_v o t p : keeping (add_edge_v (D := D) einv o t p).
Proof.
  unfold add_edge_v. kp.
  - intros s s' ev r. destruct (bg_add_edge o t p (gs_dg s)). by intros [= <- _ _].
  - intros s s' ev r. unfold add_edge_to_tree_views. apply keeping_for. intros. apply add_to_view_wire.
Qed.
Lemma keeping_add_edge o t p : keeping (add_edge d0 einv o t p).
Proof.
  intros s. unfold add_edge. cbn zeta.
  apply (keeping_bind (if bg_vertex (gs_dg s) o =? null_vertex then add_vertex o d0 else cret (bg_vertex (gs_dg s) o))).
  - destruct (_ =? _); [apply keeping_add_vertex|apply keeping_ret].
  - intros vo. apply keeping_bind; [|intros vt; apply keeping_add_edge_v].
    destruct (_ =? _); [apply keeping_add_vertex|apply keeping_ret].
Qed.
Lemma keeping_boost_remove i : keeping (boost_remove_edge (D := D) (E := E) i).
Proof. intros s s' ev r. unfold boost_remove_edge. destruct (bg_remove_edge i (gs_dg s)); by intros [= <- _ _]. Qed.
Lemma keeping_remove_impl ord o t vo vt : keeping (remove_edge_impl (D := D) (E := E) ord o t vo vt).
Proof.
  unfold remove_edge_impl. kp; try apply keeping_boost_remove.
  intros s s' ev r. unfold remove_edge_from_tree_views. apply keeping_for. intros i w. apply view_remove_wire.
Qed.
Lemma keeping_remove_v ord o t : keeping (remove_edge_v (D := D) (E := E) ord o t).
Proof. unfold remove_edge_v. do 2 (apply keeping_bind; [apply keeping_read|intros ?]). apply keeping_remove_impl. Qed.
Lemma keeping_remove ord o t : keeping (remove_edge (D := D) (E := E) ord o t).
Proof. unfold remove_edge. do 2 (apply keeping_bind; [apply keeping_read|intros ?]). apply keeping_remove_impl. Qed.
Lemma keeping_set_v o t p : keeping (set_edge_property_v (D := D) einv o t p).
Proof. unfold set_edge_property_v. kp. Qed.
Lemma keeping_loop n ord v : keeping (disconnect_loop (D := D) (E := E) n ord v).
Proof.
  induction n as [|n IH]; intros s s' ev r; cbn [disconnect_loop];
    (destruct (bg_out (gs_dg s) v) as [|e l]; [by intros [= <- _ _]|]).
  - by intros [= <- _ _].
  - revert s s' ev r. apply keeping_bind; [apply keeping_remove_v|done].
Qed.

Lemma keeping_op ord op : ~ view_op op -> keeping (gstep d0 einv ord op).
Proof.
  destruct op; cbn [view_op gstep]; intros Hn; try (by destruct Hn).
  - apply keeping_bind; [apply keeping_emplace|intros; apply keeping_ret].
  - apply keeping_bind; [apply keeping_emplace|intros; apply keeping_ret].
  - apply keeping_add_edge.
  - apply keeping_add_edge_v.
  - apply keeping_remove.
  - apply keeping_remove_v.
  - unfold set_edge_property. do 2 (apply keeping_bind; [apply keeping_read|intros ?]). apply keeping_set_v.
  - apply keeping_set_v.
  - unfold disconnect_frame. apply keeping_bind; [apply keeping_read|intros ?]. intros s s' ev r. apply keeping_loop.
  - unfold remove_frame. kp.
  - intros s s' ev r. unfold set_frame_data. destruct (bg_alive _ _); by intros [= <- _ _].
Qed.

(** *** Subscriptions stay consistent *)

Lemma subs_ok_keeps s s' : keeps s s' -> subs_ok s -> subs_ok s'.
Proof.
  intros [H1 H2] [Hnd H]. split; [by rewrite H1|]. intros j Hj. rewrite H1 in Hj.
  destruct (H j Hj) as (w & Hw & Hp). specialize (H2 j). rewrite Hw in H2. cbn in H2.
  destruct (gs_views s' !! j) as [w'|] eqn:Hw'; [|done]. cbn in H2. exists w'. split; [done|]. injection H2. congruence.
Qed.

Lemma subscribe_inv i s s' ev r : subscribe_tree_view i s = (s', ev, r) -> ok r ->
  exists w, gs_views s !! i = Some w /\ tv_pub w = false /\ r = Ret tt /\
    s' = gs_set_view i (tv_set_pub true w) (GSt (gs_dg s) (gs_subs s ++ [i]) (gs_views s)).
Proof.
  unfold subscribe_tree_view. destruct (gs_views s !! i) as [w|]; [|by intros [= _ _ <-]].
  destruct (tv_pub w) eqn:Hp; intros [= <- _ <-]; [done|]. intros _. eauto.
Qed.

Lemma subs_ok_subscribe i s s' ev r : subs_ok s -> subscribe_tree_view i s = (s', ev, r) -> ok r -> subs_ok s'.
Proof.
  intros [Hnd H] Hs Hok. apply subscribe_inv in Hs as (w & Hw & Hp & _ & ->); [|done].
  assert (Hi : i ∉ gs_subs s) by (intros Hi; destruct (H i Hi) as (w' & Hw' & Hp'); congruence).
  split; cbn.
  - apply NoDup_app. split; [done|]. split; [|apply NoDup_singleton]. intros j Hj ->%elem_of_list_singleton. done.
  - intros j [Hj|Hj]%elem_of_app.
    + rewrite lookup_insert_ne by (intros ->; done). by apply H.
    + apply elem_of_list_singleton in Hj as ->. rewrite lookup_insert. eauto.
Qed.

Lemma get_tree_into_pub s root w w' : get_tree_into s root w = Ret w' -> tv_pub w' = tv_pub w.
Proof.
  unfold get_tree_into. destruct (bfs_trace _ _ _); cbn; try done. intros [= <-].
  by edestruct @build_pub as [-> _].
Qed.

Lemma subs_ok_set_view i w w' s : subs_ok s -> gs_views s !! i = Some w -> tv_pub w' = tv_pub w ->
  subs_ok (gs_set_view i w' s).
Proof.
  intros [Hnd H] Hw Hp. split; [done|]. intros j Hj. destruct (H j Hj) as (w1 & Hw1 & Hp1). cbn.
  destruct (decide (i = j)) as [->|]; [|rewrite lookup_insert_ne by done; eauto].
  rewrite lookup_insert. exists w'. split; [done|]. congruence.
Qed.

Lemma subs_ok_new_view i w s : subs_ok s -> gs_views s !! i = None -> subs_ok (gs_set_view i w s).
Proof.
  intros [Hnd H] Hw. split; [done|]. intros j Hj. destruct (H j Hj) as (w' & Hw' & Hp). exists w'.
  cbn. rewrite lookup_insert_ne; [done|]. intros ->. congruence.
Qed.

Lemma subs_ok_filter i s : subs_ok s ->
  subs_ok (GSt (gs_dg s) (filter (fun j => j <> i) (gs_subs s)) (gs_views s)).
Proof.
  intros [Hnd H]. split; cbn; [by apply NoDup_filter|].
  intros j [_ Hj]%elem_of_list_filter. by apply H.
Qed.

Lemma subs_ok_get_tree_v root keep i s s' ev r : subs_ok s -> get_tree_v root keep i s = (s', ev, r) -> ok r -> subs_ok s'.
Proof.
  intros Hs. unfold get_tree_v. destruct (gs_views s !! i) as [w|] eqn:Hw; [|by intros [= <- _ _]].
  destruct (get_tree_into s root w) as [w'| | |] eqn:Ht; [|by intros [= <- _ _]..].
  assert (Hs' : subs_ok (gs_set_view i w' s)) by (eapply subs_ok_set_view; eauto using get_tree_into_pub).
  destruct keep; [by apply subs_ok_subscribe|by intros [= <- _ _]].
Qed.

(** A move as one state change. *)
Definition moved (i j : viewid) w s : gst D E :=
  let wold := TView (tv_root w) ∅ [] false [] [] [] (tv_slots_removed w) in
  let wnew := TView (tv_root w) (tv_tree w) (tv_cross w) (tv_pub w) (tv_log w)
                    (tv_slots_cross w) (tv_slots_added w) [] in
  GSt (gs_dg s)
      (if tv_pub w then filter (fun k => k <> i) (gs_subs s) ++ [j] else gs_subs s)
      (<[i := wold]> (<[j := wnew]> (gs_views s))).

Lemma move_view_eq i j w s : gs_views s !! i = Some w -> gs_views s !! j = None ->
  move_view i j s = (moved i j w s, [], Ret tt).
Proof.
  intros Hi Hj. assert (Hne : i <> j) by congruence.
  unfold move_view. rewrite Hi, Hj. erewrite cbind_ret by done.
  destruct (tv_pub w) eqn:Hp.
  - unfold unsubscribe_tree_view, cbind, cmodify, subscribe_tree_view. cbn.
    rewrite lookup_insert_ne, lookup_insert by done. cbn.
    rewrite lookup_insert. rewrite lookup_insert_ne by done. rewrite lookup_insert. cbn.
    unfold moved, gs_set_view. cbn. rewrite Hp. do 2 f_equal. f_equal.
    apply map_eq. intros k. destruct (decide (k = i)) as [->|Hki]; [by rewrite !lookup_insert|].
    rewrite !(lookup_insert_ne _ i) by done.
    destruct (decide (k = j)) as [->|Hkj]; [by rewrite !lookup_insert|].
    repeat (rewrite lookup_insert_ne by done). done.
  - unfold cbind, cmodify. cbn. rewrite lookup_insert, lookup_insert_ne, lookup_insert by done. cbn.
    unfold moved, gs_set_view. cbn. rewrite Hp. do 2 f_equal. f_equal.
    apply map_eq. intros k. destruct (decide (k = i)) as [->|Hki]; [by rewrite !lookup_insert|].
    rewrite !(lookup_insert_ne _ i) by done.
    destruct (decide (k = j)) as [->|Hkj]; [by rewrite !lookup_insert|].
    repeat (rewrite lookup_insert_ne by done). done.
Qed.

Lemma subs_ok_gstep ord op s s' ev r :
  subs_ok s -> gstep d0 einv ord op s = (s', ev, r) -> ok r -> subs_ok s'.
Proof.
  intros Hs. assert (Hd : view_op op \/ ~ view_op op) by (destruct op; cbn; tauto). destruct Hd as [Hv|Hv].
  2:{ intros H _. eapply subs_ok_keeps; [|done]. eapply keeping_op; [|done]. done. }
  destruct op; try done; clear Hv; cbn [gstep].
  - unfold new_view. destruct (gs_views s !! i) as [w|] eqn:Hw; [by intros [= <- _ _]|].
    intros [= <- _ _] _. by apply subs_ok_new_view.
  - unfold get_tree. intros [(s1 & ev1 & a & ev2 & H1 & H2 & ->)|[(x & Hx & ->)|[[H ->]|[H ->]]]]%cbind_inv Hok; try done.
    + cbn in H1. injection H1 as <- _ _. by eapply subs_ok_get_tree_v.
    + cbn in Hx. by injection Hx as <- _ _.
  - by apply subs_ok_get_tree_v.
  - intros [= <- _ _] _. by apply subs_ok_filter.
  - unfold view_unsubscribe. destruct (gs_views s !! i) as [w|] eqn:Hw; [|by intros [= <- _ _]].
    destruct (tv_pub w) eqn:Hp; intros [= <- _ _] _; [|done].
    destruct (subs_ok_filter i s Hs) as [Hnd H]. split; [done|]. cbn in *. intros j Hj.
    rewrite lookup_insert_ne; [by apply H|]. intros ->. by apply elem_of_list_filter in Hj as [? _].
  - unfold destroy_view. destruct (gs_views s !! i) as [w|] eqn:Hw; [|by intros [= <- _ _]].
    destruct (tv_pub w) eqn:Hp; intros [= <- _ _] _; cbn.
    + destruct (subs_ok_filter i s Hs) as [Hnd H]. split; [done|]. cbn in *. intros j Hj.
      rewrite lookup_delete_ne; [by apply H|]. intros ->. by apply elem_of_list_filter in Hj as [? _].
    + destruct Hs as [Hnd H]. split; [done|]. cbn. intros j Hj. destruct (H j Hj) as (w' & Hw' & Hp').
      exists w'. rewrite lookup_delete_ne; [done|]. intros ->. congruence.
  - destruct (gs_views s !! i) as [w|] eqn:Hi; cycle 1.
    { unfold move_view. rewrite Hi. by intros [= <- _ _]. }
    destruct (gs_views s !! j) as [wj|] eqn:Hj.
    { unfold move_view. rewrite Hi, Hj. by intros [= <- _ _]. }
    assert (Hne : i <> j) by congruence.
    rewrite (move_view_eq i j w) by done. intros [= <- _ _] _. destruct Hs as [Hnd H].
    assert (Hjn : j ∉ gs_subs s) by (intros Hin; destruct (H j Hin) as (? & ? & _); congruence).
    unfold moved. destruct (tv_pub w) eqn:Hp; split; cbn.
    + apply NoDup_app. split; [by apply NoDup_filter|]. split; [|apply NoDup_singleton].
      intros k [_ Hk]%elem_of_list_filter ->%elem_of_list_singleton. done.
    + intros k [[Hk1 Hk2]%elem_of_list_filter|Hk]%elem_of_app.
      * rewrite lookup_insert_ne by done. rewrite lookup_insert_ne by (intros ->; done). by apply H.
      * apply elem_of_list_singleton in Hk as ->. rewrite lookup_insert_ne, lookup_insert by done. eauto.
    + done.
    + intros k Hk. assert (k <> i) by (intros ->; destruct (H i Hk) as (? & ? & ?); congruence).
      rewrite !lookup_insert_ne; [by apply H|intros ->; done|done].
  - unfold copy_view. destruct (gs_views s !! i) as [w|] eqn:Hw; [|by intros [= <- _ _]].
    destruct (gs_views s !! j) as [w'|] eqn:Hw'; [by intros [= <- _ _]|].
    intros [= <- _ _] _. by apply subs_ok_new_view.
  - unfold slot_view. destruct (gs_views s !! i) as [w|] eqn:Hw; [|by intros [= <- _ _]].
    intros [= <- _ _] _. eapply subs_ok_set_view; [done..|]. by destruct k.
Qed.

Lemma subs_ok0 : subs_ok (@gst0 D E).
Proof. split; [constructor|]. by intros j ?%elem_of_nil. Qed.

Lemma run_subs_ok h s s' ev r : subs_ok s -> run d0 einv h s = (s', ev, r) -> ok r -> subs_ok s'.
Proof.
  revert s s' ev r. induction h as [|[ord op] h IH]; intros s s' ev r Hs; cbn [run]; [by intros [= <- _ _]|].
  destruct (gstep d0 einv ord op s) as [[s1 ev1] r1] eqn:H1.
  destruct r1 as [a|x| |]; [| |by intros [= _ _ <-]..];
    (destruct (run d0 einv h s1) as [[s2 ev2] r2] eqn:H2; intros [= <- _ <-] Hok;
     eapply IH; [|done|done]; eapply subs_ok_gstep; [done..|]; done).
Qed.

Lemma reachable_subs_ok s : reachable d0 einv s -> subs_ok s.
Proof.
  intros (h & ev & r & _ & Hr & Hok). eapply run_subs_ok; [apply subs_ok0|done|].
  by destruct Hok as [->|[x ->]].
Qed.

(** *** One call and one view *)

Section one.
Variable i : viewid.
Local Notation hasview := (hasview i).

(** A call on other views leaves this one alone. *)
Lemma view_op_same ord op s s' ev r w :
  view_op op -> subs_ok s -> hasview s w -> op_not i op -> op_no_slot i op ->
  gstep d0 einv ord op s = (s', ev, r) -> ok r -> hasview s' w.
Proof.
  intros Hv Hso Hh Hnot Hsl Hs Hok. destruct (subs_ok_gstep ord op s s' ev r Hso Hs Hok) as [Hnd' _].
  destruct op; try done; clear Hv; cbn [gstep op_not op_no_slot] in Hs, Hnot, Hsl.
  - destruct Hh as (H1 & H2 & H3). unfold new_view in Hs.
    destruct (gs_views s !! i0) eqn:Hi0; injection Hs as <- _ _; [done|]. split; [done|]. split; [done|].
    cbn. rewrite lookup_insert_ne; [done|congruence].
  - unfold get_tree in Hs.
    apply cbind_inv in Hs as [(s1 & ev1 & a & ev2 & H1 & H2 & ->)|[(x & Hx & ->)|[[H ->]|[H ->]]]]; [| |done..].
    2:{ cbn in Hx. by injection Hx as <- _ _. }
    cbn in H1. injection H1 as <- _ _. unfold get_tree_v in H2. destruct Hh as (G1 & G2 & G3).
    destruct (gs_views s !! i0) as [w0|] eqn:Hi0; [|by injection H2 as <- _ _].
    destruct (get_tree_into s a w0) as [w0'| | |]; [|by injection H2 as <- _ _..].
    destruct keep; [|injection H2 as <- _ _].
    + apply subscribe_inv in H2 as (w1 & Hw1 & _ & _ & ->); [|done]. cbn in *. split; [done|].
      split; [cbn; apply elem_of_app; auto|]. cbn. by rewrite !lookup_insert_ne by done.
    + split; [done|]. split; [done|]. cbn. by rewrite lookup_insert_ne by done.
  - unfold get_tree_v in Hs. destruct Hh as (G1 & G2 & G3).
    destruct (gs_views s !! i0) as [w0|] eqn:Hi0; [|by injection Hs as <- _ _].
    destruct (get_tree_into s root w0) as [w0'| | |]; [|by injection Hs as <- _ _..].
    destruct keep; [|injection Hs as <- _ _].
    + apply subscribe_inv in Hs as (w1 & Hw1 & _ & _ & ->); [|done]. cbn in *. split; [done|].
      split; [cbn; apply elem_of_app; auto|]. cbn. by rewrite !lookup_insert_ne by done.
    + split; [done|]. split; [done|]. cbn. by rewrite lookup_insert_ne by done.
  - destruct Hh as (G1 & G2 & G3). injection Hs as <- _ _. split; [done|]. split; [|done].
    cbn. apply elem_of_list_filter. auto.
  - destruct Hh as (G1 & G2 & G3). unfold view_unsubscribe in Hs.
    destruct (gs_views s !! i0) as [w0|] eqn:Hi0; [|by injection Hs as <- _ _].
    destruct (tv_pub w0); injection Hs as <- _ _; [|done]. split; [done|].
    split; [cbn; apply elem_of_list_filter; auto|]. cbn. by rewrite lookup_insert_ne by done.
  - destruct Hh as (G1 & G2 & G3). unfold destroy_view in Hs.
    destruct (gs_views s !! i0) as [w0|] eqn:Hi0; [|by injection Hs as <- _ _].
    destruct (tv_pub w0); injection Hs as <- _ _; (split; [done|]; split;
      [cbn; rewrite ?elem_of_list_filter; auto|cbn; by rewrite lookup_delete_ne by done]).
  - destruct Hh as (G1 & G2 & G3).
    destruct (gs_views s !! i0) as [w0|] eqn:Hi0; [|unfold move_view in Hs; rewrite Hi0 in Hs; by injection Hs as <- _ _].
    destruct (gs_views s !! j) as [wj|] eqn:Hj;
      [unfold move_view in Hs; rewrite Hi0, Hj in Hs; by injection Hs as <- _ _|].
    rewrite (move_view_eq i0 j w0) in Hs by done. injection Hs as <- _ _. split; [done|].
    assert (j <> i) by congruence. split; cbn.
    + destruct (tv_pub w0); [|done]. apply elem_of_app. left. by apply elem_of_list_filter.
    + by rewrite !lookup_insert_ne by done.
  - destruct Hh as (G1 & G2 & G3). unfold copy_view in Hs.
    destruct (gs_views s !! i0) as [w0|] eqn:Hi0; [|by injection Hs as <- _ _].
    destruct (gs_views s !! j) as [wj|] eqn:Hj; [by injection Hs as <- _ _|].
    injection Hs as <- _ _. split; [done|]. split; [done|]. cbn. rewrite lookup_insert_ne; [done|congruence].
  - destruct Hh as (G1 & G2 & G3). unfold slot_view in Hs.
    destruct (gs_views s !! i0) as [w0|] eqn:Hi0; [|by injection Hs as <- _ _].
    injection Hs as <- _ _. split; [done|]. split; [done|]. cbn. by rewrite lookup_insert_ne.
Qed.

Lemma gstep_vsteps ord op s s' ev r w :
  dg_wf (gs_dg s) -> subs_ok s -> hasview s w -> op_noself op -> op_not i op ->
  gstep d0 einv ord op s = (s', ev, r) -> ok r ->
  exists w', hasview s' w' /\ vsteps (gs_dg s, w) ev (gs_dg s', w').
Proof.
  intros Hwf Hso Hh Hns Hnot Hs Hok.
  assert (Hsame : forall s1, gs_dg s1 = gs_dg s -> hasview s1 w -> ev = [] -> s' = s1 ->
    exists w', hasview s' w' /\ vsteps (gs_dg s, w) ev (gs_dg s', w')).
  { intros s1 H1 H2 -> ->. exists w. split; [done|]. rewrite H1. constructor. }
  assert (Hkeep : view_op op -> hasview s' w ->
    exists w', hasview s' w' /\ vsteps (gs_dg s, w) ev (gs_dg s', w')).
  { intros Hv' Hh'. destruct (view_op_frame d0 einv ord op s s' ev r Hv' Hs) as [Hd ->]. by apply (Hsame s'). }
  assert (Hemp : forall f d r', emplace_frame f d s = (s', ev, r') ->
    exists w', hasview s' w' /\ vsteps (gs_dg s, w) ev (gs_dg s', w')).
  { intros f d r' He. pose proof He as Hk. apply keeping_emplace in Hk as [Hk1 Hk2]. unfold emplace_frame in He.
    destruct (Nat.eqb_spec (bg_vertex (gs_dg s) f) null_vertex) as [Hn|Hn].
    - rewrite (bg_vertex_null einv) in Hn by done. unfold add_vertex in He.
      destruct (bg_add_vertex f d (gs_dg s)) as [g' v] eqn:Hb. injection He as <- <- _. exists w. split; [done|].
      apply vsteps_one. constructor; [|done]. cbn [gs_dg gs_set_dg].
      replace g' with (fst (bg_add_vertex f d (gs_dg s))) by by rewrite Hb. by constructor.
    - injection He as <- <- _. exists w. split; [done|constructor]. }
  destruct (subs_ok_gstep ord op s s' ev r Hso Hs Hok) as [Hnd' _].
  destruct op; try (match type of Hs with gstep _ _ _ ?op _ = _ =>
      apply (Hkeep I), (view_op_same ord op s s' ev r w I); done end); cbn [gstep op_noself op_not] in Hs, Hns, Hnot.
  - apply cbind_ret_void_inv in Hs as (r' & Hs & _). by eapply Hemp.
  - apply cbind_ret_void_inv in Hs as (r' & Hs & _). by eapply Hemp.
  - by eapply add_edge_vsteps.
  - by eapply add_edge_v_vsteps.
  - by eapply remove_edge_vsteps.
  - by eapply remove_edge_v_vsteps.
  - revert Hs. unfold set_edge_property.
    destruct (get_vertex_cases einv s o Hwf) as [(vo & Hvo & Ho)|[_ Ho]].
    2:{ erewrite cbind_read_throw by exact Ho. intros [= <- <- _]. by apply (Hsame s). }
    erewrite cbind_read_ret by exact Ho.
    destruct (get_vertex_cases einv s t Hwf) as [(vt & Hvt & Ht)|[_ Ht]].
    2:{ erewrite cbind_read_throw by exact Ht. intros [= <- <- _]. by apply (Hsame s). }
    erewrite cbind_read_ret by exact Ht. intros Hs. by eapply set_edge_property_v_vsteps.
  - by eapply set_edge_property_v_vsteps.
  - revert Hs. unfold disconnect_frame.
    destruct (get_vertex_cases einv s f Hwf) as [(v & Hv & Ho)|[_ Ho]].
    + erewrite cbind_read_ret by exact Ho. intros Hs. by eapply disconnect_loop_vsteps.
    + erewrite cbind_read_throw by exact Ho. intros [= <- <- _]. by apply (Hsame s).
  - destruct (get_vertex_cases einv s f Hwf) as [(v & Hv & Ho)|[_ Ho]].
    + rewrite (remove_frame_eq einv f v) in Hs by done. case_bool_decide; injection Hs as <- <- _; [by apply (Hsame s)|].
      exists w. split; [done|]. apply vsteps_one. constructor; [|done]. cbn. constructor; [done|lia].
    + unfold remove_frame in Hs. erewrite cbind_read_throw in Hs by exact Ho. injection Hs as <- <- _. by apply (Hsame s).
  - unfold set_frame_data in Hs. destruct (bg_alive _ _); injection Hs as <- <- _; [|by apply (Hsame s)].
    exists w. split; [done|]. apply vsteps_one. constructor; [|done]. constructor.
  - unfold slot_view in Hs. destruct (gs_views s !! i0) as [w0|] eqn:Hi0; [|by injection Hs as <- _ <-].
    injection Hs as <- <- _. destruct Hh as (G1 & G2 & G3). destruct (decide (i0 = i)) as [->|Hne].
    + assert (w0 = w) as -> by congruence. exists (tv_slot k on c w). split.
      { split; [done|]. split; [done|]. cbn. by rewrite lookup_insert. }
      eapply vsteps_slot. constructor.
    + apply (Hkeep I). split; [done|]. split; [done|]. cbn. by rewrite lookup_insert_ne.
Qed.

(** Connections change only by connecting and disconnecting. *)
Lemma gstep_slots ord op s s' ev r w w' :
  subs_ok s -> hasview s w -> op_not i op -> op_no_slot i op -> gstep d0 einv ord op s = (s', ev, r) -> ok r ->
  hasview s' w' -> same_slots w w'.
Proof.
  intros Hso Hh Hnot Hsl Hs Hok Hh'. assert (Hd : view_op op \/ ~ view_op op) by (destruct op; cbn; tauto). destruct Hd as [Hv|Hv].
  - destruct (view_op_same ord op s s' ev r w Hv Hso Hh Hnot Hsl Hs Hok) as (_ & _ & H1). destruct Hh' as (_ & _ & H2).
    assert (w' = w) as -> by congruence. done.
  - destruct (keeping_op ord op Hv s s' ev r Hs) as [_ Hk]. specialize (Hk i). destruct Hh as (_ & _ & H1), Hh' as (_ & _ & H2).
    rewrite H1, H2 in Hk. injection Hk as _ Hc Ha Hr. by intros [].
Qed.

Lemma run_vsteps h s s' ev r w :
  dg_wf (gs_dg s) -> subs_ok s -> hasview s w -> hist_noself h -> Forall (fun x => op_not i (snd x)) h ->
  run d0 einv h s = (s', ev, r) -> ok r ->
  exists w', hasview s' w' /\ vsteps (gs_dg s, w) ev (gs_dg s', w').
Proof.
  revert s s' ev r w. induction h as [|[ord op] h IH]; intros s s' ev r w Hwf Hso Hh Hns Hnot; cbn [run].
  - intros [= <- <- _] _. exists w. split; [done|constructor].
  - apply Forall_cons in Hns as [Hop Hns], Hnot as [Hop' Hnot]. cbn in Hop, Hop'.
    destruct (gstep d0 einv ord op s) as [[s1 ev1] r1] eqn:H1.
    destruct r1 as [a|x| |]; [| |by intros [= _ _ <-]..];
    (destruct (run d0 einv h s1) as [[s2 ev2] r2] eqn:H2; intros [= <- <- <-] Hok;
     pose proof (subs_ok_gstep _ _ _ _ _ _ Hso H1 I) as Hso1;
     eapply gstep_vsteps in H1 as (w1 & Hh1 & Hv1); [|done..];
     eapply IH in H2 as (w2 & Hh2 & Hv2); [|exact (vsteps_wf _ _ _ _ Hv1 Hwf)|done..];
     exists w2; split; [done|]; by eapply vsteps_app).
Qed.

Lemma run_slots h s s' ev r w w' :
  dg_wf (gs_dg s) -> subs_ok s -> hasview s w -> hist_noself h -> Forall (fun x => op_not i (snd x)) h ->
  Forall (fun x => op_no_slot i (snd x)) h ->
  run d0 einv h s = (s', ev, r) -> ok r -> hasview s' w' -> same_slots w w'.
Proof.
  revert s s' ev r w. induction h as [|[ord op] h IH]; intros s s' ev r w Hwf Hso Hh Hns Hnot Hsl; cbn [run].
  - intros [= <- <- _] _ Hh'. destruct Hh as (_ & _ & H1), Hh' as (_ & _ & H2). assert (w' = w) as -> by congruence. done.
  - apply Forall_cons in Hns as [Hop Hns], Hnot as [Hop' Hnot], Hsl as [Hop2 Hsl]. cbn in Hop, Hop', Hop2.
    destruct (gstep d0 einv ord op s) as [[s1 ev1] r1] eqn:H1.
    destruct r1 as [a|x| |]; [| |by intros [= _ _ <-]..];
    (destruct (run d0 einv h s1) as [[s2 ev2] r2] eqn:H2; intros [= <- <- <-] Hok Hh';
     pose proof (subs_ok_gstep _ _ _ _ _ _ Hso H1 I) as Hso1;
     pose proof H1 as H3;
     eapply gstep_vsteps in H1 as (w1 & Hh1 & Hv1); [|done..];
     pose proof (gstep_slots _ _ _ _ _ _ _ _ Hso Hh Hop' Hop2 H3 I Hh1) as Hs1;
     eapply IH in H2; [|exact (vsteps_wf _ _ _ _ Hv1 Hwf)|done..];
     intros k; by rewrite (H2 k), (Hs1 k)).
Qed.

End one.
End viewrun.
