(** Which events a call can emit. *)
From stdpp Require Import prelude strings gmap.
From Verif Require Import ListLib Outcome Digraph Bfs TreeView GraphModel GraphOps GraphWf GraphStep
  SpecStore SpecObs GraphStore GraphRefine GraphThms GraphThms2.

Definition emits {St A} (P : event -> Prop) (m : call St A) : Prop :=
  forall s s' ev r, m s = (s', ev, r) -> Forall P ev.

Lemma emits_bind {St A B} P (m : call St A) (k : A -> call St B) :
  emits P m -> (forall a, emits P (k a)) -> emits P (cbind m k).
Proof.
  intros Hm Hk s s' ev r
    [(s1 & ev1 & a & ev2 & H1 & H2 & ->)|[(x & Hx & ->)|[[H ->]|[H ->]]]]%cbind_inv; eauto.
  apply Forall_app. split; [by eapply Hm|by eapply Hk].
Qed.
Lemma emits_read {St A} P (f : St -> outcome A) : emits P (cread f).
Proof. intros s s' ev r [= <- <- <-]. constructor. Qed.
Lemma emits_modify {St} P (f : St -> St) : emits P (cmodify f).
Proof. intros s s' ev r [= <- <- <-]. constructor. Qed.
Lemma emits_ret {St A} P (a : A) : emits P (cret (St := St) a).
Proof. intros s s' ev r [= <- <- <-]. constructor. Qed.
Lemma emits_notify {St} (P : event -> Prop) e : P e -> emits P (cnotify (St := St) e).
Proof. intros HP s s' ev r [= <- <- <-]. by repeat constructor. Qed.

Section emit.
Context {D E : Type} (d0 : D) (einv : E -> E).
Local Notation gst := (gst D E).
Implicit Types s : gst.
Variable P : event -> Prop.

Lemma emits_for_views f l : emits P (for_views (D := D) (E := E) f l).
Proof. intros s s' ev r (_ & _ & ->)%for_views_frame. constructor. Qed.

Lemma emits_add_vertex f d : P (EvFrameAdded f) -> emits P (add_vertex (D := D) (E := E) f d).
Proof.
  intros HP s s' ev r. unfold add_vertex. destruct (bg_add_vertex f d (gs_dg s)).
  intros [= <- <- <-]. by repeat constructor.
Qed.

Lemma emits_emplace f d : P (EvFrameAdded f) -> emits P (emplace_frame (D := D) (E := E) f d).
Proof.
  intros HP s s' ev r. unfold emplace_frame. case_match.
  - by apply emits_add_vertex.
  - intros [= <- <- <-]. constructor.
Qed.

Lemma emits_add_edge_v o t p : (forall a b e, P (EvEdgeAdded a b e)) ->
  emits P (add_edge_v (D := D) einv o t p).
Proof.
  intros HP. unfold add_edge_v. apply emits_bind; [apply emits_read|]. intros [e|].
  - repeat (apply emits_bind; [apply emits_read|intros ?]). apply emits_read.
  - apply emits_bind; [apply emits_read|intros _].
    apply emits_bind.
    { intros s s' ev r. destruct (bg_add_edge o t p (gs_dg s)). intros [= <- <- <-]. constructor. }
    intros i. apply emits_bind; [apply emits_modify|intros _].
    apply emits_bind; [|intros _].
    { intros s s' ev r. apply emits_for_views. }
    repeat (apply emits_bind; [apply emits_read|intros ?]). by apply emits_notify.
Qed.

Lemma emits_add_edge o t p : (forall a b e, P (EvEdgeAdded a b e)) -> (forall f, P (EvFrameAdded f)) ->
  emits P (add_edge d0 einv o t p).
Proof.
  intros H1 H2 s s' ev r. unfold add_edge.
  match goal with |- ?m s = _ -> _ => assert (Hm : emits P m); [|by apply Hm] end.
  apply emits_bind. { case_match; [by apply emits_add_vertex|apply emits_ret]. }
  intros vo. apply emits_bind. { case_match; [by apply emits_add_vertex|apply emits_ret]. }
  intros vt. by apply emits_add_edge_v.
Qed.

Lemma emits_boost_remove_edge i : emits P (boost_remove_edge (D := D) (E := E) i).
Proof. intros s s' ev r. unfold boost_remove_edge. case_match; intros [= <- <- <-]; constructor. Qed.

Lemma emits_remove_edge_impl ord o t vo vt : P (EvEdgeRemoved o t) ->
  emits P (remove_edge_impl (D := D) (E := E) ord o t vo vt).
Proof.
  intros HP. unfold remove_edge_impl. do 2 (apply emits_bind; [apply emits_read|intros ?]).
  case_match; [|apply emits_read]. case_match; [|apply emits_read].
  apply emits_bind; [apply emits_boost_remove_edge|intros _].
  apply emits_bind; [by apply emits_notify|intros _].
  apply emits_bind; [apply emits_boost_remove_edge|intros _].
  intros s s' ev r. apply emits_for_views.
Qed.

Lemma emits_remove_edge ord o t : P (EvEdgeRemoved o t) ->
  emits P (remove_edge (D := D) (E := E) ord o t).
Proof.
  intros HP. unfold remove_edge. do 2 (apply emits_bind; [apply emits_read|intros ?]).
  by apply emits_remove_edge_impl.
Qed.

Lemma emits_remove_edge_v ord vo vt : (forall o t, P (EvEdgeRemoved o t)) ->
  emits P (remove_edge_v (D := D) (E := E) ord vo vt).
Proof.
  intros HP. unfold remove_edge_v. do 2 (apply emits_bind; [apply emits_read|intros ?]).
  by apply emits_remove_edge_impl.
Qed.

Lemma emits_disconnect ord f : (forall o t, P (EvEdgeRemoved o t)) ->
  emits P (disconnect_frame (D := D) (E := E) ord f).
Proof.
  intros HP. unfold disconnect_frame. apply emits_bind; [apply emits_read|intros v].
  intros s. generalize (length (dg_edges (gs_dg s))) as n. intros n. revert s.
  induction n as [|n IH]; intros s s' ev r; cbn [disconnect_loop].
  - case_match; intros [= <- <- <-]; constructor.
  - case_match; [intros [= <- <- <-]; constructor|].
    match goal with |- ?m s = _ -> _ => assert (Hm : emits P m); [|by apply Hm] end.
    apply emits_bind; [by apply emits_remove_edge_v|]. intros _. exact IH.
Qed.

Lemma emits_set_edge_property_v o t p : (forall a b e1 e2, P (EvEdgeModified a b e1 e2)) ->
  emits P (set_edge_property_v (D := D) einv o t p).
Proof.
  intros HP. unfold set_edge_property_v. apply emits_bind; [apply emits_read|]. intros [e|].
  - apply emits_bind; [apply emits_modify|intros _]. apply emits_bind; [apply emits_read|].
    intros [e'|]; [|apply emits_read]. apply emits_bind; [apply emits_modify|intros _].
    do 2 (apply emits_bind; [apply emits_read|intros ?]). by apply emits_notify.
  - do 2 (apply emits_bind; [apply emits_read|intros ?]). apply emits_read.
Qed.

Lemma emits_set_edge_property o t p : (forall a b e1 e2, P (EvEdgeModified a b e1 e2)) ->
  emits P (set_edge_property (D := D) einv o t p).
Proof.
  intros HP. unfold set_edge_property. do 2 (apply emits_bind; [apply emits_read|intros ?]).
  by apply emits_set_edge_property_v.
Qed.

Lemma emits_remove_frame f : P (EvFrameRemoved f) ->
  emits P (remove_frame (D := D) (E := E) f).
Proof.
  intros HP. unfold remove_frame. do 2 (apply emits_bind; [apply emits_read|intros ?]).
  apply emits_bind; [apply emits_modify|intros _]. by apply emits_notify.
Qed.
End emit.

Section thm.
Context {D E : Type} (d0 : D) (einv : E -> E).
Local Notation gst := (gst D E).

Lemma gstep_frame_removed ord op f : op <> ORemoveFrame f ->
  emits (fun e => e <> EvFrameRemoved f) (gstep (D := D) (E := E) d0 einv ord op).
Proof.
  intros Hop. destruct op; cbn [gstep];
    try (intros s s' ev r H;
         match type of H with ?x = _ =>
           change x with (gstep d0 einv ord ltac:(
             match x with
             | new_view ?i _ => exact (ONewView i)
             | get_tree ?a ?b ?c _ => exact (OGetTree a b c)
             | get_tree_v ?a ?b ?c _ => exact (OGetTreeV a b c)
             | unsubscribe_tree_view ?i _ => exact (OUnsubscribeTreeView i)
             | view_unsubscribe ?i _ => exact (OViewUnsubscribe i)
             | destroy_view ?i _ => exact (ODestroyView i)
             | move_view ?i ?j _ => exact (OMoveView i j)
             | copy_view ?i ?j _ => exact (OCopyView i j)
             | slot_view ?i ?k ?on ?c _ => exact (OSlotView i k on c)
             end) s) in H
         end; apply view_op_frame in H as [_ ->]; [constructor|exact I]).
  - apply emits_bind; [by apply emits_emplace|intros _; apply emits_ret].
  - apply emits_bind; [by apply emits_emplace|intros _; apply emits_ret].
  - by apply emits_add_edge.
  - by apply emits_add_edge_v.
  - by apply emits_remove_edge.
  - by apply emits_remove_edge_v.
  - by apply emits_set_edge_property.
  - by apply emits_set_edge_property_v.
  - by apply emits_disconnect.
  - apply emits_remove_frame. congruence.
  - intros s s' ev r. unfold set_frame_data. destruct (bg_alive _ _); intros [= <- <- <-]; constructor.
Qed.

Lemma run_frame_removed h f : Forall (fun p => snd p <> ORemoveFrame f) h ->
  emits (fun e => e <> EvFrameRemoved f) (run (D := D) (E := E) d0 einv h).
Proof.
  intros Hh. induction Hh as [|[ord op] h Hop Hh IH]; intros s s' ev r; cbn [run].
  - intros [= <- <- <-]. constructor.
  - destruct (gstep d0 einv ord op s) as [[s1 ev1] r1] eqn:H1.
    apply gstep_frame_removed with (f := f) in H1; [|done].
    destruct (run d0 einv h s1) as [[s2 ev2] r2] eqn:H2. apply IH in H2.
    destruct r1; intros [= <- <- <-]; try done; by apply Forall_app.
Qed.

(** C08 in terms of the calls made *)
Lemma vertex_handle_calls (s : gst) h s' ev r : reachable d0 einv s -> hist_noself h ->
  run d0 einv h s = (s', ev, r) -> ok r ->
  forall f v, get_vertex s f = Ret v -> (forall ord, (ord, ORemoveFrame f) ∉ h) ->
     get_vertex s' f = Ret v /\ get_frame_id s' v = Ret f.
Proof.
  intros Hre Hns Hr Hok f v Hv Hh.
  destruct (handles_stay d0 einv s h s' ev r Hre Hns Hr Hok) as [H _].
  apply H; [done|]. intros Hin.
  assert (Hf : Forall (fun p => snd p <> ORemoveFrame f) h).
  { apply Forall_forall. intros [ord op] Hp Heq. cbn in Heq. subst. by eapply Hh. }
  pose proof (run_frame_removed h f Hf s s' ev r Hr) as He.
  rewrite Forall_forall in He. by eapply He.
Qed.
End thm.
