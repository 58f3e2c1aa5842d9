(** The calls of the base class Graph do not touch the content of frames. *)
From stdpp Require Import prelude strings gmap.
From Verif Require Import ListLib Outcome Digraph Bfs TreeView GraphModel GraphOps GraphWf GraphStep GraphThms2 GraphEmit.

Section track.
Context {D E : Type} (d0 : D) (einv : E -> E) (P : D -> Prop).
Implicit Types s : gst D E.

(** Every frame in [s'] is a frame of [s] with the same content, or new with content in [P]. *)
Definition tracks s s' : Prop :=
  dg_nextv (gs_dg s) <= dg_nextv (gs_dg s') /\
  forall r', r' ∈ dg_verts (gs_dg s') -> r' ∈ dg_verts (gs_dg s) \/ (dg_nextv (gs_dg s) <= v_id r' /\ P (v_data r')).

Definition tracking {A} (m : call (gst D E) A) : Prop := forall s s' ev r, m s = (s', ev, r) -> tracks s s'.

Lemma tracks_refl s : tracks s s.
Proof. split; [lia|]. auto. Qed.
Lemma tracks_trans s1 s2 s3 : tracks s1 s2 -> tracks s2 s3 -> tracks s1 s3.
Proof.
  intros [H1 H2] [H3 H4]. split; [lia|]. intros r' [H|[H HP]]%H4; [by apply H2|]. right. split; [lia|done].
Qed.
Lemma tracks_same s s' : dg_verts (gs_dg s') = dg_verts (gs_dg s) -> dg_nextv (gs_dg s') = dg_nextv (gs_dg s) -> tracks s s'.
Proof. intros H1 H2. split; [lia|]. rewrite H1. auto. Qed.

Lemma tracking_bind {A B} (m : call (gst D E) A) (k : A -> call (gst D E) B) :
  tracking m -> (forall a, tracking (k a)) -> tracking (cbind m k).
Proof.
  intros Hm Hk s s' ev r
    [(s1 & ev1 & a & ev2 & H1 & H2 & ->)|[(x & Hx & ->)|[[H ->]|[H ->]]]]%cbind_inv; eauto.
  eapply tracks_trans; [by eapply Hm|by eapply Hk].
Qed.
Lemma tracking_read {A} (f : gst D E -> outcome A) : tracking (cread f).
Proof. intros s s' ev r [= <- <- <-]. apply tracks_refl. Qed.
Lemma tracking_ret {A} (a : A) : tracking (cret a).
Proof. intros s s' ev r [= <- <- <-]. apply tracks_refl. Qed.
Lemma tracking_notify e : tracking (cnotify e).
Proof. intros s s' ev r [= <- <- <-]. apply tracks_refl. Qed.
Lemma tracking_for_views f l : tracking (for_views (D := D) (E := E) f l).
Proof. intros s s' ev r (H & _ & _)%for_views_frame. apply tracks_same; by rewrite H. Qed.

Lemma tracking_add_vertex f d : P d -> tracking (add_vertex (D := D) (E := E) f d).
Proof.
  intros HP s s' ev r. unfold add_vertex, bg_add_vertex. destruct (dg_map (gs_dg s) !! f).
  - intros [= <- _ _]. apply tracks_same; done.
  - intros [= <- _ _]. split; cbn; [lia|]. intros r' [H|H]%elem_of_app; [auto|].
    apply elem_of_list_singleton in H as ->. right. cbn. auto.
Qed.

Lemma tracking_emplace f d : P d -> tracking (emplace_frame (D := D) (E := E) f d).
Proof.
  intros HP s s' ev r. unfold emplace_frame. destruct (_ =? _); [by apply tracking_add_vertex|].
  intros [= <- _ _]. apply tracks_refl.
Qed.

Ltac tr := repeat first
  [ apply tracking_bind; [|intros ?] | apply tracking_read | apply tracking_ret | apply tracking_notify ].

Lemma tracking_modify (f : gst D E -> gst D E) :
  (forall s, dg_verts (gs_dg (f s)) = dg_verts (gs_dg s) /\ dg_nextv (gs_dg (f s)) = dg_nextv (gs_dg s)) ->
  tracking (cmodify f).
Proof. intros H s s' ev r [= <- _ _]. by apply tracks_same; apply H. Qed.

Lemma tracking_add_edge_v o t p : tracking (add_edge_v (D := D) einv o t p).
Proof.
  unfold add_edge_v. tr. destruct a; tr.
  - intros s s' ev r. cbn. intros [= <- _ _]. by apply tracks_same.
  - by apply tracking_modify.
  - intros s s' ev r. apply tracking_for_views.
Qed.

Lemma tracking_add_edge o t p : P d0 -> tracking (add_edge d0 einv o t p).
Proof.
  intros HP s s' ev r. unfold add_edge. revert s s' ev r.
  intros s. set (o0 := bg_vertex (gs_dg s) o). set (t0 := bg_vertex (gs_dg s) t). revert s o0 t0.
  cut (forall o0 t0, tracking (vo <-- (if o0 =? null_vertex then add_vertex o d0 else cret o0) ;;
   vt <-- (if t0 =? null_vertex then add_vertex t d0 else cret t0) ;; add_edge_v einv vo vt p)).
  { intros H s s' ev r Hr. by eapply H. }
  intros o0 t0. apply tracking_bind; [destruct (o0 =? _); [by apply tracking_add_vertex|apply tracking_ret]|intros ?].
  apply tracking_bind; [destruct (t0 =? _); [by apply tracking_add_vertex|apply tracking_ret]|intros ?].
  apply tracking_add_edge_v.
Qed.

Lemma tracking_boost_remove_edge i : tracking (boost_remove_edge (D := D) (E := E) i).
Proof.
  intros s s' ev r. unfold boost_remove_edge, bg_remove_edge. destruct (bg_erec (gs_dg s) i); intros [= <- _ _].
  - by apply tracks_same.
  - apply tracks_refl.
Qed.

Lemma tracking_remove_impl ord o t vo vt : tracking (remove_edge_impl (D := D) (E := E) ord o t vo vt).
Proof.
  unfold remove_edge_impl. tr. destruct a as [e1|]; [|tr]. destruct a0 as [e2|]; [|tr]. tr.
  - apply tracking_boost_remove_edge.
  - apply tracking_boost_remove_edge.
  - intros s s' ev r. apply tracking_for_views.
Qed.

Lemma tracking_remove_v ord vo vt : tracking (remove_edge_v (D := D) (E := E) ord vo vt).
Proof. unfold remove_edge_v. do 2 (apply tracking_bind; [apply tracking_read|intros ?]). apply tracking_remove_impl. Qed.
Lemma tracking_remove ord o t : tracking (remove_edge (D := D) (E := E) ord o t).
Proof. unfold remove_edge. do 2 (apply tracking_bind; [apply tracking_read|intros ?]). apply tracking_remove_impl. Qed.

Lemma tracking_set_v o t p : tracking (set_edge_property_v (D := D) einv o t p).
Proof.
  unfold set_edge_property_v. tr. destruct a as [e|]; tr; try (by apply tracking_modify).
  destruct a0; tr; by apply tracking_modify.
Qed.
Lemma tracking_set o t p : tracking (set_edge_property (D := D) einv o t p).
Proof. unfold set_edge_property. do 2 (apply tracking_bind; [apply tracking_read|intros ?]). apply tracking_set_v. Qed.

Lemma tracking_loop n ord v : tracking (disconnect_loop (D := D) (E := E) n ord v).
Proof.
  induction n as [|n IH]; intros s s' ev r; cbn [disconnect_loop].
  - destruct (bg_out (gs_dg s) v); intros [= <- _ _]; apply tracks_refl.
  - destruct (bg_out (gs_dg s) v) as [|e l]; [intros [= <- _ _]; apply tracks_refl|].
    revert s s' ev r. apply tracking_bind; [apply tracking_remove_v|intros _; apply IH].
Qed.

Lemma tracking_disconnect ord f : tracking (disconnect_frame (D := D) (E := E) ord f).
Proof. unfold disconnect_frame. apply tracking_bind; [apply tracking_read|intros ?]. intros s s' ev r. apply tracking_loop. Qed.

Lemma tracking_remove_frame f : tracking (remove_frame (D := D) (E := E) f).
Proof.
  unfold remove_frame. tr. intros s s' ev r [= <- _ _]. split; cbn; [lia|].
  intros r' [_ H]%elem_of_list_filter. auto.
Qed.

Lemma gstep_tracks ord op : P d0 ->
  match op with OEmplaceFrame _ d => P d | OSetFrameData _ _ => False | _ => True end ->
  tracking (gstep d0 einv ord op).
Proof.
  intros H0 Hop. assert (Hv : view_op op -> tracking (gstep d0 einv ord op)).
  { intros Hv s s' ev r [H _]%view_op_frame; [|done]. apply tracks_same; by rewrite H. }
  destruct op; try (by apply Hv); cbn [gstep] in *; clear Hv.
  - unfold add_frame. apply tracking_bind; [by apply tracking_emplace|intros; apply tracking_ret].
  - apply tracking_bind; [by apply tracking_emplace|intros; apply tracking_ret].
  - by apply tracking_add_edge.
  - apply tracking_add_edge_v.
  - apply tracking_remove.
  - apply tracking_remove_v.
  - apply tracking_set.
  - apply tracking_set_v.
  - apply tracking_disconnect.
  - apply tracking_remove_frame.
Qed.

End track.
