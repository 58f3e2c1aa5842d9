(** Slots connected to the signals of tree views (C97). *)
From stdpp Require Import prelude strings gmap.
From Verif Require Import ListLib Outcome Digraph Bfs TreeView GraphModel GraphOps GraphWf GraphStep GraphRefine GraphThms
  SpecObs SpecWalk WalkThms BfsThms BfsFind SpecSearch GraphSearch SpecTree SpecView BuildThms SyncThms VisitThms RemoveThms
  ViewStep ViewSync ViewRun ViewFollow ViewRemove SlotModel SpecSlot.

Lemma app_mid {A} (a b l1 l2 : list A) x : a ++ b = l1 ++ x :: l2 ->
  (exists l, a = l1 ++ x :: l /\ l2 = l ++ b) \/ (exists l, l1 = a ++ l /\ b = l ++ x :: l2).
Proof.
  revert l1. induction a as [|y a IH]; intros l1 H; [right; by exists l1|].
  destruct l1 as [|z l1]; cbn in H; injection H as -> H; [left; exists a; by split|].
  destruct (IH l1 H) as [(l & -> & ->)|(l & -> & ->)]; [left|right]; exists l; done.
Qed.

(** ** The instrumented functions compute what the functions of the model compute *)

Lemma see_build_eq {E} (tr : list (bev E)) w : fst (see_build tr w) = build_tree tr w.
Proof.
  revert w. induction tr as [|b tr IH]; intros w; [done|]. cbn [see_build].
  change (build_tree (b :: tr) w) with (build_tree tr (build_step b w)). rewrite <- IH.
  destruct b; cbn [build_step]; unfold see_add_edge, see_add_cross, tv_add_edge, tv_add_cross; cbv beta iota zeta;
    match goal with |- context [see_build tr ?x] => destruct (see_build tr x) end; done.
Qed.

Lemma see_remove_vertices_eq vs w :
  let '(w', l, r) := see_remove_vertices vs w in tv_remove_vertices vs w = (w', r).
Proof.
  revert w. induction vs as [|v vs IH]; intros w; [done|]. cbn [see_remove_vertices tv_remove_vertices].
  case_bool_decide; [|done].
  match goal with |- context [see_remove_vertices vs ?x] => specialize (IH x); destruct (see_remove_vertices vs x) as [[w2 l] r] end.
  done.
Qed.

Lemma see_remove_edge_eq ord o t w :
  let '(w', l, r) := see_remove_edge ord o t w in tv_remove_edge ord o t w = (w', r).
Proof.
  unfold see_remove_edge, tv_remove_edge. destruct (if _ =? o then _ else _) as [rt|]; [|done].
  destruct (tv_visit_bfs _ _ _ _) as [vis r0]. destruct (xs_steps _ _) as [xs|]; [|done].
  destruct r0; try done.
  pose proof (see_remove_vertices_eq (rev vis.*1) (tv_set_cross (xs_cross xs) w)) as H.
  destruct (see_remove_vertices _ _) as [[w2 l] r2]. rewrite H. destruct r2; try done. by destruct (xs_leaving xs).
Qed.

(** ** Links and signals of one view *)

(** Every emission changes the links as its signal says. *)
Fixpoint chain (w : tview) (l : list sight) (w' : tview) : Prop :=
  match l with
  | [] => tv_log w' = tv_log w /\ forall p c, child w' p c <-> child w p c
  | (x, w1) :: l' => tv_log w1 = tv_log w /\ (forall p c, child w1 p c <-> heard (child w) x p c) /\ chain (tv_emit x w1) l' w'
  end.

Lemma chain_same w w0 l w' : tv_log w0 = tv_log w -> (forall p c, child w0 p c <-> child w p c) -> chain w l w' -> chain w0 l w'.
Proof.
  intros H1 H2. destruct l as [|[x w1] l]; cbn; [rewrite H1; intros [? H]; split; [done|]; intros p c; by rewrite H, H2|].
  rewrite H1. intros (? & H & ?). split; [done|]. split; [|done].
  intros p c. rewrite H. destruct x; cbn; by rewrite H2.
Qed.

Lemma chain_app w l1 w1 l2 w2 : chain w l1 w1 -> chain w1 l2 w2 -> chain w (l1 ++ l2) w2.
Proof.
  revert w. induction l1 as [|[x v] l1 IH]; intros w; cbn.
  - intros [H1 H2]. apply chain_same; [done|]. intros p c. by rewrite H2.
  - intros (H1 & H2 & H3) H. split; [done|]. split; [done|]. by apply IH.
Qed.

Lemma chain_nil w : chain w [] w.
Proof. done. Qed.

Lemma chain_add_edge o t w : chain w (snd (see_add_edge o t w)) (fst (see_add_edge o t w)).
Proof.
  cbn. split; [done|]. split; [|done]. intros p c. exact (child_add_edge o t w p c).
Qed.
Lemma chain_add_cross o t e w : chain w (snd (see_add_cross o t e w)) (fst (see_add_cross o t e w)).
Proof. cbn. done. Qed.

Lemma chain_build {E} (tr : list (bev E)) w : chain w (snd (see_build tr w)) (fst (see_build tr w)).
Proof.
  revert w. induction tr as [|b tr IH]; intros w; [done|]. cbn [see_build].
  assert (Hone : forall wl, chain w (snd wl) (fst wl) ->
    chain w (snd (let '(w1, l1) := wl in let '(w2, l2) := see_build tr w1 in (w2, l1 ++ l2)))
            (fst (let '(w1, l1) := wl in let '(w2, l2) := see_build tr w1 in (w2, l1 ++ l2)))).
  { intros [w1 l1] H. specialize (IH w1). destruct (see_build tr w1) as [w2 l2]. cbn in *. by eapply chain_app. }
  apply Hone. destruct b; first [apply chain_add_edge|apply chain_add_cross|done].
Qed.

Lemma chain_remove_vertices vs w :
  chain w (snd (fst (see_remove_vertices vs w))) (fst (fst (see_remove_vertices vs w))).
Proof.
  revert w. induction vs as [|v vs IH]; intros w; [done|]. cbn [see_remove_vertices].
  case_bool_decide as Hno; [|done].
  match goal with |- context [see_remove_vertices vs ?x] => specialize (IH x); destruct (see_remove_vertices vs x) as [[w2 l] r] end.
  cbn in *. split; [done|]. split; [|done]. intros p c. exact (child_prune1 v w p c Hno).
Qed.

Lemma chain_remove_edge ord o t w :
  chain w (snd (fst (see_remove_edge ord o t w))) (fst (fst (see_remove_edge ord o t w))).
Proof.
  unfold see_remove_edge. destruct (if _ =? o then _ else _) as [rt|]; [|done].
  destruct (tv_visit_bfs _ _ _ _) as [vis r0]. destruct (xs_steps _ _) as [xs|]; [|done].
  destruct r0; try done.
  pose proof (chain_remove_vertices (rev vis.*1) (tv_set_cross (xs_cross xs) w)) as H.
  destruct (see_remove_vertices _ _) as [[w2 l] r2]. cbn in H.
  apply (chain_same _ w) in H; [|done..]. destruct r2; try done. by destruct (xs_leaving xs).
Qed.

(** Before the k-th emission the log holds the emissions before it. *)
Lemma chain_inv w l w' : chain w l w' ->
  (tv_log w' = tv_log w ++ l.*1 /\ forall p c, child w' p c <-> heard_all (child w) (l.*1) p c) /\
  forall l1 x w1 l2, l = l1 ++ (x, w1) :: l2 -> tv_log w1 = tv_log w ++ l1.*1 /\
    forall p c, child w1 p c <-> heard_all (child w) (l1.*1 ++ [x]) p c.
Proof.
  revert w. induction l as [|[y v] l IH]; intros w; cbn.
  - intros [H1 H2]. rewrite app_nil_r. split.
    + done.
    + intros l1 x w1 l2 H. by destruct l1.
  - intros (H1 & H2 & H3). destruct (IH _ H3) as [[H4 H5] H6]. cbn in H4. rewrite H1, <- app_assoc in H4. split.
    + split; [done|]. intros p c. rewrite H5. by apply heard_all_ext.
    + intros l1 x w1 l2 H. destruct l1 as [|z l1]; cbn in H.
      * injection H as -> -> ->. cbn. rewrite app_nil_r. done.
      * injection H as <- H. destruct (H6 _ _ _ _ H) as [H7 H8]. cbn in *. rewrite H7. cbn. rewrite H1, <- app_assoc. split; [done|].
        intros p c. rewrite H8. by apply heard_all_ext.
Qed.

Section slots.
Context {D E : Type} (d0 : D) (einv : E -> E).
Local Notation dg_wf := (dg_wf einv).
Implicit Types (s : gst D E) (g : digraph D E) (w : tview) (tr : list (event + seen D E)).

Lemma see_add_to_view_eq s ne w :
  let '(w', l, r) := see_add_to_view s ne w in add_edge_to_tree_view s ne w = (w', r) /\ chain w l w'.
Proof.
  unfold see_add_to_view, add_edge_to_tree_view.
  assert (Hgo : forall inv notinv,
    let '(w', l, r) := (let '(w1, l1) := see_add_edge inv notinv w in
      if bg_alive (gs_dg s) notinv then
      if bool_decide (2 < bg_degree (gs_dg s) notinv) then
        match obind (get_frame_id s inv) (fun id1 =>
              obind (get_frame_id s notinv) (fun id2 =>
              obind (get_edge s id1 id2) (fun e1 =>
              obind (get_edge s id2 id1) (fun e2 =>
              bfs_trace (gs_dg s)
                (fun e => negb (Nat.eqb (e_id e) (e_id e1)) && negb (Nat.eqb (e_id e) (e_id e2)))
                notinv)))) with
        | Ret tr => let '(w2, l2) := see_build tr w1 in (w2, l1 ++ l2, Ret tt)
        | Throw x => (w1, l1, Throw x)
        | UB => (w1, l1, UB)
        | Fuel => (w1, l1, Fuel)
        end
      else (w1, l1, Ret tt)
    else (w1, l1, UB)) in
    (let w1 := tv_add_edge inv notinv w in
      if bg_alive (gs_dg s) notinv then
      if bool_decide (2 < bg_degree (gs_dg s) notinv) then
        match obind (get_frame_id s inv) (fun id1 =>
              obind (get_frame_id s notinv) (fun id2 =>
              obind (get_edge s id1 id2) (fun e1 =>
              obind (get_edge s id2 id1) (fun e2 =>
              bfs_trace (gs_dg s)
                (fun e => negb (Nat.eqb (e_id e) (e_id e1)) && negb (Nat.eqb (e_id e) (e_id e2)))
                notinv)))) with
        | Ret tr => (build_tree tr w1, Ret tt)
        | Throw x => (w1, Throw x)
        | UB => (w1, UB)
        | Fuel => (w1, Fuel)
        end
      else (w1, Ret tt)
    else (w1, UB)) = (w', r) /\ chain w l w').
  { intros inv notinv. pose proof (chain_add_edge inv notinv w) as Hc.
    assert (Heq : fst (see_add_edge inv notinv w) = tv_add_edge inv notinv w) by done.
    destruct (see_add_edge inv notinv w) as [w1 l1]. cbn [fst snd] in *. subst w1. cbn zeta.
    destruct (bg_alive _ _); [|done]. case_bool_decide; [|done].
    destruct (obind _ _) as [tr| | |]; try done.
    pose proof (see_build_eq tr (tv_add_edge inv notinv w)) as Hb. pose proof (chain_build tr (tv_add_edge inv notinv w)) as Hcb.
    destruct (see_build tr _) as [w2 l2]. cbn in Hb, Hcb. subst w2. split; [done|]. by eapply chain_app. }
  cbn zeta. destruct (tv_vertex_exists w _), (tv_vertex_exists w _); [| | |done].
  - destruct (tv_edge_exists _ _ _) as [[]| | |]; done.
  - apply Hgo.
  - apply Hgo.
Qed.

(** ** Erasing the emissions gives the calls of the model *)

Definition erases {A} (m : @scall D E A) (c : call (gst D E) A) : Prop :=
  forall s, let '(s', tr, r) := m s in c s = (s', events_in tr, r).

Lemma events_inl ev : events_in (D := D) (E := E) (inl <$> ev) = ev.
Proof. induction ev as [|e ev IH]; [done|]. cbn. f_equal. exact IH. Qed.
Lemma events_app tr1 tr2 : events_in (tr1 ++ tr2) = events_in tr1 ++ events_in tr2.
Proof. apply omap_app. Qed.
Lemma events_see i s l : events_in (see_in i s l) = [].
Proof. induction l as [|x l IH]; [done|]. exact IH. Qed.

Lemma erases_lift {A} (c : call (gst D E) A) : erases (slift c) c.
Proof. intros s. unfold slift. destruct (c s) as [[s' ev] r]. by rewrite events_inl. Qed.

Lemma erases_bind {A B} (m : scall A) (k : A -> scall B) c kc :
  erases m c -> (forall a, erases (k a) (kc a)) -> erases (sbind m k) (cbind c kc).
Proof.
  intros Hm Hk s. specialize (Hm s). unfold sbind, cbind. destruct (m s) as [[s1 tr1] r1]. rewrite Hm.
  destruct r1 as [a| | |]; try done. specialize (Hk a s1). destruct (k a s1) as [[s2 tr2] r2]. rewrite Hk.
  by rewrite events_app.
Qed.

Lemma erases_ext {A} (m : scall A) c c' : (forall s, c s = c' s) -> erases m c -> erases m c'.
Proof. intros H Hm s. specialize (Hm s). destruct (m s) as [[s' tr] r]. by rewrite <- H. Qed.

Lemma cbind_assoc {A B C} (m : call (gst D E) A) (k : A -> call (gst D E) B) (h : B -> call (gst D E) C) s :
  cbind (cbind m k) h s = cbind m (fun a => cbind (k a) h) s.
Proof.
  unfold cbind. destruct (m s) as [[s1 ev1] r1]. destruct r1 as [a| | |]; try done.
  destruct (k a s1) as [[s2 ev2] r2]. destruct r2 as [b| | |]; try done.
  destruct (h b s2) as [[s3 ev3] r3]. by rewrite <- app_assoc.
Qed.

Lemma cbind_ext {A B} (m : call (gst D E) A) (k k' : A -> call (gst D E) B) s :
  (forall a s1, k a s1 = k' a s1) -> cbind m k s = cbind m k' s.
Proof. intros H. unfold cbind. destruct (m s) as [[s1 ev1] r1]. destruct r1 as [a| | |]; try done. by rewrite H. Qed.
Lemma cbind_cret {A B} (a : A) (k : A -> call (gst D E) B) s : cbind (cret a) k s = k a s.
Proof. unfold cbind, cret. by destruct (k a s) as [[??]?]. Qed.

Lemma see_views_erases f f' l : (forall i w, let '(w', x, r) := f i w in f' i w = (w', r)) ->
  erases (see_views f l) (for_views f' l).
Proof.
  intros Hf. induction l as [|i l IH]; intros s; cbn; [done|].
  destruct (gs_views s !! i) as [w|]; [|done]. specialize (Hf i w). destruct (f i w) as [[w' x] r]. rewrite Hf.
  destruct r as [[]| | |].
  - specialize (IH (gs_set_view i w' s)). destruct (see_views f l _) as [[s2 y] r2]. rewrite IH.
    by rewrite events_app, events_see.
  - by rewrite events_see.
  - by rewrite events_see.
  - by rewrite events_see.
Qed.

Lemma see_add_views_erases ne :
  erases (fun s => see_views (fun _ w => see_add_to_view s ne w) (gs_subs s) s) (add_edge_to_tree_views ne).
Proof.
  intros s. apply (see_views_erases _ (fun _ w => add_edge_to_tree_view s ne w)).
  intros j w. pose proof (see_add_to_view_eq s ne w) as H. destruct (see_add_to_view _ _ _) as [[??]?]. apply H.
Qed.

(** The body of the loop of removeEdgeFromTreeViews. *)
Definition see_view_remove (ord : viewid -> order) (o t : vid) (i : viewid) w : tview * list sight * outcome unit :=
  match tv_edge_exists w o t with
  | Ret true => see_remove_edge (ord i) o t w
  | Ret false => (w, [], Ret tt)
  | Throw x => (w, [], Throw x)
  | UB => (w, [], UB)
  | Fuel => (w, [], Fuel)
  end.

Lemma see_remove_views_erases ord o t :
  erases (fun s => see_views (see_view_remove ord o t) (gs_subs s) s) (remove_edge_from_tree_views ord o t).
Proof.
  intros s. apply see_views_erases. intros j w. unfold see_view_remove.
  destruct (tv_edge_exists w o t) as [[]| | |]; try done. apply see_remove_edge_eq.
Qed.

Lemma see_add_edge_v_erases o t p : erases (see_add_edge_v einv o t p) (add_edge_v einv o t p).
Proof.
  unfold see_add_edge_v, add_edge_v. apply erases_bind; [apply erases_lift|]. intros [e|]; [apply erases_lift|].
  eapply erases_ext; cycle 1.
  - apply erases_bind; [apply erases_lift|]. intros i. apply erases_bind; [apply see_add_views_erases|].
    intros u. apply erases_lift.
  - intros s. rewrite cbind_assoc. apply cbind_ext. intros _ s1. rewrite cbind_assoc. apply cbind_ext. intros i s2.
    rewrite cbind_assoc. apply cbind_ext. intros _ s3. by rewrite cbind_cret.
Qed.

Lemma see_add_edge_n_erases o t p : erases (see_add_edge_n d0 einv o t p) (add_edge d0 einv o t p).
Proof.
  intros s. unfold see_add_edge_n, add_edge.
  refine (erases_bind _ _ _ _ (erases_lift _) (fun vo => erases_bind _ _ _ _ (erases_lift _) (fun vt => _)) s).
  apply see_add_edge_v_erases.
Qed.

Lemma see_remove_impl_erases ord o t vo vt : erases (see_remove_impl ord o t vo vt) (remove_edge_impl ord o t vo vt).
Proof.
  unfold see_remove_impl, remove_edge_impl. apply erases_bind; [apply erases_lift|]. intros ot.
  apply erases_bind; [apply erases_lift|]. intros tt'. destruct ot as [e1|]; [|apply erases_lift].
  destruct tt' as [e2|]; [|apply erases_lift].
  eapply erases_ext; cycle 1.
  - apply erases_bind; [apply erases_lift|]. intros u. apply (see_remove_views_erases ord vo vt).
  - intros s. rewrite cbind_assoc. apply cbind_ext. intros _ s1. rewrite cbind_assoc. by apply cbind_ext.
Qed.

Lemma see_remove_v_erases ord o t : erases (see_remove_v ord o t) (remove_edge_v ord o t).
Proof.
  apply erases_bind; [apply erases_lift|]. intros fo. apply erases_bind; [apply erases_lift|]. intros ft. apply see_remove_impl_erases.
Qed.

Lemma see_remove_n_erases ord o t : erases (see_remove_n ord o t) (remove_edge ord o t).
Proof.
  apply erases_bind; [apply erases_lift|]. intros fo. apply erases_bind; [apply erases_lift|]. intros ft. apply see_remove_impl_erases.
Qed.

Lemma see_disconnect_loop_erases n ord v : erases (see_disconnect_loop n ord v) (disconnect_loop n ord v).
Proof.
  induction n as [|n IH]; intros s; cbn; (destruct (bg_out (gs_dg s) v) as [|e l]; [done|]); [done|].
  refine (erases_bind _ _ _ _ (see_remove_v_erases _ _ _) (fun _ => IH) s).
Qed.

Lemma see_disconnect_erases ord f : erases (see_disconnect ord f) (disconnect_frame ord f).
Proof.
  apply erases_bind; [apply erases_lift|]. intros v s. apply (see_disconnect_loop_erases _ ord v s).
Qed.

Lemma see_get_tree_v_erases root keep i : erases (see_get_tree_v root keep i) (get_tree_v root keep i).
Proof.
  intros s. unfold see_get_tree_v, get_tree_v, get_tree_into. destruct (gs_views s !! i) as [w|]; [|done].
  destruct (bfs_trace _ _ _) as [tr| | |]; cbn [obind]; try done.
  pose proof (see_build_eq tr (tv_add_root root w)) as Hb. destruct (see_build tr _) as [w' l]. cbn in Hb. subst w'.
  pose proof (erases_lift (if keep then subscribe_tree_view i else cret tt) (gs_set_view i (build_tree tr (tv_add_root root w)) s)) as He.
  destruct (slift _ _) as [[s' l'] r]. rewrite He. by rewrite events_app, events_see.
Qed.

Lemma gsee_erases ord op : erases (gsee d0 einv ord op) (gstep d0 einv ord op).
Proof.
  destruct op; cbn [gsee gstep]; try apply erases_lift.
  - apply see_add_edge_n_erases.
  - apply see_add_edge_v_erases.
  - apply see_remove_n_erases.
  - apply see_remove_v_erases.
  - apply see_disconnect_erases.
  - apply erases_bind; [apply erases_lift|]. intros v. apply see_get_tree_v_erases.
  - apply see_get_tree_v_erases.
Qed.

Lemma same_calls ord op s s' tr r : gsee d0 einv ord op s = (s', tr, r) -> gstep d0 einv ord op s = (s', events_in tr, r).
Proof. intros H. pose proof (gsee_erases ord op s) as He. by rewrite H in He. Qed.

(** ** A listener that follows the signals agrees with the tree at every emission *)

Definition hears i s tr s' : Prop := forall w, gs_views s !! i = Some w ->
  (exists w', gs_views s' !! i = Some w' /\ tv_log w' = tv_log w ++ sigs_in i tr /\
     forall p c, child w' p c <-> heard_all (child w) (sigs_in i tr) p c) /\
  forall l1 x st l2, tr = l1 ++ inr (Seen i x st) :: l2 -> exists w1, gs_views st !! i = Some w1 /\
    tv_log w1 = tv_log w ++ sigs_in i l1 /\ forall p c, child w1 p c <-> heard_all (child w) (sigs_in i l1 ++ [x]) p c.

Lemma sigs_app i tr1 tr2 : sigs_in i (tr1 ++ tr2) = sigs_in i tr1 ++ sigs_in i tr2.
Proof. apply omap_app. Qed.
Lemma sigs_inl i ev : sigs_in (D := D) (E := E) i (inl <$> ev) = [].
Proof. induction ev as [|e ev IH]; [done|]. exact IH. Qed.
Lemma sigs_see i s l : sigs_in i (see_in i s l) = l.*1.
Proof. induction l as [|x l IH]; [done|]. cbn. rewrite decide_True by done. f_equal. exact IH. Qed.
Lemma sigs_see_ne i j s l : i <> j -> sigs_in i (see_in j s l) = [].
Proof. intros Hne. induction l as [|x l IH]; [done|]. cbn. rewrite decide_False by done. exact IH. Qed.

Lemma hears_app i s tr1 s1 tr2 s2 : hears i s tr1 s1 -> hears i s1 tr2 s2 -> hears i s (tr1 ++ tr2) s2.
Proof.
  intros Ha Hb w Hw. destruct (Ha w Hw) as [(w1 & Hw1 & Hl1 & Hc1) Hm1].
  destruct (Hb w1 Hw1) as [(w2 & Hw2 & Hl2 & Hc2) Hm2]. split.
  - exists w2. split; [done|]. rewrite sigs_app, Hl2, Hl1, <- app_assoc. split; [done|].
    intros p c. rewrite Hc2, heard_all_app. by apply heard_all_ext.
  - intros l1 x st l2 [(l & -> & ->)|(l & -> & ->)]%app_mid.
    + by eapply Hm1.
    + destruct (Hm2 _ _ _ _ eq_refl) as (v & Hv & Hlv & Hcv). exists v. split; [done|].
      rewrite Hlv, Hl1, sigs_app, <- !app_assoc. split; [done|].
      intros p c. rewrite Hcv, (heard_all_app _ (sigs_in i tr1)). by apply heard_all_ext.
Qed.

(** Nothing emitted, and the view keeps its tree and log. *)
Lemma hears_quiet i s ev s' : (forall w, gs_views s !! i = Some w -> exists w', gs_views s' !! i = Some w' /\
    tv_log w' = tv_log w /\ tv_tree w' = tv_tree w) -> hears i s (inl <$> ev) s'.
Proof.
  intros H w Hw. destruct (H w Hw) as (w' & Hw' & Hl & Ht). split.
  - exists w'. rewrite sigs_inl, app_nil_r. split; [done|]. split; [done|]. intros p c. unfold child. by rewrite Ht.
  - intros l1 x st l2 Heq. exfalso. assert (Hin : inr (Seen i x st) ∈ @fmap list _ event (event + seen D E) inl ev).
    { rewrite Heq. apply elem_of_app. right. left. }
    apply elem_of_list_fmap in Hin as (? & ? & _). done.
Qed.

Lemma hears_same i s ev s' : gs_views s' !! i = gs_views s !! i -> hears i s (inl <$> ev) s'.
Proof. intros H. apply hears_quiet. intros w Hw. exists w. by rewrite H. Qed.

Lemma see_in_app i s l l1 m l2 : see_in i s l = l1 ++ m :: l2 ->
  exists k1 x w1 k2, l = k1 ++ (x, w1) :: k2 /\ l1 = see_in i s k1 /\ m = inr (Seen i x (gs_set_view i w1 s)).
Proof.
  revert l1. induction l as [|[x w1] l IH]; intros l1 H; [by destruct l1|].
  destruct l1 as [|z l1]; cbn in H.
  - injection H as <- _. exists [], x, w1, l. done.
  - injection H as <- H. destruct (IH _ H) as (k1 & y & v & k2 & -> & -> & ->). exists ((x, w1) :: k1), y, v, k2. done.
Qed.

Lemma hears_chain i s w l w' : gs_views s !! i = Some w -> chain w l w' -> hears i s (see_in i s l) (gs_set_view i w' s).
Proof.
  intros Hw [[H1 H2] H3]%chain_inv w0 Hw0. assert (w0 = w) as -> by congruence. split.
  - exists w'. rewrite sigs_see. cbn. rewrite lookup_insert. done.
  - intros l1 x st l2 (k1 & y & v & k2 & -> & -> & Hm)%see_in_app. injection Hm as -> ->.
    destruct (H3 _ _ _ _ eq_refl) as [H4 H5]. exists v. cbn. rewrite lookup_insert, sigs_see. done.
Qed.

Lemma hears_chain_ne i j s l w' : i <> j -> hears i s (see_in j s l) (gs_set_view j w' s).
Proof.
  intros Hne w Hw. rewrite sigs_see_ne by done. rewrite app_nil_r. split.
  - exists w. cbn. by rewrite lookup_insert_ne.
  - intros l1 x st l2 (k1 & y & v & k2 & _ & _ & Hm)%see_in_app. by injection Hm as -> _ _.
Qed.

Definition hears_all {A} (m : @scall D E A) : Prop :=
  forall i s, let '(s', tr, r) := m s in hears i s tr s'.

Lemma hears_bind {A B} (m : scall A) (k : A -> scall B) : hears_all m -> (forall a, hears_all (k a)) -> hears_all (sbind m k).
Proof.
  intros Hm Hk i s. specialize (Hm i s). unfold sbind. destruct (m s) as [[s1 tr1] r1]. destruct r1 as [a| | |]; try done.
  specialize (Hk a i s1). destruct (k a s1) as [[s2 tr2] r2]. by eapply hears_app.
Qed.

Lemma hears_lift {A} (c : call (gst D E) A) : (forall s, gs_views (fst (fst (c s))) = gs_views s) -> hears_all (slift c).
Proof.
  intros H i s. unfold slift. specialize (H s). destruct (c s) as [[s' ev] r]. cbn in H. apply hears_same. by rewrite H.
Qed.

Lemma hears_views f l : (forall i w, let '(w', x, r) := f i w in chain w x w') -> hears_all (see_views f l).
Proof.
  intros Hf i. induction l as [|j l IH]; intros s; cbn; [by apply (hears_same i s [] s)|].
  destruct (gs_views s !! j) as [w|] eqn:Hw; [|by apply (hears_same i s [] s)].
  specialize (Hf j w). destruct (f j w) as [[w' x] r].
  assert (Hone : hears i s (see_in j s x) (gs_set_view j w' s)).
  { destruct (decide (i = j)) as [->|Hne]; [by eapply hears_chain|by apply hears_chain_ne]. }
  destruct r as [[]| | |]; try done.
  specialize (IH (gs_set_view j w' s)). destruct (see_views f l _) as [[s2 y] r2]. by eapply hears_app.
Qed.

Lemma add_edge_v_hears o t p : hears_all (see_add_edge_v einv o t p).
Proof.
  unfold see_add_edge_v. apply hears_bind; [by apply hears_lift|]. intros [e|].
  - apply hears_lift. intros s. unfold cbind, cread. by destruct (get_frame_id s o); [destruct (get_frame_id s t)|..].
  - apply hears_bind.
    + apply hears_lift. intros s. unfold cbind, cread, cmodify, cret. by destruct (bg_alive (gs_dg s) t).
    + intros i. apply hears_bind.
      * intros j s. apply hears_views. intros k w. pose proof (see_add_to_view_eq s (ERec i o t p) w) as H.
        destruct (see_add_to_view _ _ _) as [[??]?]. apply H.
      * intros _. apply hears_lift. intros s. unfold cbind, cread. by destruct (get_frame_id s o); [destruct (get_frame_id s t)|..].
Qed.

Lemma add_vertex_views f d s : gs_views (fst (fst (add_vertex f d s))) = gs_views s.
Proof. unfold add_vertex. by destruct (bg_add_vertex f d (gs_dg s)). Qed.

Lemma add_edge_n_hears o t p : hears_all (see_add_edge_n d0 einv o t p).
Proof.
  intros i s. unfold see_add_edge_n. cbn zeta.
  assert (Hmk : forall f v, hears_all (slift (if v =? null_vertex then add_vertex f d0 else cret v))).
  { intros f v. apply hears_lift. intros s0. destruct (v =? null_vertex); [apply add_vertex_views|done]. }
  refine (hears_bind _ _ (Hmk _ _) (fun vo => hears_bind _ _ (Hmk _ _) (fun vt => _)) i s). apply add_edge_v_hears.
Qed.

Lemma boost_remove_views e s : gs_views (fst (fst (boost_remove_edge e s))) = gs_views s.
Proof. unfold boost_remove_edge. by destruct (bg_remove_edge e (gs_dg s)). Qed.

Lemma remove_impl_hears ord o t vo vt : hears_all (see_remove_impl ord o t vo vt).
Proof.
  unfold see_remove_impl. apply hears_bind; [by apply hears_lift|]. intros ot. apply hears_bind; [by apply hears_lift|]. intros to.
  destruct ot as [e1|]; [|by apply hears_lift]. destruct to as [e2|]; [|by apply hears_lift].
  apply hears_bind.
  - apply hears_lift. intros s. unfold cbind, cnotify. pose proof (boost_remove_views (e_id e1) s) as H1.
    destruct (boost_remove_edge (e_id e1) s) as [[s1 ev1] [[]| | |]]; try done. cbn in H1.
    pose proof (boost_remove_views (e_id e2) s1) as H2.
    destruct (boost_remove_edge (e_id e2) s1) as [[s2 ev2] r2]. cbn in *. congruence.
  - intros _ i s. apply (hears_views (see_view_remove ord vo vt)). intros j w. unfold see_view_remove.
    destruct (tv_edge_exists w vo vt) as [[]| | |]; try done.
    pose proof (chain_remove_edge (ord j) vo vt w) as H. by destruct (see_remove_edge _ _ _ _) as [[??]?].
Qed.

Lemma remove_v_hears ord o t : hears_all (see_remove_v ord o t).
Proof.
  apply hears_bind; [by apply hears_lift|]. intros fo. apply hears_bind; [by apply hears_lift|]. intros ft. apply remove_impl_hears.
Qed.
Lemma remove_n_hears ord o t : hears_all (see_remove_n ord o t).
Proof.
  apply hears_bind; [by apply hears_lift|]. intros fo. apply hears_bind; [by apply hears_lift|]. intros ft. apply remove_impl_hears.
Qed.

Lemma disconnect_loop_hears n ord v : hears_all (see_disconnect_loop n ord v).
Proof.
  induction n as [|n IH]; intros i s; cbn; (destruct (bg_out (gs_dg s) v) as [|e l]; [by apply (hears_same i s [] s)|]).
  - by apply (hears_same i s [] s).
  - exact (hears_bind _ _ (remove_v_hears _ _ _) (fun _ => IH) i s).
Qed.

Lemma child_add_root root w p c : child (tv_add_root root w) p c <-> child w p c.
Proof.
  unfold child, tv_add_root, tv_rel. cbn. destruct (decide (p = root)) as [->|Hne].
  - rewrite lookup_insert. split.
    + intros (r & [= <-] & Hc). cbn in Hc. destruct (tv_tree w !! root) as [r|] eqn:Hr; cbn in Hc; [eauto|by apply elem_of_nil in Hc].
    + intros (r & Hr & Hc). eexists. split; [done|]. cbn. by rewrite Hr.
  - by rewrite lookup_insert_ne.
Qed.

Lemma get_tree_v_hears root keep i : hears_all (see_get_tree_v root keep i).
Proof.
  intros j s. unfold see_get_tree_v. destruct (gs_views s !! i) as [w|] eqn:Hw; [|by apply (hears_same j s [] s)].
  destruct (bfs_trace _ _ _) as [tr| | |]; try by apply (hears_same j s [] s).
  pose proof (chain_build tr (tv_add_root root w)) as Hc. destruct (see_build tr _) as [w' l]. cbn in Hc.
  apply (chain_same _ w) in Hc; [|done|intros p c; symmetry; apply child_add_root].
  assert (Hone : hears j s (see_in i s l) (gs_set_view i w' s)).
  { destruct (decide (j = i)) as [->|Hne]; [by eapply hears_chain|by apply hears_chain_ne]. }
  destruct keep; cbn [slift]; unfold slift, subscribe_tree_view, cret; cbn [gs_views gs_set_view].
  - rewrite lookup_insert. destruct (tv_pub w') eqn:Hp; cbn.
    + eapply hears_app; [done|]. by apply (hears_same j _ []).
    + eapply hears_app; [done|]. apply (hears_quiet j _ []). cbn. intros v Hv.
      destruct (decide (j = i)) as [->|Hne].
      * rewrite lookup_insert in *. injection Hv as <-. eexists. done.
      * rewrite !lookup_insert_ne in * by done. exists v. done.
  - cbn. eapply hears_app; [done|]. by apply (hears_same j _ []).
Qed.

Definition views_kept {A} (c : call (gst D E) A) : Prop := forall s, gs_views (fst (fst (c s))) = gs_views s.
Lemma kept_bind {A B} (c : call (gst D E) A) (k : A -> call (gst D E) B) :
  views_kept c -> (forall a, views_kept (k a)) -> views_kept (cbind c k).
Proof.
  intros Hc Hk s. specialize (Hc s). unfold cbind. destruct (c s) as [[s1 ev1] [a| | |]]; cbn in Hc; try done.
  specialize (Hk a s1). destruct (k a s1) as [[s2 ev2] r2]. cbn in *. congruence.
Qed.
Lemma kept_read {A} (f : gst D E -> outcome A) : views_kept (cread f).
Proof. done. Qed.

Lemma set_prop_v_kept o t p : views_kept (set_edge_property_v einv o t p).
Proof.
  apply kept_bind; [done|]. intros [e|].
  - apply kept_bind; [done|]. intros _. apply kept_bind; [done|]. intros [e'|]; [|done].
    apply kept_bind; [done|]. intros _. apply kept_bind; [done|]. intros fo. by apply kept_bind.
  - apply kept_bind; [done|]. intros fo. by apply kept_bind.
Qed.

Definition view_only (op : gop D E) : Prop :=
  match op with
  | ONewView _ | OGetTree _ _ _ | OGetTreeV _ _ _ | OUnsubscribeTreeView _ | OViewUnsubscribe _ | ODestroyView _
  | OMoveView _ _ | OCopyView _ _ | OSlotView _ _ _ _ => True
  | _ => False
  end.

Lemma gstep_tree_kept i ord op s s' ev r w : keeps_view i op -> ~ asks_tree i op -> view_only op ->
  gstep d0 einv ord op s = (s', ev, r) -> gs_views s !! i = Some w ->
  exists w', gs_views s' !! i = Some w' /\ tv_log w' = tv_log w /\ tv_tree w' = tv_tree w.
Proof.
  intros Hk Ha Hv H Hw.
  assert (Hsame : gs_views s' !! i = gs_views s !! i -> exists w', gs_views s' !! i = Some w' /\ tv_log w' = tv_log w /\ tv_tree w' = tv_tree w).
  { intros ->. eauto. }
  destruct op as [| | | | | | | | | | |j|rf keep j|root keep j|j|j|j|j k|j k|j k on c]; try done; cbn [gstep keeps_view asks_tree] in *.
  - apply Hsame. unfold new_view in H. destruct (gs_views s !! j); injection H as <- _ _; [done|]. cbn. by rewrite lookup_insert_ne.
  - apply Hsame. unfold get_tree, cbind, cread in H. destruct (get_vertex s rf) as [root| | |]; [|by injection H as <- _ _..].
    unfold get_tree_v in H. destruct (gs_views s !! j) as [v|]; [|by injection H as <- _ _].
    destruct (get_tree_into s root v) as [w'| | |]; [|by injection H as <- _ _..].
    destruct keep; unfold subscribe_tree_view, cret in H; cbn in H.
    + rewrite lookup_insert in H. destruct (tv_pub w'); injection H as <- _ _; cbn; by rewrite !lookup_insert_ne.
    + injection H as <- _ _. cbn. by rewrite lookup_insert_ne.
  - apply Hsame. unfold get_tree_v in H. destruct (gs_views s !! j) as [v|]; [|by injection H as <- _ _].
    destruct (get_tree_into s root v) as [w'| | |]; [|by injection H as <- _ _..].
    destruct keep; unfold subscribe_tree_view, cret in H; cbn in H.
    + rewrite lookup_insert in H. destruct (tv_pub w'); injection H as <- _ _; cbn; by rewrite !lookup_insert_ne.
    + injection H as <- _ _. cbn. by rewrite lookup_insert_ne.
  - apply Hsame. by injection H as <- _ _.
  - unfold view_unsubscribe in H. destruct (gs_views s !! j) as [v|] eqn:Hj; [|injection H as <- _ _; eauto].
    destruct (tv_pub v); [|injection H as <- _ _; eauto]. cbn in H. injection H as <- _ _. cbn.
    destruct (decide (i = j)) as [->|Hne]; [|apply Hsame; cbn; by rewrite lookup_insert_ne].
    rewrite lookup_insert. assert (v = w) as -> by congruence. eexists. done.
  - apply Hsame. unfold destroy_view in H. destruct (gs_views s !! j) as [v|] eqn:Hj; [|by injection H as <- _ _].
    destruct (tv_pub v); cbn in H; injection H as <- _ _; cbn; by rewrite lookup_delete_ne.
  - destruct Hk as [Hij Hik]. apply Hsame. unfold move_view in H. destruct (gs_views s !! j) as [v|] eqn:Hj; [|by injection H as <- _ _].
    destruct (gs_views s !! k) as [|] eqn:Hkk; [by injection H as <- _ _|].
    assert (Hjk : j <> k) by congruence.
    destruct (tv_pub v); unfold cbind, cmodify, unsubscribe_tree_view, subscribe_tree_view, cret in H; cbn in H;
      repeat (rewrite ?lookup_insert in H; rewrite ?(lookup_insert_ne _ j k), ?(lookup_insert_ne _ k j) in H by done; cbn in H);
      injection H as <- _ _; cbn; by rewrite ?lookup_insert_ne.
  - apply Hsame. unfold copy_view in H. destruct (gs_views s !! j) as [v|] eqn:Hj; [|by injection H as <- _ _].
    destruct (gs_views s !! k) as [|] eqn:Hkk; injection H as <- _ _; [done|]. cbn. by rewrite lookup_insert_ne.
  - unfold slot_view in H. destruct (gs_views s !! j) as [v|] eqn:Hj; [|injection H as <- _ _; eauto].
    injection H as <- _ _. cbn. destruct (decide (i = j)) as [->|Hne]; [|apply Hsame; cbn; by rewrite lookup_insert_ne].
    rewrite lookup_insert. assert (v = w) as -> by congruence. eexists. split; [done|]. by destruct k.
Qed.

Lemma gsee_hears i ord op s s' tr r : keeps_view i op -> gsee d0 einv ord op s = (s', tr, r) -> hears i s tr s'.
Proof.
  intros Hk H.
  assert (Hall : hears_all (gsee d0 einv ord op) -> hears i s tr s') by (intros Ha; specialize (Ha i s); by rewrite H in Ha).
  assert (Hquiet : gsee d0 einv ord op = slift (gstep d0 einv ord op) -> view_only op -> ~ asks_tree i op -> hears i s tr s').
  { intros Heq Hv Ha. rewrite Heq in H. unfold slift in H. destruct (gstep d0 einv ord op s) as [[s1 ev] r1] eqn:Hg.
    injection H as -> <- ->. apply hears_quiet. intros w Hw. by eapply gstep_tree_kept. }
  destruct op; cbn [gsee keeps_view] in *.
  - apply Hall, hears_lift, kept_bind; [|done]. intros s0. unfold add_frame, emplace_frame. destruct (bg_vertex _ _ =? _); [|done]. apply add_vertex_views.
  - apply Hall, hears_lift, kept_bind; [|done]. intros s0. unfold emplace_frame. destruct (bg_vertex _ _ =? _); [|done]. apply add_vertex_views.
  - apply Hall, add_edge_n_hears.
  - apply Hall, add_edge_v_hears.
  - apply Hall, remove_n_hears.
  - apply Hall, remove_v_hears.
  - apply Hall, hears_lift. cbn [gstep]. apply kept_bind; [done|]. intros vo. apply kept_bind; [done|]. intros vt. apply set_prop_v_kept.
  - apply Hall, hears_lift, set_prop_v_kept.
  - apply Hall, hears_bind; [by apply hears_lift|]. intros v j s0. apply (disconnect_loop_hears _ ord v j s0).
  - apply Hall, hears_lift. cbn [gstep]. apply kept_bind; [done|]. intros vo. by apply kept_bind.
  - apply Hall, hears_lift. intros s0. cbn [gstep]. unfold set_frame_data. by destruct (bg_alive _ _).
  - apply Hquiet; try done. cbn. tauto.
  - apply Hall, hears_bind; [by apply hears_lift|]. intros v. apply get_tree_v_hears.
  - apply Hall, get_tree_v_hears.
  - apply Hquiet; try done. cbn. tauto.
  - apply Hquiet; try done. cbn. tauto.
  - apply Hquiet; try done. cbn. tauto.
  - apply Hquiet; try done. cbn. tauto.
  - apply Hquiet; try done. cbn. tauto.
  - apply Hquiet; try done. cbn. tauto.
Qed.

(** ** The phases of a call on one edge *)

Lemma sbind_inv {A B} (m : scall A) (k : A -> scall B) s s' tr r : sbind m k s = (s', tr, r) ->
  (exists s1 tr1 a tr2, m s = (s1, tr1, Ret a) /\ k a s1 = (s', tr2, r) /\ tr = tr1 ++ tr2) \/
  (exists rm, m s = (s', tr, rm) /\ forall a, rm <> Ret a).
Proof.
  unfold sbind. destruct (m s) as [[s1 tr1] r1]. destruct r1 as [a|x| |].
  - destruct (k a s1) as [[s2 tr2] r2] eqn:Hk. intros [= <- <- <-]. left. eauto 10.
  - intros [= <- <- <-]. right. eauto.
  - intros [= <- <- <-]. right. eauto.
  - intros [= <- <- <-]. right. eauto.
Qed.

Lemma slift_inv {A} (c : call (gst D E) A) s s' tr r : slift c s = (s', tr, r) -> exists ev, c s = (s', ev, r) /\ tr = inl <$> ev.
Proof. unfold slift. destruct (c s) as [[s1 ev] r1]. intros [= <- <- <-]. eauto. Qed.

(** The loop over the views is that of an added or of a removed edge. *)
Definition loop_of (ord : viewid -> order) s s1 (f : viewid -> tview -> tview * list sight * outcome unit) : Prop :=
  (exists o t p g0, o <> t /\ dg_wf g0 /\ bg_alive g0 o = true /\ bg_alive g0 t = true /\ bg_edge g0 o t = None /\
     gs_dg s1 = dg_add2 einv o t p g0 /\ (forall w, in_sync (gs_dg s) w -> in_sync g0 w) /\
     f = fun _ w => see_add_to_view s1 (ERec (dg_nexte g0) o t p) w) \/
  (exists o t, f = see_view_remove ord o t /\ forall v, bg_alive (gs_dg s1) v = bg_alive (gs_dg s) v).

Definition phased (ord : viewid -> order) s s' tr : Prop :=
  (exists ev, tr = inl <$> ev) \/
  exists evA s1 f sl rv evB, tr = (inl <$> evA) ++ sl ++ (inl <$> evB) /\
    see_views f (gs_subs s) s1 = (s', sl, rv) /\ gs_views s1 = gs_views s /\ gs_subs s1 = gs_subs s /\
    loop_of ord s s1 f /\ (forall o t e, EvEdgeAdded o t e ∉ evA) /\ (forall o t, EvEdgeRemoved o t ∉ evB).

Lemma add_edge_v_phased o t p s s' tr r : see_add_edge_v einv o t p s = (s', tr, r) ->
  (exists ev, tr = inl <$> ev) \/
  exists s1 sl rv evB, tr = sl ++ (inl <$> evB) /\
    see_views (fun _ w => see_add_to_view s1 (ERec (dg_nexte (gs_dg s)) o t p) w) (gs_subs s) s1 = (s', sl, rv) /\
    gs_views s1 = gs_views s /\ gs_subs s1 = gs_subs s /\
    bg_alive (gs_dg s) o = true /\ bg_alive (gs_dg s) t = true /\ bg_edge (gs_dg s) o t = None /\
    gs_dg s1 = dg_add2 einv o t p (gs_dg s) /\ (forall a b, EvEdgeRemoved a b ∉ evB).
Proof.
  unfold see_add_edge_v. intros [(s1 & tr1 & a & tr2 & H1 & H2 & ->)|(rm & H1 & _)]%sbind_inv.
  2:{ apply slift_inv in H1 as (ev & _ & ->). left. eauto. }
  apply slift_inv in H1 as (ev1 & H1 & ->). unfold cread in H1. injection H1 as <- <- Hf. cbn [fmap list_fmap app].
  destruct a as [e|].
  { apply slift_inv in H2 as (ev & _ & ->). left. eauto. }
  assert (Ho : bg_alive (gs_dg s) o = true /\ bg_edge (gs_dg s) o t = None).
  { unfold find_edge in Hf. destruct (bg_alive (gs_dg s) o); [|done]. split; [done|]. by injection Hf. }
  destruct Ho as [Ho He].
  apply sbind_inv in H2 as [(s2 & tr3 & i & tr4 & H3 & H4 & ->)|(rm & H3 & _)].
  2:{ apply slift_inv in H3 as (ev & _ & ->). left. eauto. }
  apply slift_inv in H3 as (ev3 & H3 & ->). unfold cbind, cread, cmodify, cret in H3.
  destruct (bg_alive (gs_dg s) t) eqn:Ht; [|done]. cbn in H3. injection H3 as <- <- <-. cbn [fmap list_fmap app].
  right. apply sbind_inv in H4 as [(s3 & tr5 & [] & tr6 & H5 & H6 & ->)|(rm & H5 & _)].
  - apply slift_inv in H6 as (evB & H6 & ->).
    assert (Hev : s' = s3 /\ forall a b, EvEdgeRemoved a b ∉ evB).
    { unfold cbind, cread, cnotify in H6. destruct (get_frame_id s3 o); [destruct (get_frame_id s3 t)|..]; cbn in H6;
        injection H6 as -> <- _; (split; [done|]); intros ? ?; set_solver. }
    destruct Hev as [-> Hev]. eexists _, tr5, _, evB. split; [done|]. split; [exact H5|]. done.
  - eexists _, tr4, _, []. cbn [fmap list_fmap]. rewrite app_nil_r. split; [done|]. split; [exact H5|].
    do 6 (split; [done|]). intros ? ?. apply not_elem_of_nil.
Qed.

(** A frame made on demand: the graph stays well formed and views stay in step. *)
Lemma make_frame f v0 s s' tr (r : outcome vid) : dg_wf (gs_dg s) -> v0 = bg_vertex (gs_dg s) f ->
  slift (if v0 =? null_vertex then add_vertex f d0 else cret v0) s = (s', tr, r) ->
  exists ev v, tr = inl <$> ev /\ (forall o t e, EvEdgeAdded o t e ∉ ev) /\ r = Ret v /\ dg_map (gs_dg s') !! f = Some v /\
    gs_subs s' = gs_subs s /\ gs_views s' = gs_views s /\ dg_wf (gs_dg s') /\
    (forall w, in_sync (gs_dg s) w -> in_sync (gs_dg s') w) /\
    (forall f', f' <> f -> dg_map (gs_dg s') !! f' = dg_map (gs_dg s) !! f').
Proof.
  intros Hwf -> (ev & H & ->)%slift_inv.
  destruct (Nat.eqb_spec (bg_vertex (gs_dg s) f) null_vertex) as [Hn|Hn].
  - rewrite (bg_vertex_null einv) in Hn by done. unfold add_vertex in H.
    assert (Hl : lstep einv (gs_dg s) [EvFrameAdded f] (fst (bg_add_vertex f d0 (gs_dg s)))) by by constructor.
    pose proof (lstep_wf einv _ _ _ Hwf Hl) as Hwf'.
    assert (Hsy : forall w, in_sync (gs_dg s) w -> in_sync (fst (bg_add_vertex f d0 (gs_dg s))) w).
    { intros w Hs. by apply (keep_sync einv (gs_dg s) _ _ w Hwf Hl). }
    clear Hl.
    unfold bg_add_vertex in *. rewrite Hn in H, Hwf', Hsy. cbn in H, Hwf', Hsy. injection H as <- <- <-.
    eexists _, _. split; [done|]. split; [intros ? ? ?; set_solver|]. split; [done|]. cbn. rewrite lookup_insert.
    do 5 (split; [done|]). intros f' Hf'. by rewrite lookup_insert_ne.
  - injection H as <- <- <-. exists [], (bg_vertex (gs_dg s) f). split; [done|]. split; [intros ? ? ?; apply not_elem_of_nil|].
    split; [done|]. split; [|done]. unfold bg_vertex in *. by destruct (dg_map (gs_dg s) !! f).
Qed.

Lemma add_edge_n_phased (ord : viewid -> order) o t p s s' tr r : o <> t -> see_add_edge_n d0 einv o t p s = (s', tr, r) ->
  dg_wf (gs_dg s) -> phased ord s s' tr.
Proof.
  intros Hot H Hwf. unfold see_add_edge_n in H. cbn zeta in H.
  apply sbind_inv in H as [(s1 & tr1 & vo & tr2 & H1 & H2 & ->)|(rm & H1 & _)].
  2:{ apply slift_inv in H1 as (ev & _ & ->). left. eauto. }
  apply make_frame in H1 as (ev1 & v & -> & Hev1 & [= <-] & Hmo & Hs1 & Hv1 & Hw1 & Hy1 & Hm1); [|done..].
  apply sbind_inv in H2 as [(s2 & tr3 & vt & tr4 & H3 & H4 & ->)|(rm & H3 & _)].
  2:{ apply slift_inv in H3 as (ev & _ & ->). left. exists (ev1 ++ ev). by rewrite fmap_app. }
  apply make_frame in H3 as (ev3 & v & -> & Hev3 & [= <-] & Hmt & Hs2 & Hv2 & Hw2 & Hy2 & Hm2); [|done|].
  2:{ unfold bg_vertex. by rewrite Hm1. }
  apply add_edge_v_phased in H4 as [(ev & ->)|(s3 & sl & rv & evB & -> & H5 & H6 & H7 & H8 & H9 & H10 & H11 & H12)].
  { left. exists (ev1 ++ ev3 ++ ev). by rewrite !fmap_app. }
  right. exists (ev1 ++ ev3), s3. eexists _, sl, rv, evB. split; [by rewrite fmap_app, <- app_assoc|].
  split; [rewrite <- Hs1, <- Hs2; exact H5|]. split; [congruence|]. split; [congruence|]. split; [|split; [|done]].
  - left. exists vo, vt, p, (gs_dg s2). split.
    { intros ->. apply Hot. eapply (wf_map_inj einv (gs_dg s2)); [done| |exact Hmt]. by rewrite Hm2. }
    split; [done|]. do 4 (split; [done|]). split; [auto|done].
  - intros a b e [?|?]%elem_of_app; [by eapply Hev1|by eapply Hev3].
Qed.

Lemma boost_remove_verts e s s' ev r : boost_remove_edge e s = (s', ev, r) ->
  dg_verts (gs_dg s') = dg_verts (gs_dg s) /\ gs_subs s' = gs_subs s /\ gs_views s' = gs_views s /\ ev = [].
Proof.
  unfold boost_remove_edge, bg_remove_edge. destruct (bg_erec (gs_dg s) e); by intros [= <- <- <-].
Qed.

(** Removing an edge: the vertices stay; one loop over the views. *)
Definition rm_steps (ord : viewid -> order) s s' tr : Prop :=
  (forall v, bg_alive (gs_dg s') v = bg_alive (gs_dg s) v) /\ gs_subs s' = gs_subs s /\
  ((exists ev, tr = inl <$> ev /\ gs_views s' = gs_views s) \/
   exists evA s1 o t sl rv, tr = (inl <$> evA) ++ sl /\ see_views (see_view_remove ord o t) (gs_subs s) s1 = (s', sl, rv) /\
     gs_views s1 = gs_views s /\ gs_subs s1 = gs_subs s /\ (forall v, bg_alive (gs_dg s1) v = bg_alive (gs_dg s) v) /\
     (forall a b e, EvEdgeAdded a b e ∉ evA)).

Lemma rm_none ord s (ev : list event) : rm_steps ord s s (inl <$> ev).
Proof. split; [done|]. split; [done|]. left. eauto. Qed.

Lemma see_views_frame f l : forall s s' tr r, see_views f l s = (s', tr, r) -> gs_dg s' = gs_dg s /\ gs_subs s' = gs_subs s.
Proof.
  induction l as [|j l IH]; intros s s' tr r; cbn [see_views]; [by intros [= <- _ _]|].
  destruct (gs_views s !! j) as [w|]; [|by intros [= <- _ _]]. destruct (f j w) as [[w' x] r1].
  destruct r1; [|by intros [= <- _ _]..]. destruct (see_views f l (gs_set_view j w' s)) as [[s2 y] r2] eqn:Hr.
  intros [= <- _ _]. by apply IH in Hr.
Qed.

Lemma remove_impl_steps ord o t vo vt s s' tr r : see_remove_impl ord o t vo vt s = (s', tr, r) -> rm_steps ord s s' tr.
Proof.
  unfold see_remove_impl. intros [(s1 & tr1 & ot & tr2 & H1 & H2 & ->)|(rm & H1 & _)]%sbind_inv.
  2:{ apply slift_inv in H1 as (ev & H1 & ->). unfold cread in H1. injection H1 as <- _ _. apply rm_none. }
  apply slift_inv in H1 as (ev1 & H1 & ->). unfold cread in H1. injection H1 as <- <- _. cbn [fmap list_fmap app].
  apply sbind_inv in H2 as [(s2 & tr3 & to & tr4 & H3 & H4 & ->)|(rm & H3 & _)].
  2:{ apply slift_inv in H3 as (ev & H3 & ->). unfold cread in H3. injection H3 as <- _ _. apply rm_none. }
  apply slift_inv in H3 as (ev1 & H3 & ->). unfold cread in H3. injection H3 as <- <- _. cbn [fmap list_fmap app].
  destruct ot as [e1|]; cycle 1.
  { apply slift_inv in H4 as (ev & H4 & ->). unfold cread in H4. injection H4 as <- _ _. apply rm_none. }
  destruct to as [e2|]; cycle 1.
  { apply slift_inv in H4 as (ev & H4 & ->). unfold cread in H4. injection H4 as <- _ _. apply rm_none. }
  assert (Hrm : forall t1 ev r1, (boost_remove_edge (e_id e1) ;;; cnotify (EvEdgeRemoved o t) ;;; boost_remove_edge (e_id e2)) s = (t1, ev, r1) ->
    dg_verts (gs_dg t1) = dg_verts (gs_dg s) /\ gs_subs t1 = gs_subs s /\ gs_views t1 = gs_views s /\ (r1 = Ret tt -> ev = [EvEdgeRemoved o t])).
  { intros t1 ev r1 H. unfold cbind, cnotify in H.
    destruct (boost_remove_edge (e_id e1) s) as [[u1 x1] r2] eqn:B1. apply boost_remove_verts in B1 as (A1 & A2 & A3 & ->).
    destruct r2; [|by injection H as <- <- <-..]. cbn in H.
    destruct (boost_remove_edge (e_id e2) u1) as [[u2 x2] r3] eqn:B2. apply boost_remove_verts in B2 as (A4 & A5 & A6 & ->).
    injection H as <- <- <-. rewrite A4, A5, A6. done. }
  apply sbind_inv in H4 as [(s3 & tr5 & [] & tr6 & H5 & H6 & ->)|(rm & H5 & _)].
  2:{ apply slift_inv in H5 as (ev & H5 & ->). apply Hrm in H5 as (A1 & A2 & A3 & _). split; [intros v; by apply bg_alive_verts|].
      split; [done|]. left. eauto. }
  apply slift_inv in H5 as (evA & H5 & ->). apply Hrm in H5 as (A1 & A2 & A3 & A4). rewrite (A4 eq_refl).
  apply see_views_frame in H6 as Hf. destruct Hf as [F1 F2].
  assert (Hal : forall v, bg_alive (gs_dg s3) v = bg_alive (gs_dg s) v) by (intros v; by apply bg_alive_verts).
  split; [by rewrite F1|]. split; [congruence|]. right. exists [EvEdgeRemoved o t], s3, vo, vt, tr6, r. split; [done|].
  split; [rewrite <- A2; exact H6|]. do 3 (split; [done|]). intros a b e. set_solver.
Qed.

Lemma remove_v_steps ord o t s s' tr r : see_remove_v ord o t s = (s', tr, r) -> rm_steps ord s s' tr.
Proof.
  intros [(s1 & tr1 & fo & tr2 & H1 & H2 & ->)|(rm & H1 & _)]%sbind_inv.
  2:{ apply slift_inv in H1 as (ev & H1 & ->). unfold cread in H1. injection H1 as <- _ _. apply rm_none. }
  apply slift_inv in H1 as (ev1 & H1 & ->). unfold cread in H1. injection H1 as <- <- _. cbn [fmap list_fmap app].
  apply sbind_inv in H2 as [(s2 & tr3 & ft & tr4 & H3 & H4 & ->)|(rm & H3 & _)].
  2:{ apply slift_inv in H3 as (ev & H3 & ->). unfold cread in H3. injection H3 as <- _ _. apply rm_none. }
  apply slift_inv in H3 as (ev1 & H3 & ->). unfold cread in H3. injection H3 as <- <- _. cbn [fmap list_fmap app].
  by eapply remove_impl_steps.
Qed.

Lemma remove_n_steps ord o t s s' tr r : see_remove_n ord o t s = (s', tr, r) -> rm_steps ord s s' tr.
Proof.
  intros [(s1 & tr1 & fo & tr2 & H1 & H2 & ->)|(rm & H1 & _)]%sbind_inv.
  2:{ apply slift_inv in H1 as (ev & H1 & ->). unfold cread in H1. injection H1 as <- _ _. apply rm_none. }
  apply slift_inv in H1 as (ev1 & H1 & ->). unfold cread in H1. injection H1 as <- <- _. cbn [fmap list_fmap app].
  apply sbind_inv in H2 as [(s2 & tr3 & ft & tr4 & H3 & H4 & ->)|(rm & H3 & _)].
  2:{ apply slift_inv in H3 as (ev & H3 & ->). unfold cread in H3. injection H3 as <- _ _. apply rm_none. }
  apply slift_inv in H3 as (ev1 & H3 & ->). unfold cread in H3. injection H3 as <- <- _. cbn [fmap list_fmap app].
  by eapply remove_impl_steps.
Qed.

Lemma rm_phased ord s s' tr : rm_steps ord s s' tr -> phased ord s s' tr.
Proof.
  intros (_ & _ & [(ev & -> & _)|(evA & s1 & o & t & sl & rv & -> & H1 & H2 & H3 & H4 & H5)]); [left; eauto|].
  right. exists evA, s1, (see_view_remove ord o t), sl, rv, []. split; [cbn; by rewrite app_nil_r|]. do 3 (split; [done|]).
  split; [right; eauto|]. split; [done|]. intros a b. apply not_elem_of_nil.
Qed.

Lemma gsee_phased ord op s s' tr r : dg_wf (gs_dg s) -> op_noself op -> one_edge op ->
  gsee d0 einv ord op s = (s', tr, r) -> phased ord s s' tr.
Proof.
  intros Hwf Hns Hone H. destruct op; try done; cbn [gsee op_noself] in *.
  - by eapply add_edge_n_phased.
  - apply add_edge_v_phased in H as [?|(s3 & sl & rv & evB & -> & H5 & H6 & H7 & H8 & H9 & H10 & H11 & H12)]; [by left|].
    right. eexists [], s3, _, sl, rv, evB. split; [done|]. split; [exact H5|]. do 2 (split; [done|]). split; [|split; [|done]].
    + left. eexists _, _, _, (gs_dg s). split; [exact Hns|]. do 5 (split; [done|]). split; [done|]. done.
    + intros a b e. apply not_elem_of_nil.
  - by eapply rm_phased, remove_n_steps.
  - by eapply rm_phased, remove_v_steps.
Qed.

(** ** Emissions in the loop over the views *)

Lemma see_views_elem f l : forall s s' tr r, see_views f l s = (s', tr, r) ->
  (forall m, m ∈ tr -> exists x, m = inr x) /\
  gs_dg s' = gs_dg s /\ gs_subs s' = gs_subs s /\ (forall j, j ∉ l -> gs_views s' !! j = gs_views s !! j) /\
  forall i x st, inr (Seen i x st) ∈ tr -> exists l1 l2 sj w w1, l = l1 ++ i :: l2 /\ gs_views sj !! i = Some w /\
    (x, w1) ∈ snd (fst (f i w)) /\ st = gs_set_view i w1 sj /\ gs_dg sj = gs_dg s /\ gs_subs sj = gs_subs s /\
    (forall j, j ∉ l1 -> gs_views sj !! j = gs_views s !! j) /\
    (forall j, j ∉ i :: l2 -> gs_views sj !! j = gs_views s' !! j).
Proof.
  induction l as [|j l IH]; intros s s' tr r; cbn [see_views].
  { intros [= <- <- _]. split; [by intros m ?%elem_of_nil|]. do 3 (split; [done|]). by intros i x st ?%elem_of_nil. }
  destruct (gs_views s !! j) as [w|] eqn:Hw; cycle 1.
  { intros [= <- <- _]. split; [by intros m ?%elem_of_nil|]. do 3 (split; [done|]). by intros i x st ?%elem_of_nil. }
  destruct (f j w) as [[w' x] r1] eqn:Hf. intros H.
  assert (Hhere : forall s2 : gst D E, (forall k, k ∉ j :: l -> gs_views s !! k = gs_views s2 !! k) ->
    forall i y st, inr (Seen i y st) ∈ see_in j s x -> exists l1 l2 sj w w1, j :: l = l1 ++ i :: l2 /\ gs_views sj !! i = Some w /\
    (y, w1) ∈ snd (fst (f i w)) /\ st = gs_set_view i w1 sj /\ gs_dg sj = gs_dg s /\ gs_subs sj = gs_subs s /\
    (forall j, j ∉ l1 -> gs_views sj !! j = gs_views s !! j) /\ (forall k, k ∉ i :: l2 -> gs_views sj !! k = gs_views s2 !! k)).
  { intros s2 Hs2 i y st ([z v] & Hz & Hin)%elem_of_list_fmap. injection Hz as -> -> ->. cbn.
    exists [], l, s, w, v. rewrite Hf. done. }
  assert (Hseen : forall m, m ∈ see_in j s x -> exists x, m = inr x).
  { intros m ([z v] & -> & _)%elem_of_list_fmap. eauto. }
  assert (Hstop : s' = gs_set_view j w' s -> tr = see_in j s x ->
    (forall m, m ∈ tr -> exists x, m = inr x) /\ gs_dg s' = gs_dg s /\ gs_subs s' = gs_subs s /\
    (forall k, k ∉ j :: l -> gs_views s' !! k = gs_views s !! k) /\
    forall i x st, inr (Seen i x st) ∈ tr -> exists l1 l2 sj w w1, j :: l = l1 ++ i :: l2 /\ gs_views sj !! i = Some w /\
    (x, w1) ∈ snd (fst (f i w)) /\ st = gs_set_view i w1 sj /\ gs_dg sj = gs_dg s /\ gs_subs sj = gs_subs s /\
    (forall j, j ∉ l1 -> gs_views sj !! j = gs_views s !! j) /\
    (forall j, j ∉ i :: l2 -> gs_views sj !! j = gs_views s' !! j)).
  { intros -> ->. assert (Hk : forall k, k ∉ j :: l -> gs_views (gs_set_view j w' s) !! k = gs_views s !! k).
    { intros k [Hkj _]%not_elem_of_cons. cbn. by rewrite lookup_insert_ne. }
    split; [done|]. do 2 (split; [done|]). split; [done|]. apply Hhere. intros k Hkk. by rewrite Hk. }
  destruct r1 as [[]|y| |]; [|by injection H as <- <- _; apply Hstop..].
  destruct (see_views f l (gs_set_view j w' s)) as [[s2 y] r2] eqn:Hrest. injection H as -> <- ->.
  destruct (IH _ _ _ _ Hrest) as (I1 & I2 & I3 & I4 & I5).
  split; [intros m [?|?]%elem_of_app; auto|]. split; [done|]. split; [done|].
  assert (Hk : forall k, k ∉ j :: l -> gs_views s' !! k = gs_views s !! k).
  { intros k [Hkj Hkl]%not_elem_of_cons. rewrite I4 by done. cbn. by rewrite lookup_insert_ne. }
  split; [done|]. intros i z st [Hin|Hin]%elem_of_app.
  - apply Hhere; [|done]. intros k Hkk. by rewrite Hk.
  - destruct (I5 i z st Hin) as (l1 & l2 & sj & v & v1 & -> & A1 & A2 & A3 & A4 & A5 & A6 & A7).
    exists (j :: l1), l2, sj, v, v1. do 6 (split; [done|]). split; [|done].
    intros k [Hkj Hkl]%not_elem_of_cons. rewrite A6 by done. cbn. by rewrite lookup_insert_ne.
Qed.

(** ** Order of signals and events, and what is seen of the other views *)

Lemma inl_split (ev : list event) (l1 l2 : list (event + seen D E)) x : inl <$> ev <> l1 ++ inr x :: l2.
Proof.
  intros H. assert (Hin : inr x ∈ @fmap list _ event (event + seen D E) inl ev) by (rewrite H; apply elem_of_app; right; left).
  apply elem_of_list_fmap in Hin as (? & ? & _). done.
Qed.

Lemma signal_order ord op s s' tr r l1 x l2 : reachable d0 einv s -> op_noself op -> one_edge op ->
  gsee d0 einv ord op s = (s', tr, r) -> tr = l1 ++ inr x :: l2 ->
  (forall o t e, inl (EvEdgeAdded o t e) ∉ l1) /\ (forall o t, inl (EvEdgeRemoved o t) ∉ l2).
Proof.
  intros Hre Hns Hone H Htr.
  pose proof (reachable_wf d0 einv s Hre) as Hwf. apply gsee_phased in H; [|done..].
  destruct H as [(ev & Hev)|(evA & s1 & f & sl & rv & evB & Hev & Hv & _ & _ & _ & HA & HB)].
  { exfalso. rewrite Htr in Hev. by eapply inl_split. }
  apply see_views_elem in Hv as (Hsl & _). rewrite Htr in Hev. symmetry in Hev.
  assert (Hnl : forall e, inl e ∉ sl) by (intros e He; by apply Hsl in He as [? ?]).
  apply app_mid in Hev as [(l & Hev & _)|(l & -> & Hev)]; [by apply inl_split in Hev|].
  apply app_mid in Hev as [(k & -> & ->)|(k & -> & Hev)]; [|by apply inl_split in Hev].
  split.
  - intros o t e [(e' & He & Hin)%elem_of_list_fmap|Hin]%elem_of_app; [injection He as <-; by eapply HA|].
    apply (Hnl (EvEdgeAdded o t e)), elem_of_app. by left.
  - intros o t [Hin|(e' & He & Hin)%elem_of_list_fmap]%elem_of_app; [|injection He as <-; by eapply HB].
    apply (Hnl (EvEdgeRemoved o t)), elem_of_app. right. by right.
Qed.

Lemma phased_elem ord s s' tr i x st : phased ord s s' tr -> inr (Seen i x st) ∈ tr ->
  exists s1 f, gs_views s1 = gs_views s /\ gs_subs s1 = gs_subs s /\ gs_dg s1 = gs_dg s' /\ gs_subs s' = gs_subs s /\ loop_of ord s s1 f /\
  exists l1 l2 sj w w1, gs_subs s = l1 ++ i :: l2 /\ gs_views sj !! i = Some w /\
    (x, w1) ∈ snd (fst (f i w)) /\ st = gs_set_view i w1 sj /\ gs_dg sj = gs_dg s1 /\ gs_subs sj = gs_subs s1 /\
    (forall j, j ∉ l1 -> gs_views sj !! j = gs_views s1 !! j) /\
    (forall j, j ∉ i :: l2 -> gs_views sj !! j = gs_views s' !! j).
Proof.
  intros [(ev & ->)|(evA & s1 & f & sl & rv & evB & -> & Hv & H1 & H2 & H3 & _ & _)] Hin.
  { apply elem_of_list_fmap in Hin as (? & ? & _). done. }
  apply elem_of_app in Hin as [(? & ? & _)%elem_of_list_fmap|Hin]; [done|].
  apply elem_of_app in Hin as [Hin|(? & ? & _)%elem_of_list_fmap]; [|done].
  apply see_views_elem in Hv as (_ & Hd & Hs & _ & Hel). exists s1, f. do 2 (split; [done|]). split; [done|]. split; [congruence|]. split; [done|].
  exact (Hel i x st Hin).
Qed.

Lemma other_views ord op s s' tr r i x st : reachable d0 einv s -> op_noself op -> one_edge op ->
  gsee d0 einv ord op s = (s', tr, r) -> inr (Seen i x st) ∈ tr ->
  i ∈ gs_subs s /\ gs_dg st = gs_dg s' /\ gs_subs st = gs_subs s /\
  (forall j, earlier (gs_subs s) j i -> gs_views st !! j = gs_views s' !! j) /\
  (forall j, j <> i -> ~ earlier (gs_subs s) j i -> gs_views st !! j = gs_views s !! j).
Proof.
  intros Hre Hns Hone H Hin. pose proof (reachable_wf d0 einv s Hre) as Hwf. destruct (reachable_subs_ok d0 einv s Hre) as [Hnd _].
  apply gsee_phased in H; try done.
  destruct (phased_elem _ _ _ _ _ _ _ H Hin) as (s1 & f & H1 & H2 & H3 & H4 & _ & l1 & l2 & sj & w & w1 & Hl & A1 & A2 & -> & A4 & A5 & A6 & A7).
  rewrite Hl in Hnd. apply NoDup_app in Hnd as (Hnd1 & Hdis & [Hi2 Hnd2]%NoDup_cons).
  assert (Hi1 : i ∉ l1) by (intros Hi; apply (Hdis i Hi); by left).
  assert (Huniq : forall j, earlier (gs_subs s) j i <-> j ∈ l1).
  { intros j. split; [|intros Hj; by exists l1, l2]. intros (k1 & k2 & Hk & Hj). rewrite Hl in Hk.
    apply app_mid in Hk as [(l & Hk & _)|(l & -> & Hk)].
    - exfalso. apply Hi1. rewrite Hk. apply elem_of_app. right. left.
    - destruct l as [|z l]; [by rewrite app_nil_r in Hj|]. cbn in Hk. injection Hk as <- Hk. exfalso. apply Hi2. rewrite Hk.
      apply elem_of_app. right. left. }
  split; [rewrite Hl; apply elem_of_app; right; left|]. cbn. split; [congruence|]. split; [congruence|]. split.
  - intros j Hj%Huniq. assert (j <> i) by (intros ->; done). rewrite lookup_insert_ne by done. apply A7.
    intros Hjj. by apply (Hdis j).
  - intros j Hji Hj. rewrite Huniq in Hj. rewrite lookup_insert_ne by done. rewrite A6 by done. by rewrite H1.
Qed.

End slots.
