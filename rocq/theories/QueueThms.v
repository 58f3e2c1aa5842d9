(** Proofs about the event queue. *)
From stdpp Require Import prelude strings gmap gmultiset.
From Verif Require Import Outcome SpecReplica QueueModel SpecQueue.

Lemma q_scan_eq new q : q_scan new q = (existsb (fun old => mergeable old new && cancels old new) q, filter (fun old => mergeable old new = false) q).
Proof.
  induction q as [|old q IH]; [done|]. cbn [q_scan existsb]. rewrite IH, filter_cons. destruct (mergeable old new); cbn.
  - by rewrite decide_False by done.
  - by rewrite decide_True by done.
Qed.
Lemma q_notify_eq q new : q_notify q new =
  (let q' := filter (fun old => mergeable old new = false) q in
   if existsb (fun old => mergeable old new && cancels old new) q then q' else q' ++ [new]).
Proof. unfold q_notify. by rewrite q_scan_eq. Qed.

Lemma q_receive_snoc evs new : q_receive (evs ++ [new]) = q_notify (q_receive evs) new.
Proof. unfold q_receive. by rewrite foldl_app. Qed.

Lemma filter_sublist {A} (P : A -> Prop) `{!forall x, Decision (P x)} (l : list A) : sublist (filter P l) l.
Proof. induction l as [|x l IH]; [done|]. rewrite filter_cons. destruct (decide (P x)); by constructor. Qed.

Lemma q_notify_sublist q new : sublist (q_notify q new) (q ++ [new]).
Proof.
  rewrite q_notify_eq. cbv zeta. destruct existsb.
  - apply sublist_inserts_r. apply filter_sublist.
  - apply sublist_app; [apply filter_sublist|done].
Qed.
Lemma q_receive_sublist evs : sublist (q_receive evs) evs.
Proof.
  induction evs as [|x evs IH] using rev_ind; [done|]. rewrite q_receive_snoc.
  etrans; [apply q_notify_sublist|]. apply sublist_app; done.
Qed.

Lemma elem_of_sublist {A} (l1 l2 : list A) x : sublist l1 l2 -> x ∈ l1 -> x ∈ l2.
Proof. intros Hs Hx. by eapply elem_of_submseteq, sublist_submseteq. Qed.
Lemma sublist2_snoc {A} (x y : A) q z : sublist [x; y] (q ++ [z]) -> sublist [x; y] q \/ (y = z /\ x ∈ q).
Proof.
  intros (l1 & l2 & He & H1 & H2)%sublist_app_r. destruct l2 as [|u l2].
  - rewrite app_nil_r in He. subst. by left.
  - assert (l2 = [] /\ u = z) as [-> ->].
    { apply sublist_cons_l in H2 as (k1 & k2 & Hk & Hs). destruct k1 as [|? k1]; cbn in Hk; injection Hk as -> Hk; [|by destruct k1].
      subst k2. by apply sublist_nil_r in Hs. }
    destruct l1 as [|v l1]; cbn in He; injection He; [done|]. intros He' ->.
    destruct l1 as [|? l1]; cbn in He'; [|by destruct l1]. injection He' as ->. right. split; [done|].
    eapply elem_of_sublist; [exact H1|]. by left.
Qed.
Lemma sublist_single {A} (x : A) q : x ∈ q -> sublist [x] q.
Proof. intros (q1 & q2 & ->)%elem_of_list_split. apply sublist_inserts_l. by apply sublist_skip, sublist_nil_l. Qed.
Lemma sublist_split2 {A} (x y : A) q1 q2 : y ∈ q2 -> sublist [x; y] (q1 ++ x :: q2).
Proof. intros Hy. apply sublist_inserts_l, sublist_skip. by apply sublist_single. Qed.

(** edges *)
Lemma same_edge_spec o t o' t' : same_edge o t o' t' = true <-> (o = o' /\ t = t') \/ (o = t' /\ t = o').
Proof. unfold same_edge. rewrite orb_true_iff, !andb_true_iff, !String.eqb_eq. done. Qed.
Global Instance on_edge_dec a b ev : Decision (on_edge a b ev).
Proof. unfold on_edge. apply _. Defined.

Global Instance is_add_dec ev : Decision (is_add ev).
Proof. destruct ev; apply _. Defined.
Global Instance is_modify_dec ev : Decision (is_modify ev).
Proof. destruct ev; apply _. Defined.
Global Instance is_remove_dec ev : Decision (is_remove ev).
Proof. destruct ev; apply _. Defined.

Lemma mergeable_removed old o t : mergeable old (EvEdgeRemoved o t) = true <-> on_edge o t old.
Proof.
  unfold on_edge. destruct old as [f|f|a b e|a b e e'|a b|f i|f i]; cbn; try (split; [done|intros [|]; done]);
    rewrite same_edge_spec; naive_solver.
Qed.
Lemma mergeable_modified old o t e e' : mergeable old (EvEdgeModified o t e e') = true <-> is_modify old /\ on_edge o t old.
Proof.
  unfold on_edge. destruct old as [f|f|a b ? |a b ? ?|a b|f i|f i]; cbn; try (split; [done|tauto]).
  rewrite same_edge_spec; naive_solver.
Qed.
Lemma mergeable_frame old f : mergeable old (EvFrameRemoved f) = true <-> old = EvFrameAdded f.
Proof. destruct old; cbn; try (split; done). rewrite String.eqb_eq. naive_solver. Qed.
Lemma mergeable_other old new : (forall f, new <> EvFrameRemoved f) -> edge_of new = None \/ is_add new -> mergeable old new = false.
Proof. intros Hf He. destruct new as [f|f|? ? ?|? ? ? ?|? ?|? ?|? ?]; [| | | | | |]; destruct old; cbn in *; try done; naive_solver. Qed.

Lemma filter_all {A} (P : A -> Prop) `{!forall x, Decision (P x)} (l : list A) : (forall x, x ∈ l -> P x) -> filter P l = l.
Proof.
  induction l as [|x l IH]; intros HP; [done|]. rewrite filter_cons, decide_True by (apply HP; by left). f_equal. apply IH. intros y Hy. apply HP. by right.
Qed.
Lemma existsb_false {A} (f : A -> bool) (l : list A) : (forall x, x ∈ l -> f x = false) -> existsb f l = false.
Proof. induction l as [|x l IH]; intros H; [done|]. cbn. rewrite H by by left. apply IH. intros y Hy. apply H. by right. Qed.
Lemma existsb_true {A} (f : A -> bool) (l : list A) x : x ∈ l -> f x = true -> existsb f l = true.
Proof. intros Hx Hf. apply existsb_exists. exists x. split; [by apply elem_of_list_In|done]. Qed.
Lemma filter_ext_eq {A} (P Q : A -> Prop) `{!forall x, Decision (P x), !forall x, Decision (Q x)} (l : list A) : (forall x, P x <-> Q x) -> filter P l = filter Q l.
Proof. intros HPQ. apply list_filter_iff. done. Qed.

Lemma notify_other q new : (forall f, new <> EvFrameRemoved f) -> edge_of new = None \/ is_add new -> q_notify q new = q ++ [new].
Proof.
  intros Hf He. rewrite q_notify_eq. cbv zeta. rewrite existsb_false.
  - f_equal. apply filter_all. intros x _. by apply mergeable_other.
  - intros x _. by rewrite mergeable_other.
Qed.
Lemma notify_modified q o t e e' : q_notify q (EvEdgeModified o t e e') =
  filter (fun x => mergeable x (EvEdgeModified o t e e') = false) q ++ [EvEdgeModified o t e e'].
Proof. rewrite q_notify_eq. cbv zeta. rewrite existsb_false; [done|]. intros x _. destruct x; cbn; by rewrite ?andb_false_r. Qed.
Lemma notify_removed q o t : q_notify q (EvEdgeRemoved o t) =
  if decide (Exists (fun x => on_edge o t x /\ is_add x) q) then filter (fun x => ~ on_edge o t x) q
  else filter (fun x => ~ on_edge o t x) q ++ [EvEdgeRemoved o t].
Proof.
  rewrite q_notify_eq. cbv zeta.
  rewrite (filter_ext_eq (fun old => mergeable old (EvEdgeRemoved o t) = false) (fun x => ~ on_edge o t x)).
  2:{ intros x. rewrite <- mergeable_removed. by rewrite not_true_iff_false. }
  destruct (decide _) as [(x & Hx & Ho & Ha)%list.Exists_exists|Hn].
  - rewrite (existsb_true _ _ x); [done|done|]. apply andb_true_iff. split; [by apply mergeable_removed|]. by destruct x.
  - rewrite existsb_false; [done|]. intros x Hx. destruct (mergeable x (EvEdgeRemoved o t)) eqn:Hm; [|done].
    destruct x as [| |a b c| | | |]; cbn; try done. destruct Hn. apply list.Exists_exists. eexists. split; [exact Hx|]. split; [by apply mergeable_removed|done].
Qed.

(** C36 *)
Lemma notify_frame_removed q f : q_notify q (EvFrameRemoved f) =
  if decide (EvFrameAdded f ∈ q) then filter (fun x => x <> EvFrameAdded f) q else q ++ [EvFrameRemoved f].
Proof.
  rewrite q_notify_eq. cbv zeta.
  rewrite (filter_ext_eq (fun old => mergeable old (EvFrameRemoved f) = false) (fun x => x <> EvFrameAdded f)).
  2:{ intros x. rewrite <- mergeable_frame. by rewrite not_true_iff_false. }
  destruct (decide _) as [Hx|Hn].
  - rewrite (existsb_true _ _ (EvFrameAdded f)); [done|done|]. cbn. by rewrite String.eqb_refl.
  - rewrite existsb_false; [by rewrite filter_all by (intros x Hx ->; done)|].
    intros x Hx. destruct (mergeable x (EvFrameRemoved f)) eqn:Hm; [|done]. apply mergeable_frame in Hm. by subst.
Qed.

Lemma notify_off_edge q new a b x : ~ on_edge a b new -> on_edge a b x -> x ∈ q_notify q new <-> x ∈ q.
Proof.
  intros Hn Hx. rewrite q_notify_eq. cbv zeta.
  assert (Hf : x ∈ filter (fun old => mergeable old new = false) q <-> x ∈ q).
  { rewrite elem_of_list_filter. split; [tauto|]. intros Hq. split; [|done]. destruct (mergeable x new) eqn:Hm; [|done].
    exfalso. apply Hn. destruct new as [f|f|o t e|o t e e'|o t|f i|f i].
    1,3,6,7: rewrite mergeable_other in Hm; [done|done|cbn; auto].
    - apply mergeable_frame in Hm. subst. unfold on_edge in Hx. cbn in Hx. naive_solver.
    - apply mergeable_modified in Hm as [_ Hm]. unfold on_edge in *. cbn. naive_solver.
    - apply mergeable_removed in Hm. unfold on_edge in *. cbn. naive_solver. }
  destruct existsb; [done|]. rewrite elem_of_app, Hf, elem_of_list_singleton. split; [|tauto]. intros [?| ->]; done.
Qed.
Lemma receive_off_edge evs q a b x : (forall y, y ∈ evs -> ~ on_edge a b y) -> on_edge a b x -> x ∈ foldl q_notify q evs <-> x ∈ q.
Proof.
  revert q. induction evs as [|y evs IH]; intros q Hn Hx; [done|]. cbn [foldl]. rewrite IH; [|intros z Hz; apply Hn; by right|done].
  apply (notify_off_edge _ _ a b); [apply Hn; by left|done].
Qed.

(* An added edge stays in the queue until a removal of the edge arrives. *)
Lemma notify_keeps_add q new a b x : is_add x -> on_edge a b x -> ~ (is_remove new /\ on_edge a b new) -> x ∈ q -> x ∈ q_notify q new.
Proof.
  intros Ha Hx Hn Hq. rewrite q_notify_eq. cbv zeta.
  assert (Hf : x ∈ filter (fun old => mergeable old new = false) q).
  { apply elem_of_list_filter. split; [|done]. destruct x as [| |o t e| | | |]; try done. destruct new as [| | | |o' t'| |]; try done.
    destruct (mergeable _ _) eqn:Hm; [|done]. apply mergeable_removed in Hm. destruct Hn. split; [done|]. unfold on_edge in *. cbn in *. naive_solver. }
  destruct existsb; [done|]. apply elem_of_app. by left.
Qed.
Lemma receive_keeps_add evs q a b x : is_add x -> on_edge a b x -> (forall y, y ∈ evs -> is_remove y -> ~ on_edge a b y) ->
  x ∈ q -> x ∈ foldl q_notify q evs.
Proof.
  revert q. induction evs as [|y evs IH]; intros q Ha Hx Hn Hq; [done|]. cbn [foldl]. apply IH; [done|done|intros z Hz; apply Hn; by right|].
  apply (notify_keeps_add _ _ a b); [done|done| |done]. intros [Hr Ho]. apply (Hn y); [by left|done|done].
Qed.

Lemma added_removed_gone a b e1 x e2 y e3 : on_edge a b x -> is_add x -> on_edge a b y -> is_remove y ->
  (forall z, z ∈ e2 -> is_remove z -> ~ on_edge a b z) -> (forall z, z ∈ e3 -> ~ on_edge a b z) ->
  forall z, z ∈ q_receive (e1 ++ x :: e2 ++ y :: e3) -> ~ on_edge a b z.
Proof.
  intros Hx Ha Hy Hr H2 H3 z Hz Ho. unfold q_receive in Hz. rewrite foldl_app in Hz. cbn [foldl] in Hz. rewrite foldl_app in Hz. cbn [foldl] in Hz.
  rewrite (receive_off_edge _ _ a b) in Hz by done.
  set (q := foldl q_notify (q_notify (foldl q_notify [] e1) x) e2) in *.
  assert (Hq : x ∈ q).
  { apply (receive_keeps_add _ _ a b); [done|done|done|]. rewrite notify_other; [apply elem_of_app; right; by left|by destruct x|by right]. }
  destruct y as [| | | |o t| |]; try done. rewrite notify_removed in Hz.
  assert (Hsw : forall w, on_edge a b w <-> on_edge o t w). { intros w. unfold on_edge in *. cbn in Hy. naive_solver. }
  rewrite decide_True in Hz by (apply list.Exists_exists; exists x; by rewrite <- Hsw).
  apply elem_of_list_filter in Hz as [Hz _]. by apply Hz, Hsw.
Qed.

(* At most one modification of an edge. *)
Lemma one_modify evs a b x y : is_modify x -> is_modify y -> on_edge a b x -> on_edge a b y -> ~ sublist [x; y] (q_receive evs).
Proof.
  intros Hx Hy Ox Oy. induction evs as [|new evs IH] using rev_ind; [intros Hc; by apply sublist_nil_r in Hc|].
  rewrite q_receive_snoc. rewrite q_notify_eq. cbv zeta. intros Hs. apply IH.
  assert (Hmono : forall l, sublist l (filter (fun old => mergeable old new = false) (q_receive evs)) -> sublist l (q_receive evs)).
  { intros l Hl. etrans; [exact Hl|apply filter_sublist]. }
  destruct existsb; [by apply Hmono|]. apply sublist2_snoc in Hs as [Hs|[-> Hs]]; [by apply Hmono|].
  exfalso. apply elem_of_list_filter in Hs as [Hs _]. destruct new; try done.
  assert (Hm : mergeable x (EvEdgeModified o t e einv) = true); [|congruence]. apply mergeable_modified. split; [done|].
  unfold on_edge in *. cbn in Oy. naive_solver.
Qed.
(* It is the latest one. *)
Lemma latest_modify a b e1 x e2 y : is_modify x -> on_edge a b x -> (forall z, z ∈ e2 -> is_modify z -> ~ on_edge a b z) ->
  y ∈ q_receive (e1 ++ x :: e2) -> is_modify y -> on_edge a b y -> y = x.
Proof.
  intros Hx Ox H2 Hy My Oy. unfold q_receive in Hy. rewrite foldl_app in Hy. cbn [foldl] in Hy.
  assert (G : forall e2 q, (forall z, z ∈ e2 -> is_modify z -> ~ on_edge a b z) -> y ∈ foldl q_notify q e2 -> y ∈ q).
  { clear e2 H2 Hy. induction e2 as [|z e2 IH]; intros q H2 Hy; [done|]. cbn [foldl] in Hy. apply IH in Hy; [|intros w Hw; apply H2; by right].
    eapply elem_of_sublist in Hy; [|apply q_notify_sublist]. apply elem_of_app in Hy as [Hy|Hy]; [done|]. apply elem_of_list_singleton in Hy. subst z.
    exfalso. apply (H2 y); [by left|done|done]. }
  apply G in Hy; [|done]. destruct x as [| | |o t e e'| | |]; try done. rewrite notify_modified in Hy. apply elem_of_app in Hy as [Hy|Hy].
  - exfalso. apply elem_of_list_filter in Hy as [Hy _]. assert (Hm : mergeable y (EvEdgeModified o t e e') = true); [|congruence].
    apply mergeable_modified. split; [done|]. unfold on_edge in *. cbn in Ox. naive_solver.
  - by apply elem_of_list_singleton in Hy.
Qed.
(* And it is there, unless the edge is removed later. *)
Lemma modify_kept a b e1 x e2 : is_modify x -> on_edge a b x ->
  (forall z, z ∈ e2 -> is_modify z \/ is_remove z -> ~ on_edge a b z) -> x ∈ q_receive (e1 ++ x :: e2).
Proof.
  intros Hx Ox H2. unfold q_receive. rewrite foldl_app. cbn [foldl].
  assert (G : forall e2 q, (forall z, z ∈ e2 -> is_modify z \/ is_remove z -> ~ on_edge a b z) -> x ∈ q -> x ∈ foldl q_notify q e2).
  { clear e2 H2. induction e2 as [|z e2 IH]; intros q H2 Hq; [done|]. cbn [foldl]. apply IH; [intros w Hw; apply H2; by right|].
    rewrite q_notify_eq. cbv zeta.
    assert (Hf : x ∈ filter (fun old => mergeable old z = false) q).
    { apply elem_of_list_filter. split; [|done]. destruct (mergeable x z) eqn:Hm; [|done]. exfalso.
      assert (Hz := H2 z ltac:(by left)). destruct x as [| | |o t e e'| | |]; try done. destruct z as [| | |o' t' ? ?|o' t'| |]; try done.
      - apply mergeable_modified in Hm as [_ Hm]. apply Hz; [by left|]. unfold on_edge in *. cbn in *. naive_solver.
      - apply mergeable_removed in Hm. apply Hz; [by right|]. unfold on_edge in *. cbn in *. naive_solver. }
    destruct existsb; [done|]. apply elem_of_app. by left. }
  apply G; [done|]. destruct x; try done. rewrite notify_modified. apply elem_of_app. right. by left.
Qed.

(** replaying the queue *)
Lemma replay_app e1 e2 r : replay (e1 ++ e2) r = match replay e1 r with Some r' => replay e2 r' | None => None end.
Proof. revert r. induction e1 as [|x e1 IH]; intros r; [done|]. cbn. destruct (apply_event x r); [apply IH|done]. Qed.

Ltac bools := repeat match goal with
  | H : (_ && _)%bool = true |- _ => apply andb_true_iff in H as [? H]
  | H : bool_decide _ = true |- _ => apply bool_decide_eq_true in H
  | H : bool_decide _ = false |- _ => apply bool_decide_eq_false in H
  end.
Lemma apply_inv ev r r' : apply_event ev r = Some r' ->
  match ev with
  | EvFrameAdded f => f ∉ r_frames r /\ r' = Replica ({[f]} ∪ r_frames r) (r_edges r) (r_items r)
  | EvFrameRemoved f => f ∈ r_frames r /\ bare r f = true /\ r' = Replica (r_frames r ∖ {[f]}) (r_edges r) (r_items r)
  | EvEdgeAdded o t _ => o ∈ r_frames r /\ t ∈ r_frames r /\ (o, t) ∉ r_edges r /\ (t, o) ∉ r_edges r /\
      r' = Replica (r_frames r) ({[(o, t); (t, o)]} ∪ r_edges r) (r_items r)
  | EvEdgeModified o t _ _ => (o, t) ∈ r_edges r /\ (t, o) ∈ r_edges r /\ r' = r
  | EvEdgeRemoved o t => (o, t) ∈ r_edges r /\ (t, o) ∈ r_edges r /\ r' = Replica (r_frames r) (r_edges r ∖ {[(o, t); (t, o)]}) (r_items r)
  | EvItemAdded f i => f ∈ r_frames r /\ r' = Replica (r_frames r) (r_edges r) (r_items r ⊎ {[+ (f, i) +]})
  | EvItemRemoved f i => (f, i) ∈ r_items r /\ r' = Replica (r_frames r) (r_edges r) (r_items r ∖ {[+ (f, i) +]})
  end.
Proof.
  destruct ev; cbn; intros Ha; repeat case_match; try done; injection Ha as <-; bools; tauto.
Qed.
Lemma apply_intro ev r r' :
  match ev with
  | EvFrameAdded f => f ∉ r_frames r /\ r' = Replica ({[f]} ∪ r_frames r) (r_edges r) (r_items r)
  | EvFrameRemoved f => f ∈ r_frames r /\ bare r f = true /\ r' = Replica (r_frames r ∖ {[f]}) (r_edges r) (r_items r)
  | EvEdgeAdded o t _ => o ∈ r_frames r /\ t ∈ r_frames r /\ (o, t) ∉ r_edges r /\ (t, o) ∉ r_edges r /\
      r' = Replica (r_frames r) ({[(o, t); (t, o)]} ∪ r_edges r) (r_items r)
  | EvEdgeModified o t _ _ => (o, t) ∈ r_edges r /\ (t, o) ∈ r_edges r /\ r' = r
  | EvEdgeRemoved o t => (o, t) ∈ r_edges r /\ (t, o) ∈ r_edges r /\ r' = Replica (r_frames r) (r_edges r ∖ {[(o, t); (t, o)]}) (r_items r)
  | EvItemAdded f i => f ∈ r_frames r /\ r' = Replica (r_frames r) (r_edges r) (r_items r ⊎ {[+ (f, i) +]})
  | EvItemRemoved f i => (f, i) ∈ r_items r /\ r' = Replica (r_frames r) (r_edges r) (r_items r ∖ {[+ (f, i) +]})
  end -> apply_event ev r = Some r'.
Proof.
  destruct ev; cbn; intros Ha.
  - destruct Ha as [? ->]. by rewrite bool_decide_false by done.
  - destruct Ha as (? & Hb & ->). by rewrite Hb, bool_decide_true by done.
  - destruct Ha as (? & ? & ? & ? & ->). by rewrite !bool_decide_true by done.
  - destruct Ha as (? & ? & ->). by rewrite !bool_decide_true by done.
  - destruct Ha as (? & ? & ->). by rewrite !bool_decide_true by done.
  - destruct Ha as (? & ->). by rewrite !bool_decide_true by done.
  - destruct Ha as (? & ->). by rewrite !bool_decide_true by done.
Qed.
Lemma bare_spec r f : bare r f = true <-> (forall a b, (a, b) ∈ r_edges r -> a <> f /\ b <> f) /\ (forall g i, (g, i) ∈ r_items r -> g <> f).
Proof.
  unfold bare. rewrite andb_true_iff, !bool_decide_eq_true. unfold set_Forall. split; intros [H1 H2]; split.
  - intros a b Hab. by apply (H1 (a, b)).
  - intros g i Hi. apply (H2 (g, i)). by apply gmultiset_elem_of_dom.
  - intros [a b] Hab. by apply H1.
  - intros [g i] Hi%gmultiset_elem_of_dom. by apply (H2 g i).
Qed.
Lemma replica_eq r r' : r_frames r = r_frames r' -> r_edges r = r_edges r' -> r_items r = r_items r' -> r = r'.
Proof. destruct r, r'; cbn; congruence. Qed.

(** Deleting events from a sequence that can be replayed. *)
Lemma replay_drop_modify (P : event -> Prop) `{!forall x, Decision (P x)} q r r1 :
  (forall x, x ∈ q -> ~ P x -> is_modify x) -> replay q r = Some r1 -> replay (filter P q) r = Some r1.
Proof.
  revert r. induction q as [|x q IH]; intros r Hm Hq; [done|]. cbn [replay] in Hq. destruct (apply_event x r) as [r'|] eqn:Ha; [|done].
  rewrite filter_cons. destruct (decide (P x)) as [HP|HP].
  - cbn [replay]. rewrite Ha. apply IH; [|done]. intros y Hy. apply Hm. by right.
  - assert (Hx := Hm x ltac:(by left) HP). destruct x; try done. apply apply_inv in Ha as (_ & _ & ->).
    apply IH; [|done]. intros y Hy. apply Hm. by right.
Qed.

(* The replica without an edge, without a frame. *)
Definition cut (a b : frameid) (r : replica) : replica := Replica (r_frames r) (r_edges r ∖ {[(a, b); (b, a)]}) (r_items r).
Definition drop_frame (f : frameid) (r : replica) : replica := Replica (r_frames r ∖ {[f]}) (r_edges r) (r_items r).

Lemma cut_on a b x r r' : on_edge a b x -> apply_event x r = Some r' -> cut a b r' = cut a b r.
Proof.
  intros Hx Ha%apply_inv. unfold on_edge in Hx. destruct x as [f|f|o t e|o t e e'|o t|f i|f i]; cbn in Hx.
  1,2,6,7: naive_solver.
  - destruct Ha as (_ & _ & _ & _ & ->). unfold cut. cbn. f_equal. apply set_eq. intros [u v]. set_unfold. naive_solver.
  - by destruct Ha as (_ & _ & ->).
  - destruct Ha as (_ & _ & ->). unfold cut. cbn. f_equal. apply set_eq. intros [u v]. set_unfold. naive_solver.
Qed.
Lemma cut_off a b x r r' : ~ on_edge a b x -> apply_event x r = Some r' -> apply_event x (cut a b r) = Some (cut a b r').
Proof.
  intros Hx Ha%apply_inv. apply apply_intro. unfold on_edge in Hx. destruct x as [f|f|o t e|o t e e'|o t|f i|f i]; cbn in Hx; cbn [cut r_frames r_edges r_items].
  - destruct Ha as (? & ->). split; [done|]. done.
  - destruct Ha as (? & Hb & ->). split; [done|]. split; [|done]. apply bare_spec in Hb as [B1 B2]. apply bare_spec. cbn. split; [|done].
    intros u v Huv. apply B1. set_solver.
  - destruct Ha as (? & ? & ? & ? & ->). do 2 (split; [done|]). split; [set_solver|]. split; [set_solver|].
    unfold cut. cbn. f_equal. apply set_eq. intros [u v]. set_unfold. naive_solver.
  - destruct Ha as (? & ? & ->). split; [set_unfold; naive_solver|]. split; [set_unfold; naive_solver|]. done.
  - destruct Ha as (? & ? & ->). split; [set_unfold; naive_solver|]. split; [set_unfold; naive_solver|].
    unfold cut. cbn. f_equal. apply set_eq. intros [u v]. set_unfold. naive_solver.
  - destruct Ha as (? & ->). done.
  - destruct Ha as (? & ->). done.
Qed.
Lemma replay_cut a b q r r1 : replay q r = Some r1 -> replay (filter (fun x => ~ on_edge a b x) q) (cut a b r) = Some (cut a b r1).
Proof.
  revert r. induction q as [|x q IH]; intros r Hq; [by injection Hq as ->|]. cbn [replay] in Hq. destruct (apply_event x r) as [r'|] eqn:Ha; [|done].
  rewrite filter_cons. destruct (decide (~ on_edge a b x)) as [Hx|Hx].
  - cbn [replay]. rewrite (cut_off a b x r r' Hx Ha). by apply IH.
  - rewrite <- (cut_on a b x r r') by (done || by apply dec_stable). by apply IH.
Qed.
Lemma cut_absent a b r : (a, b) ∉ r_edges r -> (b, a) ∉ r_edges r -> cut a b r = r.
Proof. intros H1 H2. apply replica_eq; [done| |done]. cbn. apply set_eq. intros [u v]. set_unfold. naive_solver. Qed.

Lemma replay_must_add a b q r r1 : replay q r = Some r1 -> (a, b) ∉ r_edges r -> (a, b) ∈ r_edges r1 -> exists x, x ∈ q /\ on_edge a b x /\ is_add x.
Proof.
  revert r. induction q as [|x q IH]; intros r Hq Hn Hy; [injection Hq as ->; done|]. cbn [replay] in Hq.
  destruct (apply_event x r) as [r'|] eqn:Ha; [|done]. destruct (decide ((a, b) ∈ r_edges r')) as [Hin|Hin].
  - exists x. split; [by left|]. apply apply_inv in Ha. unfold on_edge. destruct x as [f|f|o t e|o t e e'|o t|f i|f i]; cbn.
    1,2,6,7: exfalso; naive_solver.
    + destruct Ha as (_ & _ & _ & _ & ->). cbn in Hin. split; [|done]. set_unfold. naive_solver.
    + destruct Ha as (_ & _ & ->). done.
    + destruct Ha as (_ & _ & ->). cbn in Hin. set_solver.
  - destruct (IH r' Hq Hin Hy) as (y & Hy1 & Hy2). exists y. split; [by right|done].
Qed.
Lemma replay_stays a b q r r1 : replay q r = Some r1 -> (a, b) ∈ r_edges r -> (forall x, x ∈ q -> is_remove x -> ~ on_edge a b x) ->
  (a, b) ∈ r_edges r1 /\ forall x, x ∈ q -> is_add x -> ~ on_edge a b x.
Proof.
  revert r. induction q as [|x q IH]; intros r Hq Hin Hn; [injection Hq as ->; split; [done|]; intros x Hc; by apply elem_of_nil in Hc|].
  cbn [replay] in Hq. destruct (apply_event x r) as [r'|] eqn:Ha; [|done].
  assert (Hx : (a, b) ∈ r_edges r' /\ (is_add x -> ~ on_edge a b x)).
  { assert (Hnx := Hn x ltac:(by left)). apply apply_inv in Ha. unfold on_edge in *. destruct x as [f|f|o t e|o t e e'|o t|f i|f i]; cbn in *.
    1,2,6,7: split; [naive_solver|done].
    + destruct Ha as (_ & _ & ? & ? & ->). split; [cbn; set_solver|]. intros _. naive_solver.
    + destruct Ha as (_ & _ & ->). done.
    + destruct Ha as (_ & _ & ->). split; [|done]. cbn. set_unfold. naive_solver. }
  destruct Hx as [Hin' Hx]. destruct (IH r' Hq Hin') as [H1 H2]; [intros y Hy; apply Hn; by right|]. split; [done|].
  intros y [-> |Hy]%elem_of_cons; [done|by apply H2].
Qed.

Definition mentions (f : frameid) (x : event) : Prop :=
  x = EvFrameAdded f \/ x = EvFrameRemoved f \/ (exists a b, edge_of x = Some (a, b) /\ (a = f \/ b = f)) \/ on_items f x.

Lemma replay_drop_frame f q r r1 : replay q r = Some r1 -> (forall x, x ∈ q -> ~ mentions f x) -> replay q (drop_frame f r) = Some (drop_frame f r1).
Proof.
  revert r. induction q as [|x q IH]; intros r Hq Hn; [by injection Hq as ->|]. cbn [replay] in *. destruct (apply_event x r) as [r'|] eqn:Ha; [|done].
  assert (Hx := Hn x ltac:(by left)). assert (Ha' : apply_event x (drop_frame f r) = Some (drop_frame f r')).
  { apply apply_inv in Ha. apply apply_intro. unfold mentions in Hx. destruct x as [g|g|o t e|o t e e'|o t|g i|g i]; cbn in *.
    - destruct Ha as (? & ->). split; [set_solver|]. unfold drop_frame. cbn. f_equal. apply set_eq. intros u. set_unfold. naive_solver.
    - destruct Ha as (? & Hb & ->). split; [set_unfold; naive_solver|]. split; [done|]. unfold drop_frame. cbn. f_equal. set_solver.
    - destruct Ha as (? & ? & ? & ? & ->). split; [set_unfold; naive_solver|]. split; [set_unfold; naive_solver|]. done.
    - by destruct Ha as (? & ? & ->).
    - by destruct Ha as (? & ? & ->).
    - destruct Ha as (? & ->). split; [set_unfold; naive_solver|]. done.
    - by destruct Ha as (? & ->). }
  rewrite Ha'. apply IH; [done|]. intros y Hy. apply Hn. by right.
Qed.

Definition no_edges_at (f : frameid) (r : replica) : Prop := forall a b, (a, b) ∈ r_edges r -> a <> f /\ b <> f.

(* After a frame has been added, nothing about it can follow if it ends up bare. *)
Lemma replay_no_mention f q r r1 : replay q r = Some r1 -> f ∈ r_frames r -> no_edges_at f r -> no_edges_at f r1 ->
  EvFrameRemoved f ∉ q -> (forall x, x ∈ q -> ~ on_items f x) ->
  (forall a b x y, sublist [x; y] q -> is_add x -> on_edge a b x -> is_remove y -> on_edge a b y -> False) ->
  forall x, x ∈ q -> ~ mentions f x.
Proof.
  revert r. induction q as [|x q IH]; intros r Hq Hf He He1 Hr Hi Ho; [intros x Hc; by apply elem_of_nil in Hc|].
  cbn [replay] in Hq. destruct (apply_event x r) as [r'|] eqn:Ha; [|done].
  assert (Hx : ~ mentions f x).
  { intros [-> |[-> |[(a & b & Hab & Hor)|Hit]]].
    - by apply apply_inv in Ha as [? _].
    - apply Hr. by left.
    - destruct x as [| |o t e|o t e e'|o t| |]; try done; cbn in Hab; injection Hab as -> ->; pose proof (apply_inv _ _ _ Ha) as Hv; cbn in Hv.
      + destruct Hv as (_ & _ & _ & _ & ->).
        destruct (replay_stays a b q _ _ Hq) as [Hs _].
        * cbn. set_solver.
        * intros y Hy Hry Hoy. apply (Ho a b (EvEdgeAdded a b e) y); [|done|by left|done|done]. apply sublist_skip. by apply sublist_single.
        * apply He1 in Hs as [? ?]. tauto.
      + destruct Hv as (Hv & _). apply He in Hv as [? ?]. tauto.
      + destruct Hv as (Hv & _). apply He in Hv as [? ?]. tauto.
    - apply (Hi x); [by left|done]. }
  assert (Hf' : f ∈ r_frames r' /\ no_edges_at f r').
  { apply apply_inv in Ha. unfold no_edges_at, mentions in *. destruct x as [g|g|o t e|o t e e'|o t|g i|g i]; cbn in *.
    - destruct Ha as (? & ->). cbn. split; [set_solver|done].
    - destruct Ha as (? & _ & ->). cbn. split; [set_unfold; naive_solver|done].
    - destruct Ha as (? & ? & _ & _ & ->). cbn. split; [done|]. intros u v [Huv|Huv]%elem_of_union; [|by apply He]. set_unfold. naive_solver.
    - by destruct Ha as (_ & _ & ->).
    - destruct Ha as (_ & _ & ->). cbn. split; [done|]. intros u v Huv. apply He. set_solver.
    - by destruct Ha as (_ & ->).
    - by destruct Ha as (_ & ->). }
  destruct Hf' as [Hf' He']. intros y [-> |Hy]%elem_of_cons; [done|]. refine (IH r' Hq Hf' He' He1 _ _ _ y Hy).
  - intros Hc. apply Hr. by right.
  - intros z Hz. apply Hi. by right.
  - intros a b u v Huv. apply Ho. by apply sublist_cons.
Qed.

Lemma replay_frame_stays f q r r1 : replay q r = Some r1 -> f ∈ r_frames r -> EvFrameRemoved f ∉ q -> EvFrameAdded f ∉ q /\ f ∈ r_frames r1.
Proof.
  revert r. induction q as [|x q IH]; intros r Hq Hf Hn; [injection Hq as ->; split; [by apply not_elem_of_nil|done]|].
  cbn [replay] in Hq. destruct (apply_event x r) as [r'|] eqn:Ha; [|done]. apply not_elem_of_cons in Hn as [Hn1 Hn].
  assert (Hx : x <> EvFrameAdded f /\ f ∈ r_frames r').
  { apply apply_inv in Ha. destruct x as [g|g|o t e|o t e e'|o t|g i|g i]; cbn in *.
    - destruct Ha as (? & ->). cbn. split; [congruence|set_solver].
    - destruct Ha as (? & _ & ->). cbn. split; [done|]. apply elem_of_difference. split; [done|]. intros ->%elem_of_singleton. done.
    - destruct Ha as (_ & _ & _ & _ & ->). done.
    - by destruct Ha as (_ & _ & ->).
    - by destruct Ha as (_ & _ & ->).
    - by destruct Ha as (_ & ->).
    - by destruct Ha as (_ & ->). }
  destruct Hx as [Hx Hf']. destruct (IH r' Hq Hf' Hn) as [H1 H2]. split; [|done]. intros [Hc|Hc]%elem_of_cons; [congruence|done].
Qed.

Lemma sound_apply x r r' : sound_replica r -> apply_event x r = Some r' -> sound_replica r'.
Proof.
  intros [S1 S2] Ha%apply_inv. destruct x as [g|g|o t e|o t e e'|o t|g i|g i]; cbn in *.
  - destruct Ha as (? & ->). split; cbn; [intros a b Hab; destruct (S1 a b Hab) as (? & ? & ?); set_solver|]. intros f i Hi. apply S2 in Hi. set_solver.
  - destruct Ha as (? & Hb & ->). apply bare_spec in Hb as [B1 B2]. split; cbn.
    + intros a b Hab. destruct (S1 a b Hab) as (? & ? & ?), (B1 a b Hab). set_solver.
    + intros f i Hi. pose proof (S2 f i Hi). pose proof (B2 f i Hi). set_solver.
  - destruct Ha as (? & ? & _ & _ & ->). split; cbn; [|done]. intros a b [Hab|Hab]%elem_of_union; [set_unfold; naive_solver|].
    destruct (S1 a b Hab) as (? & ? & ?). set_solver.
  - by destruct Ha as (_ & _ & ->).
  - destruct Ha as (_ & _ & ->). split; cbn; [|done]. intros a b [Hab Hn]%elem_of_difference. destruct (S1 a b Hab) as (? & ? & ?).
    split; [done|]. split; [done|]. apply elem_of_difference. split; [done|]. set_unfold. naive_solver.
  - destruct Ha as (? & ->). split; cbn; [done|]. intros f j [Hj|Hj]%gmultiset_elem_of_disj_union; [by eapply S2|].
    apply gmultiset_elem_of_singleton in Hj. congruence.
  - destruct Ha as (? & ->). split; cbn; [done|]. intros f j Hj. apply (S2 f j). multiset_solver.
Qed.
Lemma sound_replay q r r' : sound_replica r -> replay q r = Some r' -> sound_replica r'.
Proof.
  revert r. induction q as [|x q IH]; intros r Hs Hq; [by injection Hq as <-|]. cbn [replay] in Hq.
  destruct (apply_event x r) as [r1|] eqn:Ha; [|done]. apply (IH r1); [|done]. by eapply sound_apply.
Qed.

(** Invariant of the queue. *)
Record qinv (evs q : list event) (r0 r : replica) : Prop := {
  qi_sub : sublist q evs;
  qi_replay : replay q r0 = Some r;
  qi_edges : forall a b x y, sublist [x; y] q -> is_add x -> on_edge a b x -> is_remove y -> on_edge a b y -> False;
  qi_frames : forall f, ~ sublist [EvFrameAdded f; EvFrameRemoved f] q }.

Lemma qinv_push evs q r0 r new r' : qinv evs q r0 r -> apply_event new r = Some r' ->
  (forall a b x, is_remove new -> on_edge a b new -> x ∈ q -> is_add x -> ~ on_edge a b x) ->
  (forall f, new = EvFrameRemoved f -> EvFrameAdded f ∉ q) -> qinv (evs ++ [new]) (q ++ [new]) r0 r'.
Proof.
  intros [I1 I2 I3 I4] Ha He Hf. split.
  - by apply sublist_app.
  - rewrite replay_app, I2. cbn. by rewrite Ha.
  - intros a b x y [Hs|[-> Hx]]%sublist2_snoc Hax Hox Hry Hoy; [by eapply I3|]. by eapply He.
  - intros f [Hs|[Hn Hx]]%sublist2_snoc; [by apply (I4 f)|]. by eapply Hf.
Qed.
Lemma qinv_filter evs q (P : event -> Prop) `{!forall x, Decision (P x)} r0 r r' : qinv evs q r0 r ->
  replay (filter P q) r0 = Some r' -> qinv evs (filter P q) r0 r'.
Proof.
  intros [I1 I2 I3 I4] Hr. pose proof (filter_sublist P q) as Hs. split.
  - by etrans.
  - done.
  - intros a b x y Hxy. apply I3. by etrans.
  - intros f Hf. apply (I4 f). by etrans.
Qed.
Lemma qinv_more evs q r0 r new : qinv evs q r0 r -> qinv (evs ++ [new]) q r0 r.
Proof. intros [I1 I2 I3 I4]. split; try done. by apply sublist_inserts_r. Qed.

Lemma on_edge_rev a b x : on_edge a b x <-> on_edge b a x.
Proof. unfold on_edge. tauto. Qed.

Lemma queue_step evs q r0 r new r' : sound_replica r0 -> qinv evs q r0 r -> apply_event new r = Some r' ->
  removed_once r0 (evs ++ [new]) -> no_short_lived_items (evs ++ [new]) -> qinv (evs ++ [new]) (q_notify q new) r0 r'.
Proof.
  intros Hs0 Iv Ha Hro Hsl. pose proof Iv as [I1 I2 I3 I4].
  destruct new as [f|f|o t e|o t e e'|o t|f i|f i].
  1,3,6,7: rewrite notify_other; [|done|cbn; auto]; apply (qinv_push evs q r0 r); try done; cbn; naive_solver.
  - (* frame removed *)
    rewrite notify_frame_removed. destruct (decide _) as [Hin|Hin].
    2:{ apply (qinv_push evs q r0 r); try done. intros g [= <-]. done. }
    apply qinv_more. apply (qinv_filter evs q _ r0 r r' Iv).
    apply elem_of_list_split in Hin as (q1 & q2 & ->).
    rewrite replay_app in I2. destruct (replay q1 r0) as [ra|] eqn:R1; [|done]. cbn [replay] in I2.
    destruct (apply_event (EvFrameAdded f) ra) as [rb|] eqn:R2; [|done].
    pose proof (apply_inv _ _ _ R2) as (Hfa & Hrb). pose proof (apply_inv _ _ _ Ha) as (Hfr & Hbare & Hr'). cbn in Hfa, Hrb, Hfr, Hbare, Hr'.
    assert (Hsa : sound_replica ra) by by eapply sound_replay.
    assert (N2 : EvFrameRemoved f ∉ q2). { intros Hc. apply (I4 f). by apply sublist_split2. }
    assert (Hfb : f ∈ r_frames rb) by (subst rb; cbn; set_solver).
    destruct (replay_frame_stays f q2 rb r I2 Hfb N2) as [A2 _].
    assert (A1 : EvFrameAdded f ∉ q1).
    { intros (q3 & q4 & ->)%elem_of_list_split. rewrite replay_app in R1. destruct (replay q3 r0) as [rc|]; [|done]. cbn [replay] in R1.
      destruct (apply_event (EvFrameAdded f) rc) as [rd|] eqn:R3; [|done]. apply apply_inv in R3 as (_ & ->).
      destruct (replay_frame_stays f q4 _ _ R1) as [_ Hc]; [cbn; set_solver| |done].
      intros Hc. apply (I4 f). rewrite <- app_assoc. apply sublist_inserts_l. cbn. apply sublist_skip. apply sublist_single. apply elem_of_app. by left. }
    rewrite list.filter_app, filter_cons, decide_False by (intros Hc; by apply Hc).
    rewrite !filter_all by (intros x Hx ->; done).
    assert (M2 : forall x, x ∈ q2 -> ~ mentions f x).
    { apply bare_spec in Hbare as [B1 _]. apply (replay_no_mention f q2 rb r I2); [done| |done|done| |].
      - subst rb. intros a b Hab. cbn in Hab. destruct Hsa as [S1 _]. destruct (S1 a b Hab) as (? & ? & _). split; intros ->; done.
      - intros x Hx Hit. apply (Hsl f x); [|done]. change [EvFrameAdded f; x; EvFrameRemoved f] with ([EvFrameAdded f; x] ++ [EvFrameRemoved f]).
        apply sublist_app; [|done]. etrans; [|exact I1]. by apply sublist_split2.
      - intros a b x y Hxy. apply I3. etrans; [exact Hxy|]. apply sublist_inserts_l, sublist_cons. done. }
    rewrite replay_app, R1. change (Replica (r_frames r ∖ {[f]}) (r_edges r) (r_items r)) with (drop_frame f r) in Hr'. subst r'. rewrite <- (replay_drop_frame f q2 rb r I2 M2).
    assert (drop_frame f rb = ra) as ->; [|done]. subst rb. apply replica_eq; [|done|done]. cbn. set_solver.
  - (* edge modified *)
    rewrite notify_modified. apply (qinv_push evs _ r0 r); [|done|done|done]. apply (qinv_filter evs q _ r0 r r Iv).
    apply replay_drop_modify; [|done]. intros x _ Hm. apply not_false_is_true in Hm. by apply mergeable_modified in Hm as [? _].
  - (* edge removed *)
    rewrite notify_removed. pose proof (apply_inv _ _ _ Ha) as (Hot & Hto & Hr'). cbn in Hot, Hto, Hr'.
    destruct (decide ((o, t) ∈ r_edges r0)) as [Hin0|Hin0].
    + assert (Hno : forall x, x ∈ q -> is_remove x -> ~ on_edge o t x).
      { intros x Hx Hr Ho. apply (Hro o t x (EvEdgeRemoved o t) Hin0); [|done|by left|done|done].
        change [x; EvEdgeRemoved o t] with ([x] ++ [EvEdgeRemoved o t]). apply sublist_app; [|done]. etrans; [|exact I1]. by apply sublist_single. }
      destruct (replay_stays o t q r0 r I2 Hin0 Hno) as [_ Hna].
      rewrite decide_False by (intros (x & Hx & Ho & Hax)%list.Exists_exists; by apply (Hna x)).
      apply (qinv_push evs _ r0 r); [|done| |done].
      * apply (qinv_filter evs q _ r0 r r Iv). apply replay_drop_modify; [|done]. intros x Hx Ho%dec_stable.
        destruct x; [by destruct Ho|by destruct Ho|by destruct (Hna _ Hx I Ho)|done|by destruct (Hno _ Hx I Ho)|by destruct Ho|by destruct Ho].
      * intros a b x _ Hab Hx Hax Hox. apply elem_of_list_filter in Hx as [Hx _]. apply Hx. unfold on_edge in *. cbn in Hab. naive_solver.
    + assert (Hin1 : (t, o) ∉ r_edges r0). { intros Hc. apply Hin0. by apply Hs0 in Hc as (_ & _ & ?). }
      destruct (replay_must_add o t q r0 r I2 Hin0 Hot) as (x & Hx & Ho & Hax).
      rewrite decide_True by (apply list.Exists_exists; by exists x).
      apply qinv_more. apply (qinv_filter evs q _ r0 r r' Iv).
      rewrite <- (cut_absent o t r0 Hin0 Hin1). rewrite (replay_cut o t q r0 r I2). by subst r'.
Qed.

Lemma removed_once_mono r e1 e2 : removed_once r (e1 ++ e2) -> removed_once r e1.
Proof. intros H a b x y Hab Hs. apply (H a b x y Hab). by apply sublist_inserts_r. Qed.
Lemma short_lived_mono e1 e2 : no_short_lived_items (e1 ++ e2) -> no_short_lived_items e1.
Proof. intros H f x Hs. apply (H f x). by apply sublist_inserts_r. Qed.

Lemma queue_replay evs r0 r : sound_replica r0 -> replay evs r0 = Some r -> removed_once r0 evs -> no_short_lived_items evs ->
  qinv evs (q_receive evs) r0 r.
Proof.
  intros Hs. revert r. induction evs as [|new evs IH] using rev_ind; intros r Hr Hro Hsl.
  - split; try done; [intros a b x y Hc; by apply sublist_nil_r in Hc|intros f Hc; by apply sublist_nil_r in Hc].
  - rewrite replay_app in Hr. destruct (replay evs r0) as [r1|] eqn:R1; [|done]. cbn in Hr.
    destruct (apply_event new r1) as [r2|] eqn:Ha; [|done]. injection Hr as <-. rewrite q_receive_snoc.
    apply (queue_step evs _ r0 r1); try done. apply IH; [done|by eapply removed_once_mono|by eapply short_lived_mono].
Qed.

Lemma queue_replays evs r0 r : sound_replica r0 -> replay evs r0 = Some r -> removed_once r0 evs -> no_short_lived_items evs ->
  replay (q_receive evs) r0 = Some r.
Proof. intros H1 H2 H3 H4. exact (qi_replay _ _ _ _ (queue_replay evs r0 r H1 H2 H3 H4)). Qed.

(** The net effect on frames is right for all streams. *)
Lemma frames_after_app e1 e2 F : frames_after (e1 ++ e2) F = frames_after e2 (frames_after e1 F).
Proof. apply foldl_app. Qed.
Lemma frames_after_cons x e F : frames_after (x :: e) F =
  frames_after e (match x with EvFrameAdded f => {[f]} ∪ F | EvFrameRemoved f => F ∖ {[f]} | _ => F end).
Proof. done. Qed.
Lemma frames_after_gone f q F : EvFrameAdded f ∉ q -> EvFrameRemoved f ∈ q \/ f ∉ F -> f ∉ frames_after q F.
Proof.
  revert F. induction q as [|x q IH]; intros F Hn Hf; [destruct Hf as [Hf|]; [by apply elem_of_nil in Hf|done]|].
  rewrite frames_after_cons. apply not_elem_of_cons in Hn as [Hx Hn]. apply IH; [done|].
  destruct Hf as [[<- |Hf]%elem_of_cons|Hf]; [right; set_solver|by left|]. right. destruct x; try done; set_unfold; naive_solver.
Qed.
Lemma frames_after_filter f g q F : g <> f -> g ∈ frames_after (filter (fun x => x <> EvFrameAdded f) q) F <-> g ∈ frames_after q F.
Proof.
  intros Hgf. assert (G : forall F1 F2, (g ∈ F1 <-> g ∈ F2) -> g ∈ frames_after (filter (fun x => x <> EvFrameAdded f) q) F1 <-> g ∈ frames_after q F2).
  { induction q as [|x q IH]; intros F1 F2 HF; [done|]. rewrite filter_cons. destruct (decide (x <> EvFrameAdded f)) as [Hx|Hx].
    - rewrite !frames_after_cons. apply IH. destruct x; set_unfold; naive_solver.
    - apply dec_stable in Hx. subst. rewrite frames_after_cons. apply IH. set_unfold. naive_solver. }
  by apply G.
Qed.
Lemma frames_after_edges q F (P : event -> Prop) `{!forall x, Decision (P x)} : (forall x, ~ P x -> edge_of x <> None) ->
  frames_after (filter P q) F = frames_after q F.
Proof.
  intros HP. revert F. induction q as [|x q IH]; intros F; [done|]. rewrite filter_cons. destruct (decide (P x)) as [Hx|Hx].
  - rewrite !frames_after_cons. apply IH.
  - rewrite frames_after_cons, IH. apply HP in Hx. by destruct x.
Qed.
Lemma frames_after_present f q F : f ∈ F -> f ∉ frames_after q F -> EvFrameRemoved f ∈ q.
Proof.
  revert F. induction q as [|x q IH]; intros F Hf Hn; [done|]. rewrite frames_after_cons in Hn.
  destruct (decide (x = EvFrameRemoved f)) as [-> |Hx]; [by left|]. right. eapply IH; [|exact Hn]. destruct x; set_unfold; naive_solver.
Qed.

Record finv (q : list event) (F0 F : gset frameid) : Prop := {
  fi_frames : frames_after q F0 = F;
  fi_order : forall f, ~ sublist [EvFrameAdded f; EvFrameRemoved f] q;
  fi_added : forall f, EvFrameAdded f ∈ q -> f ∈ F0 -> EvFrameRemoved f ∈ q }.

Lemma finv_filter q F0 F (P : event -> Prop) `{!forall x, Decision (P x)} : (forall x, ~ P x -> edge_of x <> None) -> finv q F0 F -> finv (filter P q) F0 F.
Proof.
  intros HP [I1 I2 I3]. split.
  - rewrite frames_after_edges by done. done.
  - intros f Hs. apply (I2 f). etrans; [exact Hs|apply filter_sublist].
  - intros f [_ Hf]%elem_of_list_filter Hf0. apply elem_of_list_filter. split; [|by apply I3].
    apply dec_stable. intros Hc. by apply (HP _ Hc).
Qed.
Lemma finv_push q F0 F x : finv q F0 F -> (forall f, x = EvFrameAdded f -> f ∉ F) -> (forall f, x = EvFrameRemoved f -> EvFrameAdded f ∉ q) ->
  finv (q ++ [x]) F0 (frames_after [x] F).
Proof.
  intros [I1 I2 I3] Ha Hr. split.
  - by rewrite frames_after_app, I1.
  - intros f [Hs|[Hx Hf]]%sublist2_snoc; [by apply (I2 f)|]. by apply (Hr f).
  - intros f [Hf|Hf]%elem_of_app Hf0.
    + apply elem_of_app. left. by apply I3.
    + apply elem_of_list_singleton in Hf. subst x. apply elem_of_app. left. apply (frames_after_present f q F0 Hf0). rewrite I1. by apply Ha.
Qed.

Lemma finv_step q F0 r new r' : finv q F0 (r_frames r) -> apply_event new r = Some r' -> finv (q_notify q new) F0 (r_frames r').
Proof.
  intros Iv Ha. pose proof Iv as [I1 I2 I3]. pose proof (apply_inv _ _ _ Ha) as Hv. destruct new as [f|f|o t e|o t e e'|o t|f i|f i].
  - destruct Hv as (Hf & ->). rewrite notify_other by (done || by left). apply (finv_push q F0 (r_frames r) (EvFrameAdded f)); [done|intros g [= <-]; done|done].
  - destruct Hv as (Hf & _ & ->). rewrite notify_frame_removed. destruct (decide _) as [Hin|Hin].
    + cbn [r_frames]. split.
      * apply set_eq. intros g. rewrite elem_of_difference, elem_of_singleton. destruct (decide (g = f)) as [-> |Hgf].
        -- split; [|naive_solver]. intros Hc. exfalso. revert Hc. apply frames_after_gone.
           ++ intros Hc. by apply elem_of_list_filter in Hc as [Hc _].
           ++ destruct (decide (f ∈ F0)) as [Hf0|Hf0]; [left|by right]. apply elem_of_list_filter. split; [done|]. by apply I3.
        -- rewrite frames_after_filter by done. rewrite I1. naive_solver.
      * intros g Hs. apply (I2 g). etrans; [exact Hs|apply filter_sublist].
      * intros g [Hgn Hg]%elem_of_list_filter Hg0. apply elem_of_list_filter. split; [done|]. by apply I3.
    + apply (finv_push q F0 (r_frames r) (EvFrameRemoved f)); [done|done|]. intros g [= <-]. done.
  - destruct Hv as (_ & _ & _ & _ & ->). rewrite notify_other by (done || by right). by refine (finv_push q F0 (r_frames r) _ Iv _ _).
  - destruct Hv as (_ & _ & ->). rewrite notify_modified.
    apply (finv_push _ F0 (r_frames r) (EvEdgeModified o t e e')); [|done|done]. apply finv_filter; [|done].
    intros x Hx%not_false_is_true. apply mergeable_modified in Hx as [_ [Hx|Hx]]; congruence.
  - destruct Hv as (_ & _ & ->). cbn [r_frames]. rewrite notify_removed.
    assert (Hfl : finv (filter (fun x => ~ on_edge o t x) q) F0 (r_frames r)).
    { apply finv_filter; [|done]. intros x [Hx|Hx]%dec_stable; congruence. }
    destruct (decide _); [done|]. by apply (finv_push _ F0 (r_frames r) (EvEdgeRemoved o t)).
  - destruct Hv as (_ & ->). rewrite notify_other by (done || by left). by refine (finv_push q F0 (r_frames r) _ Iv _ _).
  - destruct Hv as (_ & ->). rewrite notify_other by (done || by left). by refine (finv_push q F0 (r_frames r) _ Iv _ _).
Qed.

Lemma queue_frames evs r0 r : replay evs r0 = Some r -> frames_after (q_receive evs) (r_frames r0) = r_frames r.
Proof.
  intros Hr. cut (finv (q_receive evs) (r_frames r0) (r_frames r)); [by intros []|].
  revert r Hr. induction evs as [|new evs IH] using rev_ind; intros r Hr.
  - injection Hr as <-. split; [done|intros f Hc; by apply sublist_nil_r in Hc|]. intros f Hc. by apply elem_of_nil in Hc.
  - rewrite replay_app in Hr. destruct (replay evs r0) as [r1|] eqn:R1; [|done]. cbn in Hr.
    destruct (apply_event new r1) as [r2|] eqn:Ha; [|done]. injection Hr as <-. rewrite q_receive_snoc. by apply (finv_step _ _ r1); [apply IH|].
Qed.

(** The net effect on edges is wrong whenever an edge is removed, added and removed again. *)
Lemma edges_after_cons x e X : edges_after (x :: e) X = edges_after e (match x with
    | EvEdgeAdded o t _ => {[(o, t); (t, o)]} ∪ X | EvEdgeRemoved o t => X ∖ {[(o, t); (t, o)]} | _ => X end).
Proof. done. Qed.
Lemma edges_after_off a b q X : (forall x, x ∈ q -> ~ on_edge a b x) -> (a, b) ∈ edges_after q X <-> (a, b) ∈ X.
Proof.
  revert X. induction q as [|x q IH]; intros X Hq; [done|]. rewrite edges_after_cons, IH by (intros y Hy; apply Hq; by right).
  assert (Hx := Hq x ltac:(by left)). unfold on_edge in Hx. destruct x; cbn in Hx; try done; set_unfold; naive_solver.
Qed.
Lemma replay_off a b q r r' : replay q r = Some r' -> (forall x, x ∈ q -> ~ on_edge a b x) -> (a, b) ∈ r_edges r' <-> (a, b) ∈ r_edges r.
Proof.
  revert r. induction q as [|x q IH]; intros r Hq Hn; [by injection Hq as ->|]. cbn [replay] in Hq. destruct (apply_event x r) as [r1|] eqn:Ha; [|done].
  rewrite (IH r1 Hq) by (intros y Hy; apply Hn; by right). assert (Hx := Hn x ltac:(by left)). apply apply_inv in Ha. unfold on_edge in Hx.
  destruct x as [f|f|o t e|o t e e'|o t|f i|f i]; cbn in Hx.
  - by destruct Ha as (_ & ->). - by destruct Ha as (_ & _ & ->).
  - destruct Ha as (_ & _ & _ & _ & ->). cbn. set_unfold. naive_solver.
  - by destruct Ha as (_ & _ & ->).
  - destruct Ha as (_ & _ & ->). cbn. set_unfold. naive_solver.
  - by destruct Ha as (_ & ->). - by destruct Ha as (_ & ->).
Qed.

Lemma queue_edge_wrong a b e1 x e2 y e3 r0 r : (a, b) ∈ r_edges r0 -> replay (e1 ++ x :: e2 ++ y :: e3) r0 = Some r ->
  on_edge a b x -> is_add x -> on_edge a b y -> is_remove y -> (forall z, z ∈ e2 -> is_remove z -> ~ on_edge a b z) ->
  (forall z, z ∈ e3 -> ~ on_edge a b z) ->
  (a, b) ∉ r_edges r /\ (a, b) ∈ edges_after (q_receive (e1 ++ x :: e2 ++ y :: e3)) (r_edges r0).
Proof.
  intros Hin Hr Hx Ha Hy Hry H2 H3. split.
  - assert (Hsplit : e1 ++ x :: e2 ++ y :: e3 = (e1 ++ x :: e2) ++ y :: e3) by (rewrite <- app_assoc; done).
    rewrite Hsplit, replay_app in Hr. destruct (replay (e1 ++ x :: e2) r0) as [r1|]; [|done]. cbn [replay] in Hr.
    destruct (apply_event y r1) as [r2|] eqn:Hay; [|done]. rewrite (replay_off a b e3 r2 r Hr H3). apply apply_inv in Hay.
    destruct y as [| | | |o t| |]; try done. destruct Hay as (_ & _ & ->). cbn. unfold on_edge in Hy. cbn in Hy. set_unfold. naive_solver.
  - apply edges_after_off; [|done]. by apply (added_removed_gone a b e1 x e2 y e3).
Qed.

(** flush *)
Lemma sublist_fmap {A B} (f : A -> B) (l k : list A) : sublist l k -> sublist (f <$> l) (f <$> k).
Proof. induction 1; cbn; by constructor. Qed.
Lemma sublist_NoDup {A} (l k : list A) : NoDup k -> sublist l k -> NoDup l.
Proof.
  intros Hk Hs. induction Hs as [|x l k Hs IH|x l k Hs IH]; [done| |].
  - apply list.NoDup_cons in Hk as [Hx Hk]. apply list.NoDup_cons. split; [|by apply IH]. intros Hc. apply Hx. by eapply elem_of_sublist.
  - apply list.NoDup_cons in Hk as [_ Hk]. by apply IH.
Qed.
Lemma nq_scan_eq new q : nq_scan new q =
  (existsb (fun old => mergeable old.2 new && cancels old.2 new) q, filter (fun old => mergeable old.2 new = false) q).
Proof.
  induction q as [|old q IH]; [done|]. cbn [nq_scan existsb]. rewrite IH, filter_cons. destruct (mergeable old.2 new); cbn.
  - by rewrite decide_False by done.
  - by rewrite decide_True by done.
Qed.
Lemma nq_scan_snd new q : (nq_scan new q).1 = (q_scan new q.*2).1 /\ (nq_scan new q).2.*2 = (q_scan new q.*2).2.
Proof.
  induction q as [|[i old] q IH]; [done|]. cbn. destruct (nq_scan new q) as [s1 l1], (q_scan new q.*2) as [s2 l2]. cbn in IH. destruct IH as [-> <-].
  by destruct (mergeable old new).
Qed.
Lemma nq_notify_snd nq new : (nq_notify nq new).2.*2 = q_notify nq.2.*2 new.
Proof.
  unfold nq_notify, q_notify. pose proof (nq_scan_snd new nq.2) as [H1 H2]. destruct (nq_scan new nq.2) as [s1 l1], (q_scan new nq.2.*2) as [s2 l2].
  cbn in H1, H2. subst. destruct s2; cbn; [done|]. by rewrite fmap_app.
Qed.

Section flush.
Context {H : Type} (react : H -> event -> H * list event).

Definition fresh_ids (nq : nat * list (nat * event)) : Prop := NoDup nq.2.*1 /\ forall i e, (i, e) ∈ nq.2 -> i < nq.1.

Lemma fresh_notify nq new : fresh_ids nq -> fresh_ids (nq_notify nq new) /\ nq.1 <= (nq_notify nq new).1 /\
  forall i e, i < nq.1 -> (i, e) ∈ (nq_notify nq new).2 <-> (i, e) ∈ nq.2 /\ mergeable e new = false.
Proof.
  destruct nq as [n q]. intros [Hnd Hlt]. cbn in Hnd, Hlt. unfold nq_notify. rewrite nq_scan_eq. cbn [fst snd].
  set (q' := filter (fun old : nat * event => mergeable old.2 new = false) q).
  assert (Hq' : forall i e, (i, e) ∈ q' <-> (i, e) ∈ q /\ mergeable e new = false). { intros i e. unfold q'. rewrite elem_of_list_filter. cbn. tauto. }
  assert (Hs : sublist q' q) by apply filter_sublist.
  assert (Hnd' : NoDup q'.*1). { eapply sublist_NoDup; [exact Hnd|]. by apply sublist_fmap. }
  destruct existsb; unfold fresh_ids; cbn [fst snd].
  - split; [split; [done|]|split; [done|]].
    + intros i e [Hi _]%Hq'. by eapply Hlt.
    + intros i e _. apply Hq'.
  - split; [split|split; [lia|]].
    + rewrite fmap_app. apply list.NoDup_app. split; [done|]. split; [|apply NoDup_singleton]. intros i Hi Hc. cbn in Hc. apply elem_of_list_singleton in Hc. subst i.
      apply elem_of_list_fmap in Hi as ([j e] & Hj & Hi). cbn in Hj. subst j. apply Hq' in Hi as [Hi _]. apply Hlt in Hi. lia.
    + intros i e [Hi|Hi]%elem_of_app; [apply Hq' in Hi as [Hi _]; apply Hlt in Hi; lia|]. apply elem_of_list_singleton in Hi. injection Hi as -> ->. lia.
    + intros i e Hi. rewrite elem_of_app, Hq', elem_of_list_singleton. split; [|tauto]. intros [?|Hc]; [done|]. injection Hc as -> ->. lia.
Qed.
Lemma fresh_receive evs nq : fresh_ids nq -> fresh_ids (foldl nq_notify nq evs) /\ nq.1 <= (foldl nq_notify nq evs).1 /\
  forall i e, i < nq.1 -> (i, e) ∈ (foldl nq_notify nq evs).2 <-> (i, e) ∈ nq.2 /\ forall new, new ∈ evs -> mergeable e new = false.
Proof.
  revert nq. induction evs as [|new evs IH]; intros nq Hf; cbn [foldl].
  - split; [done|]. split; [done|]. intros i e _. split; [|tauto]. intros Hi. split; [done|]. intros new Hc. by apply elem_of_nil in Hc.
  - destruct (fresh_notify nq new Hf) as (F1 & L1 & E1). destruct (IH _ F1) as (F2 & L2 & E2). split; [done|]. split; [lia|].
    intros i e Hi. rewrite E2 by lia. rewrite E1 by done. split.
    + intros ((Hin & Hm) & Hall). split; [done|]. intros x [-> |Hx]%elem_of_cons; [done|by apply Hall].
    + intros (Hin & Hall). split; [split; [done|]|]; [apply Hall; by left|]. intros x Hx. apply Hall. by right.
Qed.

Lemma fresh_head id (q : list (nat * event)) : existsb (fun x => Nat.eqb x.1 id) q = true <-> exists e', (id, e') ∈ q.
Proof.
  rewrite existsb_exists. split.
  - intros ([i e'] & Hin%elem_of_list_In & Hi%Nat.eqb_eq). cbn in Hi. subst i. by exists e'.
  - intros (e' & Hin). exists (id, e'). split; [by apply elem_of_list_In|]. cbn. apply Nat.eqb_refl.
Qed.
Lemma fresh_same_id nq i e e' : fresh_ids nq -> (i, e) ∈ nq.2 -> (i, e') ∈ nq.2 -> e = e'.
Proof.
  intros [Hnd _] H1 H2. destruct nq as [n q]. cbn in *. apply elem_of_list_lookup in H1 as [j1 H1]. apply elem_of_list_lookup in H2 as [j2 H2].
  assert (j1 = j2) as ->.
  { eapply NoDup_lookup; [exact Hnd| |]; rewrite list_lookup_fmap; [by rewrite H1|by rewrite H2]. }
  congruence.
Qed.
Lemma flush_no_ub : (forall h e new, new ∈ (react h e).2 -> mergeable e new = false) ->
  forall fuel h nq, fresh_ids nq -> let '(_, _, nq', r) := nq_flush react fuel h nq in r = Fuel \/ r = Ret tt /\ nq'.2 = [].
Proof.
  intros Hm fuel. induction fuel as [|fuel IH]; intros h nq Hf; [by left|]. destruct nq as [n [|[id e] q]]; [by right|].
  cbn [nq_flush snd]. specialize (Hm h e). destruct (react h e) as [h1 evs]. cbn in Hm.
  destruct (fresh_receive evs _ Hf) as (F1 & L1 & E1). destruct (foldl nq_notify (n, (id, e) :: q) evs) as [n1 q1]. cbn [fst snd] in *.
  assert (Hin : (id, e) ∈ q1). { apply E1; [destruct Hf as [_ Hlt]; eapply Hlt; by left|]. split; [by left|done]. }
  rewrite (proj2 (fresh_head id q1)) by (by exists e).
  assert (F2 : fresh_ids (n1, filter (fun x : nat * event => x.1 <> id) q1)).
  { destruct F1 as [Hnd Hlt]. cbn in *. split; cbn.
    - eapply sublist_NoDup; [exact Hnd|]. apply sublist_fmap. apply filter_sublist.
    - intros i x [_ Hi]%elem_of_list_filter. by eapply Hlt. }
  specialize (IH h1 _ F2). destruct (nq_flush react fuel h1 _) as [[[h2 dn] nq2] r]. done.
Qed.

Lemma flush_ub fuel h n id e q h1 evs new : fresh_ids (n, (id, e) :: q) -> react h e = (h1, evs) -> new ∈ evs -> mergeable e new = true ->
  exists nq', nq_flush react (S fuel) h (n, (id, e) :: q) = (h1, [e], nq', UB).
Proof.
  intros Hf Hre Hn Hm. cbn [nq_flush snd]. rewrite Hre.
  destruct (fresh_receive evs _ Hf) as (F1 & L1 & E1).
  destruct (foldl nq_notify (n, (id, e) :: q) evs) as [n1 q1] eqn:Hfold. cbn [fst snd] in *.
  destruct (existsb _ q1) eqn:Hex; [|eauto]. exfalso. apply (fresh_head id q1) in Hex as [e' Hin]. cbn in Hin.
  assert (Hid : id < n). { destruct Hf as [_ Hlt]. eapply Hlt. by left. }
  apply E1 in Hin as [Hin Hall]; [|done].
  assert (e' = e) as ->. { apply (fresh_same_id _ id e' e Hf); [done|by left]. }
  apply Hall in Hn. congruence.
Qed.

(* A receiver that causes no events gets the queue in order. *)
Lemma flush_in_order : (forall h e, (react h e).2 = []) ->
  forall fuel h nq, fresh_ids nq -> length nq.2 < fuel -> exists h', nq_flush react fuel h nq = (h', nq.2.*2, (nq.1, []), Ret tt).
Proof.
  intros Hm fuel. induction fuel as [|fuel IH]; intros h nq Hf Hl; [lia|]. destruct nq as [n [|[id e] q]]; [cbn; eauto|].
  cbn [nq_flush snd]. specialize (Hm h e). destruct (react h e) as [h1 evs]. cbn in Hm. subst evs. cbn [foldl]. cbn [existsb fst]. rewrite Nat.eqb_refl. cbn [orb].
  assert (Hfil : filter (fun x : nat * event => x.1 <> id) ((id, e) :: q) = q).
  { rewrite filter_cons, decide_False by (cbn; tauto). apply filter_all. intros [i x] Hx Hi. cbn in Hi. subst i.
    destruct Hf as [Hnd _]. cbn in Hnd. apply list.NoDup_cons in Hnd as [Hnd _]. apply Hnd. apply elem_of_list_fmap. by exists (id, x). }
  rewrite Hfil. assert (F2 : fresh_ids (n, q)).
  { destruct Hf as [Hnd Hlt]. cbn in *. apply list.NoDup_cons in Hnd as [_ Hnd]. split; [done|]. intros i x Hx. eapply Hlt. by right. }
  destruct (IH h1 (n, q) F2) as [h' Hr]; [cbn in *; lia|]. exists h'. rewrite Hr. done.
Qed.
End flush.

Lemma nq_of_fresh q : fresh_ids (nq_of q) /\ (nq_of q).2.*2 = q.
Proof.
  unfold nq_of, fresh_ids. cbn [fst snd]. split; [split|].
  - rewrite fst_zip by (rewrite seq_length; lia). apply NoDup_seq.
  - intros i e Hi. apply elem_of_zip_l in Hi. by apply elem_of_seq in Hi as [_ Hi].
  - rewrite snd_zip by (rewrite seq_length; lia). done.
Qed.

Lemma flush_queue {H : Type} (react : H -> event -> H * list event) q h fuel :
  (forall h e, (react h e).2 = []) -> length q < fuel ->
  exists h', nq_flush react fuel h (nq_of q) = (h', q, (length q, []), Ret tt).
Proof.
  intros Hr Hl. destruct (nq_of_fresh q) as [Hf Hq]. destruct (flush_in_order react Hr fuel h (nq_of q) Hf) as [h' Hfl].
  - unfold nq_of. cbn. rewrite zip_with_length, seq_length. lia.
  - exists h'. rewrite Hfl, Hq. done.
Qed.
Lemma flush_reentrant {H : Type} (react : H -> event -> H * list event) fuel h e q h1 evs new :
  react h e = (h1, evs) -> new ∈ evs -> mergeable e new = true ->
  exists nq', nq_flush react (S fuel) h (nq_of (e :: q)) = (h1, [e], nq', UB).
Proof.
  intros Hr Hn Hm. destruct (nq_of_fresh (e :: q)) as [Hf _]. unfold nq_of in *. cbn [length seq zip_with] in *.
  by apply (flush_ub react fuel h _ 0 e _ h1 evs new Hf).
Qed.
Lemma latest_modification a b e1 x e2 : is_modify x -> on_edge a b x -> (forall z, z ∈ e2 -> is_modify z -> ~ on_edge a b z) ->
  (forall y, y ∈ q_receive (e1 ++ x :: e2) -> is_modify y -> on_edge a b y -> y = x) /\
  ((forall z, z ∈ e2 -> is_remove z -> ~ on_edge a b z) -> x ∈ q_receive (e1 ++ x :: e2)).
Proof.
  intros Hx Ho H2. split.
  - intros y Hy My Oy. by apply (latest_modify a b e1 x e2 y).
  - intros H3. apply (modify_kept a b); [done|done|]. intros z Hz [Hm|Hm]; [by apply H2|by apply H3].
Qed.
Lemma short_lived_items f i r0 : f ∉ r_frames r0 -> (forall a b, (a, b) ∈ r_edges r0 -> a <> f /\ b <> f) ->
  (forall g j, (g, j) ∈ r_items r0 -> g <> f) ->
  let evs := [EvFrameAdded f; EvItemAdded f i; EvItemRemoved f i; EvFrameRemoved f] in
  replay evs r0 = Some r0 /\ q_receive evs = [EvItemAdded f i; EvItemRemoved f i] /\ replay (q_receive evs) r0 = None.
Proof.
  intros Hf He Hi. cbv zeta.
  assert (Hq : q_receive [EvFrameAdded f; EvItemAdded f i; EvItemRemoved f i; EvFrameRemoved f] = [EvItemAdded f i; EvItemRemoved f i]).
  { unfold q_receive. cbn [foldl]. rewrite (notify_other [] (EvFrameAdded f)) by (done || by left). rewrite (notify_other _ (EvItemAdded f i)) by (done || by left).
    rewrite (notify_other _ (EvItemRemoved f i)) by (done || by left). rewrite notify_frame_removed. cbn [app]. rewrite decide_True by by left.
    rewrite !filter_cons. rewrite decide_False by (intros Hc; by apply Hc). by rewrite !decide_True by done. }
  rewrite Hq. split; [|split; [done|]].
  - cbn [replay]. erewrite (apply_intro (EvFrameAdded f)) by done. erewrite (apply_intro (EvItemAdded f i)) by (split; [cbn; set_solver|done]).
    erewrite (apply_intro (EvItemRemoved f i)) by (split; [cbn; multiset_solver|done]). cbn [r_frames r_edges r_items].
    assert (Hms : r_items r0 ⊎ {[+ (f, i) +]} ∖ {[+ (f, i) +]} = r_items r0) by multiset_solver.
    erewrite (apply_intro (EvFrameRemoved f)); [|split; [cbn; set_solver|split; [|done]]].
    + f_equal. apply replica_eq; cbn; [set_solver|done|multiset_solver].
    + apply bare_spec. cbn. split; [done|]. intros g j Hg. apply (Hi g j). multiset_solver.
  - cbn [replay]. cbn. by rewrite bool_decide_false by done.
Qed.
