(** Slots that keep out of the way of the call during which they run: the call does what it does without slots. *)
From stdpp Require Import prelude strings gmap.
From Verif Require Import ListLib Outcome Digraph Bfs TreeView GraphModel GraphOps GraphWf GraphStep SpecStore SpecObs GraphThms
  HandlerModel SpecHandler ActModel ActThms SpecAct.

Section quiet.
Context {D E D' E' : Type} (kd : D -> D') (ke : E -> E') (d0 : D) (einv : E -> E).
Local Notation gst := (gst D E).
Local Notation ast := (ast D E).
Local Notation dg s := (gs_dg (fst s)).
Local Notation sh := (same_shape kd ke).
Implicit Types g : digraph D E.

Definition vsh (r : vrec D) := (v_id r, v_index r, v_name r, kd (v_data r)).
Definition esh (e : erec E) := (e_id e, e_src e, e_tgt e, ke (e_prop e)).

Lemma esh_inv e e' : esh e = esh e' -> e_id e = e_id e' /\ e_src e = e_src e' /\ e_tgt e = e_tgt e' /\ ke (e_prop e) = ke (e_prop e').
Proof. by intros [= ? ? ? ?]. Qed.

Lemma sh_refl g : sh g g.
Proof. by split. Qed.
Lemma sh_trans g1 g2 g3 : sh g1 g2 -> sh g2 g3 -> sh g1 g3.
Proof. intros [] []. split; congruence. Qed.

(** Lists equal up to a key. *)
Lemma key_filter {A K} (f : A -> K) (p : A -> Prop) `{!forall x, Decision (p x)} (l1 : list A) : forall l0 : list A,
  (forall a b, f a = f b -> p a <-> p b) -> f <$> l1 = f <$> l0 -> f <$> filter p l1 = f <$> filter p l0.
Proof.
  induction l1 as [|a l1 IH]; intros [|b l0] Hp Heq; try done. cbn in Heq. injection Heq as Hab Hl.
  rewrite !filter_cons. specialize (Hp a b Hab) as Hpab.
  destruct (decide (p a)) as [Ha|Ha], (decide (p b)) as [Hb|Hb]; try (by exfalso; tauto); cbn; rewrite ?Hab, (IH l0); done.
Qed.

Lemma key_find {A K} (f : A -> K) (p : A -> bool) (l1 : list A) : forall l0 : list A,
  (forall a b, f a = f b -> p a = p b) -> f <$> l1 = f <$> l0 -> f <$> find p l1 = f <$> find p l0.
Proof.
  induction l1 as [|a l1 IH]; intros [|b l0] Hp Heq; try done. cbn in Heq. injection Heq as Hab Hl.
  cbn [find]. rewrite (Hp a b Hab). destruct (p b); [cbn; by rewrite Hab|by apply IH].
Qed.

Lemma key_existsb {A K} (f : A -> K) (p : A -> bool) (l1 : list A) : forall l0 : list A,
  (forall a b, f a = f b -> p a = p b) -> f <$> l1 = f <$> l0 -> existsb p l1 = existsb p l0.
Proof.
  induction l1 as [|a l1 IH]; intros [|b l0] Hp Heq; try done. cbn in Heq. injection Heq as Hab Hl.
  cbn [existsb]. rewrite (Hp a b Hab). f_equal. by apply IH.
Qed.

Lemma key_length {A K} (f : A -> K) (l1 l0 : list A) : f <$> l1 = f <$> l0 -> length l1 = length l0.
Proof. intros H. rewrite <-(fmap_length f l1), H. apply fmap_length. Qed.

Lemma sh_alive g g' v : sh g g' -> bg_alive g v = bg_alive g' v.
Proof. intros []. apply (key_existsb vsh); [|done]. intros a b [= Hab _ _ _]. by rewrite Hab. Qed.

Lemma sh_out g g' v : sh g g' -> esh <$> bg_out g v = esh <$> bg_out g' v.
Proof. intros []. apply (key_filter esh (fun e => e_src e = v)); [|done]. intros a b (_ & -> & _)%esh_inv. done. Qed.
Lemma sh_in g g' v : sh g g' -> esh <$> bg_in g v = esh <$> bg_in g' v.
Proof. intros []. apply (key_filter esh (fun e => e_tgt e = v)); [|done]. intros a b (_ & _ & -> & _)%esh_inv. done. Qed.

Lemma sh_degree g g' v : sh g g' -> bg_degree g v = bg_degree g' v.
Proof. intros H. unfold bg_degree. by rewrite (key_length esh _ _ (sh_out g g' v H)), (key_length esh _ _ (sh_in g g' v H)). Qed.

Lemma sh_vertex g g' f : sh g g' -> bg_vertex g f = bg_vertex g' f.
Proof. intros []. unfold bg_vertex. congruence. Qed.

Lemma sh_name g g' v : sh g g' -> v_name <$> bg_vrec g v = v_name <$> bg_vrec g' v.
Proof.
  intros []. assert (H : vsh <$> bg_vrec g v = vsh <$> bg_vrec g' v).
  { apply (key_find vsh); [|done]. intros a b [= Hab _ _ _]. by rewrite Hab. }
  destruct (bg_vrec g v), (bg_vrec g' v); cbn in *; try done. unfold vsh in H. congruence.
Qed.

Lemma sh_edge g g' u v : sh g g' -> esh <$> bg_edge g u v = esh <$> bg_edge g' u v.
Proof. intros []. apply (key_find esh); [|done]. intros a b (_ & -> & -> & _)%esh_inv. done. Qed.

Lemma sh_erec g g' i : sh g g' -> esh <$> bg_erec g i = esh <$> bg_erec g' i.
Proof. intros []. apply (key_find esh); [|done]. intros a b (-> & _)%esh_inv. done. Qed.

Lemma sh_frame_id (s s' : gst) v : sh (gs_dg s) (gs_dg s') -> get_frame_id s v = get_frame_id s' v.
Proof.
  intros H. unfold get_frame_id. destruct (Nat.eqb v null_vertex); [done|]. apply (sh_name _ _ v) in H.
  destruct (bg_vrec (gs_dg s) v), (bg_vrec (gs_dg s') v); cbn in H; congruence.
Qed.

Lemma sh_get_vertex (s s' : gst) f : sh (gs_dg s) (gs_dg s') -> get_vertex s f = get_vertex s' f.
Proof. intros H. unfold get_vertex. by rewrite (sh_vertex _ _ f H). Qed.

(** Results that are equal up to their content. *)
Definition orel {A B} (R : A -> B -> Prop) (r1 : outcome A) (r0 : outcome B) : Prop :=
  match r1, r0 with
  | Ret a, Ret b => R a b
  | Throw x, Throw y => x = y
  | UB, UB => True
  | Fuel, Fuel => True
  | _, _ => False
  end.
Definition erel (e e' : erec E) : Prop := esh e = esh e'.
Definition oerel (e e' : option (erec E)) : Prop := esh <$> e = esh <$> e'.

Lemma orel_eq {A} (r1 r0 : outcome A) : orel eq r1 r0 <-> r1 = r0.
Proof. destruct r1, r0; cbn; split; try done; congruence. Qed.

Lemma sh_find_edge (s s' : gst) u v : sh (gs_dg s) (gs_dg s') -> orel oerel (find_edge s u v) (find_edge s' u v).
Proof. intros H. unfold find_edge. rewrite (sh_alive _ _ u H). destruct (bg_alive _ u); [|done]. by apply sh_edge. Qed.

Lemma orel_obind {A B A2 B2} (R : A -> B -> Prop) (R2 : A2 -> B2 -> Prop) m1 m0 (k1 : A -> outcome A2) (k0 : B -> outcome B2) :
  orel R m1 m0 -> (forall a b, R a b -> orel R2 (k1 a) (k0 b)) -> orel R2 (obind m1 k1) (obind m0 k0).
Proof. intros H Hk. destruct m1, m0; cbn in *; try done. by apply Hk. Qed.

Lemma sh_get_edge (s s' : gst) a b : sh (gs_dg s) (gs_dg s') -> orel erel (get_edge s a b) (get_edge s' a b).
Proof.
  intros H. unfold get_edge.
  apply (orel_obind eq); [by apply orel_eq, sh_get_vertex|]. intros vo ? <-.
  apply (orel_obind eq); [by apply orel_eq, sh_get_vertex|]. intros vt ? <-. unfold get_edge_v.
  apply (orel_obind oerel); [by apply sh_find_edge|]. intros [e|] [e'|] He; try done.
  - unfold oerel in He. cbn in He. unfold erel. cbn. congruence.
  - apply (orel_obind eq); [by apply orel_eq, sh_frame_id|]. intros fo ? <-.
    apply (orel_obind eq); [by apply orel_eq, sh_frame_id|]. intros ft ? <-. done.
Qed.

(* Changes of the graph. *)
Lemma sh_add_vertex f d g g' : sh g g' ->
  sh (fst (bg_add_vertex f d g)) (fst (bg_add_vertex f d g')) /\ snd (bg_add_vertex f d g) = snd (bg_add_vertex f d g').
Proof.
  intros [Hv He Hm Hr]. unfold bg_add_vertex. rewrite Hm. destruct (dg_map g' !! f); [by split|].
  injection Hr as Hr1 Hr2 Hr3 Hr4 Hr5. cbn. split; [|done]. split; cbn; try congruence.
  rewrite !fmap_app, Hv. cbn. congruence.
Qed.

Lemma sh_add_edge u v p g g' : sh g g' ->
  sh (fst (bg_add_edge u v p g)) (fst (bg_add_edge u v p g')) /\ snd (bg_add_edge u v p g) = snd (bg_add_edge u v p g').
Proof.
  intros [Hv He Hm Hr]. unfold bg_add_edge. injection Hr as Hr1 Hr2 Hr3 Hr4 Hr5. cbn. split; [|done]. split; cbn; try congruence.
  rewrite !fmap_app, He. cbn. congruence.
Qed.

Lemma sh_remove_edge i g g' : sh g g' ->
  match bg_remove_edge i g, bg_remove_edge i g' with
  | Some a, Some b => sh a b
  | None, None => True
  | _, _ => False
  end.
Proof.
  intros H. unfold bg_remove_edge. pose proof (sh_erec _ _ i H) as Hi.
  destruct (bg_erec g i), (bg_erec g' i); try done.
  destruct H as [Hv He Hm Hr]. injection Hr as Hr1 Hr2 Hr3 Hr4 Hr5. split; cbn; try congruence.
  apply (key_filter esh (fun e => e_id e <> i)); [|done]. by intros a b (-> & _)%esh_inv.
Qed.

(** The iterator over out edges. *)
Lemma after_found (e : erec E) pre rest : e_id e ∉ e_id <$> pre -> after (e_id e) (pre ++ e :: rest) = Some rest.
Proof.
  induction pre as [|a pre IH]; cbn; [by rewrite Nat.eqb_refl|].
  intros Hn. apply not_elem_of_cons in Hn as [Hne Hn]. destruct (Nat.eqb_spec (e_id a) (e_id e)); [congruence|]. by apply IH.
Qed.

Lemma after_key i (l1 : list (erec E)) : forall l0 r0, esh <$> l1 = esh <$> l0 -> after i l0 = Some r0 ->
  exists r1, after i l1 = Some r1 /\ esh <$> r1 = esh <$> r0.
Proof.
  induction l1 as [|a l1 IH]; intros [|b l0] r0 Heq; try done. cbn [fmap list_fmap] in Heq. injection Heq as Hid _ _ _ Hl.
  cbn [after]. rewrite Hid. destruct (Nat.eqb (e_id b) i).
  - intros [= <-]. by exists l1.
  - by apply IH.
Qed.

Lemma filter_split {A} (p : A -> Prop) `{!forall x, Decision (p x)} (l : list A) x r : filter p l = x :: r ->
  exists skip rest, l = skip ++ x :: rest /\ filter p rest = r /\ filter p skip = [].
Proof.
  induction l as [|a l IH]; [done|]. rewrite filter_cons. destruct (decide (p a)) as [Ha|Ha].
  - intros [= -> Hr]. by exists [], l.
  - intros (skip & rest & -> & Hr & Hs)%IH. exists (a :: skip), rest. split_and!; [done|done|].
    rewrite filter_cons. by rewrite decide_False.
Qed.

(** What is needed of the graph for the search. *)
Definition egood g : Prop := NoDup (e_id <$> dg_edges g) /\ (forall e, e ∈ dg_edges g -> e_id e < dg_nexte g) /\
  forall e, e ∈ dg_edges g -> bg_alive g (e_tgt e) = true.

Lemma wf_egood g : dg_wf einv g -> egood g.
Proof.
  intros Hwf. split_and!; [apply (wf_eid einv g Hwf)|intros e He; apply (wf_ebound einv g Hwf e He)|].
  intros e He. apply bg_alive_iff. by apply (wf_tgt einv g Hwf).
Qed.

Lemma egood_add_edge u v p g : egood g -> bg_alive g v = true -> egood (fst (bg_add_edge u v p g)).
Proof.
  intros (Hn & Hb & Ha) Hv. unfold bg_add_edge, egood. cbn. split_and!.
  - rewrite fmap_app. apply NoDup_app. split_and!; [done| |apply NoDup_singleton].
    intros x (e & -> & He)%elem_of_list_fmap Hx%elem_of_list_singleton. cbn in Hx. specialize (Hb e He). lia.
  - intros e [He|He%elem_of_list_singleton]%elem_of_app; [specialize (Hb e He); lia|subst; cbn; lia].
  - intros e [He|He%elem_of_list_singleton]%elem_of_app; [by apply Ha|by subst].
Qed.

Lemma wf_intact g : dg_wf einv g -> intact g.
Proof.
  intros Hwf. split.
  - intros f v Hf. by eapply (wf_map_alive einv).
  - intros e He. split_and!; [apply bg_alive_iff; by apply (wf_src einv g Hwf)|apply bg_alive_iff; by apply (wf_tgt einv g Hwf)|].
    destruct (wf_inv einv g Hwf e He) as (e' & He' & Hs & Ht & _). by exists e'.
Qed.

Lemma intact_add2 o t p q g : intact g -> bg_alive g o = true -> bg_alive g t = true ->
  intact (fst (bg_add_edge t o q (fst (bg_add_edge o t p g)))).
Proof.
  intros [Hm He] Ho Ht. split; [exact Hm|]. cbn. intros e [[H|H%elem_of_list_singleton]%elem_of_app|H%elem_of_list_singleton]%elem_of_app.
  - destruct (He e H) as (H1 & H2 & e' & He' & H3 & H4). split_and!; [done|done|]. exists e'. split_and!; [|done|done].
    apply elem_of_app. left. apply elem_of_app. by left.
  - subst e. cbn. split_and!; [done|done|]. eexists. split_and!; [apply elem_of_app; right; by apply elem_of_list_singleton|done|done].
  - subst e. cbn. split_and!; [done|done|]. eexists. split_and!; [apply elem_of_app; left; apply elem_of_app; right; by apply elem_of_list_singleton|done|done].
Qed.

Lemma sh_elem g g' e : sh g g' -> e ∈ dg_edges g -> exists e', e' ∈ dg_edges g' /\ esh e' = esh e.
Proof.
  intros [_ He _ _] H. change (esh <$> dg_edges g = esh <$> dg_edges g') in He.
  apply (elem_of_list_fmap_1 esh) in H. rewrite He in H. apply elem_of_list_fmap in H as (e' & -> & H). by exists e'.
Qed.

Lemma sh_sym g g' : sh g g' -> sh g' g.
Proof. intros []. by split. Qed.

Lemma sh_intact g g' : sh g g' -> intact g' -> intact g.
Proof.
  intros H [Hm He]. split.
  - intros f v Hf. rewrite (sh_alive _ _ v H). apply (Hm f). destruct H. congruence.
  - intros e Hin. destruct (sh_elem _ _ _ H Hin) as (e1 & Hin1 & (_ & <- & <- & _)%esh_inv).
    destruct (He e1 Hin1) as (H1 & H2 & e2 & Hin2 & H3 & H4). rewrite !(sh_alive _ _ _ H). split_and!; [done|done|].
    destruct (sh_elem _ _ _ (sh_sym _ _ H) Hin2) as (e3 & Hin3 & (_ & Hs3 & Ht3 & _)%esh_inv). exists e3. split_and!; [done|congruence|congruence].
Qed.

Context (V : viewid -> Prop) (h : viewid -> vsig -> call ast unit) (fuel : nat) (ver : nat).
Context (Hc : considerate kd ke V h).

(** During the work on one view [i]: the graph without slots is at [s0], the view should be [w]. *)
Definition vsim (i : viewid) (w : tview) (s0 : gst) (s1 : ast) : Prop :=
  sh (dg s1) (gs_dg s0) /\ gs_subs (fst s1) = gs_subs s0 /\ snd s1 = ver /\ gs_views (fst s1) !! i = Some w /\
  forall j, V j -> j <> i -> gs_views (fst s1) !! j = gs_views s0 !! j.

Definition vruns {A} (m : call ast A) (s1 : ast) (i : viewid) (w : tview) (s0 : gst) (r : outcome A) : Prop :=
  exists s1' e1, m s1 = (s1', e1, r) /\ vsim i w s0 s1' /\ filter structural e1 = [].

Lemma vruns_bind {A B} (m : call ast A) (k : A -> call ast B) s1 i w w' s0 a r :
  vruns m s1 i w s0 (Ret a) -> (forall s2, vsim i w s0 s2 -> vruns (k a) s2 i w' s0 r) -> vruns (cbind m k) s1 i w' s0 r.
Proof.
  intros (s2 & e1 & Hm & Hs & He1) Hk. destruct (Hk s2 Hs) as (s3 & e2 & Hk' & Hs' & He2).
  unfold vruns, cbind. rewrite Hm, Hk'. exists s3, (e1 ++ e2). split_and!; [done|done|]. by rewrite filter_app, He1, He2.
Qed.

Lemma vruns_throw {A B} (m : call ast A) (k : A -> call ast B) s1 i w s0 x :
  vruns m s1 i w s0 (Throw x) -> vruns (cbind m k) s1 i w s0 (Throw x).
Proof. intros (s2 & e1 & Hm & Hs & He1). unfold vruns, cbind. rewrite Hm. by exists s2, e1. Qed.

Lemma vruns_read {A} (f : gst -> outcome A) s1 i w s0 r : vsim i w s0 s1 -> f (fst s1) = r -> vruns (aread f) s1 i w s0 r.
Proof. intros Hs <-. by exists s1, []. Qed.

Lemma vruns_ret {A} (a : A) s1 i w s0 : vsim i w s0 s1 -> vruns (cret a) s1 i w s0 (Ret a).
Proof. intros Hs. by exists s1, []. Qed.

Lemma vruns_view s1 i w s0 : vsim i w s0 s1 -> vruns (aview i) s1 i w s0 (Ret w).
Proof. intros Hs. apply vruns_read; [done|]. destruct Hs as (_ & _ & _ & -> & _). done. Qed.

Lemma vruns_set i w w' s0 s1 : vsim i w s0 s1 -> vruns (aset i w') s1 i w' s0 (Ret tt).
Proof.
  intros (H1 & H2 & H3 & H4 & H5). eexists _, []. split; [done|]. split; [|done].
  split_and!; cbn; try done; [by rewrite lookup_insert|]. intros j Hj Hne. rewrite lookup_insert_ne by done. by apply H5.
Qed.

Definition good (i : viewid) (s0 : gst) : Prop := V i /\ intact (gs_dg s0).

Lemma vruns_emit i x w w' s0 s1 : good i s0 -> vsim i w s0 s1 -> vruns (aemit h i x w') s1 i (tv_emit x w') s0 (Ret tt).
Proof.
  intros [Hi Hin] Hs. unfold aemit. eapply vruns_bind; [by eapply vruns_set|].
  intros s2 (H1 & H2 & H3 & H4 & H5). destruct (h i x s2) as [[s3 ev] r] eqn:Hh.
  apply (sh_intact _ _ H1) in Hin.
  destruct (Hc _ _ _ _ _ _ Hin Hh) as (-> & Hv & Hsub & Hsh & Hvw & Hev). exists s3, ev. split; [done|]. split; [|done].
  split_and!; [by eapply sh_trans|congruence|congruence|by rewrite Hvw|]. intros j Hj Hne. rewrite Hvw by done. by apply H5.
Qed.

Lemma vruns_add_cross i o t e w s0 s1 : good i s0 -> vsim i w s0 s1 -> vruns (act_add_cross h i o t e) s1 i (tv_add_cross o t e w) s0 (Ret tt).
Proof.
  intros Hi Hs. unfold act_add_cross. eapply vruns_bind; [by apply vruns_view|]. intros s2 Hs2. by eapply vruns_emit.
Qed.

Lemma vruns_add_edge i o t w s0 s1 : good i s0 -> vsim i w s0 s1 -> vruns (act_add_edge h i o t) s1 i (tv_add_edge o t w) s0 (Ret tt).
Proof.
  intros Hi Hs. unfold act_add_edge. eapply vruns_bind; [by apply vruns_view|]. intros s2 Hs2. by eapply vruns_emit.
Qed.

Lemma vruns_remove_vertices i vs : forall w w' r s0 s1, good i s0 -> vsim i w s0 s1 -> tv_remove_vertices vs w = (w', r) -> ok r ->
  vruns (act_remove_vertices h i vs) s1 i w' s0 r.
Proof.
  induction vs as [|v vs IH]; intros w w' r s0 s1 Hi Hs; cbn [tv_remove_vertices act_remove_vertices].
  - intros [= <- <-] _. by apply vruns_ret.
  - intros H Hok. eapply vruns_bind; [by apply vruns_view|]. intros s2 Hs2. cbn zeta.
    destruct (bool_decide _); [|by injection H as <- <-].
    eapply vruns_bind; [by eapply vruns_emit|]. intros s3 Hs3. by eapply IH.
Qed.

Lemma vruns_tv_remove i o t ord w w' r s0 s1 : good i s0 -> vsim i w s0 s1 -> tv_remove_edge ord o t w = (w', r) -> ok r ->
  vruns (act_tv_remove_edge h ord i o t) s1 i w' s0 r.
Proof.
  intros Hi Hs H Hok. unfold act_tv_remove_edge. eapply vruns_bind; [by apply vruns_view|]. intros s2 Hs2. cbn zeta.
  revert H. unfold tv_remove_edge. cbn zeta. destruct (if Nat.eqb (vr_parent (tv_rel (tv_tree w) t)) o then Some t
    else if Nat.eqb (vr_parent (tv_rel (tv_tree w) o)) t then Some o else None) as [rt|]; [|by intros [= <- <-]].
  destruct (tv_visit_bfs _ ord w [rt]) as [visited rv]. destruct (xs_steps _ _) as [xs|]; [|by intros [= <- <-]].
  intros H. eapply vruns_bind; [by eapply vruns_set|]. intros s3 Hs3.
  destruct rv as [[]|x| |].
  - eapply vruns_bind; [by apply (vruns_read (fun _ => Ret tt))|]. intros s4 Hs4.
    destruct (tv_remove_vertices _ _) as [w2 r2] eqn:Hr2. destruct r2 as [[]|x| |].
    + eapply vruns_bind; [by eapply vruns_remove_vertices|]. intros s5 Hs5.
      destruct (xs_leaving xs); injection H as <- <-; by apply vruns_read.
    + injection H as <- <-. apply vruns_throw. by eapply vruns_remove_vertices.
    + by injection H as <- <-.
    + by injection H as <- <-.
  - injection H as <- <-. apply vruns_throw. by apply (vruns_read (fun _ => Throw x)).
  - by injection H as <- <-.
  - by injection H as <- <-.
Qed.

Lemma vruns_remove_from ord i o t w w' r s0 s1 : good i s0 -> vsim i w s0 s1 ->
  match tv_edge_exists w o t with
  | Ret true => tv_remove_edge (ord i) o t w
  | Ret false => (w, Ret tt)
  | Throw x => (w, Throw x)
  | UB => (w, UB)
  | Fuel => (w, Fuel)
  end = (w', r) -> ok r -> vruns (act_remove_from_view h ord o t i) s1 i w' s0 r.
Proof.
  intros Hi Hs H Hok. unfold act_remove_from_view. eapply vruns_bind; [by apply vruns_view|]. intros s2 Hs2.
  destruct (tv_edge_exists w o t) as [b|x| |] eqn:Hb.
  - eapply vruns_bind; [by apply (vruns_read (fun _ => Ret b))|]. intros s3 Hs3. destruct b.
    + by eapply vruns_tv_remove.
    + injection H as <- <-. by apply vruns_ret.
  - injection H as <- <-. apply vruns_throw. by apply (vruns_read (fun _ => Throw x)).
  - by injection H as <- <-.
  - by injection H as <- <-.
Qed.

(** The search. *)
Definition flt_ok (flt : erec E -> bool) : Prop := forall e e', esh e = esh e' -> flt e = flt e'.

Lemma scan_sim i flt u s0 : good i s0 -> flt_ok flt -> egood (gs_dg s0) -> bg_alive (gs_dg s0) u = true ->
  forall k pre rest prev col q tr c q' w s1,
  (match prev with None => pre = [] | Some x => exists e p, x = e_id e /\ pre = p ++ [e] end) ->
  bg_out (gs_dg s0) u = pre ++ rest -> bfs_scan (filter (fun e => flt e = true) rest) col q = (tr, c, q') ->
  length rest <= k -> vsim i w s0 s1 ->
  vruns (act_scan h k i flt u prev col q) s1 i (build_tree tr w) s0 (Ret (c, q')).
Proof.
  intros Hi Hflt Hg Hu. induction k as [|k IH]; intros pre rest prev col q tr c q' w s1 Hpre Hout Hscan Hlen Hs.
  { destruct rest as [|? ?]; [|cbn in Hlen; lia]. cbn in Hscan. injection Hscan as <- <- <-.
    exists s1, []. split; [|by split]. cbn [act_scan].
    pose proof Hs as (Hsh & _). rewrite (sh_alive _ _ u Hsh), Hu.
    assert (exists es1, (match prev with None => Some (bg_out (dg s1) u) | Some e => after e (bg_out (dg s1) u) end) = Some es1 /\
      esh <$> es1 = esh <$> ([] : list (erec E))) as (es1 & -> & Hes).
    { pose proof (sh_out _ _ u Hsh) as Ho. rewrite Hout in Ho. destruct prev as [x|].
      - destruct Hpre as (e & p & -> & ->). eapply after_key; [exact Ho|]. rewrite app_nil_r. apply after_found.
        pose proof (NoDup_fmap_filter e_id (fun e => e_src e = u) _ (proj1 Hg)) as Hnd.
        change (NoDup (e_id <$> bg_out (gs_dg s0) u)) in Hnd. rewrite Hout, app_nil_r, fmap_app in Hnd. apply NoDup_app in Hnd as (_ & Hd & _).
        intros Hx. apply (Hd _ Hx). cbn. by left.
      - subst pre. cbn in Ho. by exists (bg_out (dg s1) u). }
    destruct es1; [done|done]. }
  pose proof Hs as (Hsh & _).
  assert (exists es1, (match prev with None => Some (bg_out (dg s1) u) | Some e => after e (bg_out (dg s1) u) end) = Some es1 /\
      esh <$> es1 = esh <$> rest) as (es1 & Hes1 & Hes).
  { pose proof (sh_out _ _ u Hsh) as Ho. rewrite Hout in Ho. destruct prev as [x|].
    - destruct Hpre as (e & p & -> & ->). eapply after_key; [exact Ho|]. rewrite <-app_assoc. cbn. apply after_found.
      pose proof (NoDup_fmap_filter e_id (fun e => e_src e = u) _ (proj1 Hg)) as Hnd.
      change (NoDup (e_id <$> bg_out (gs_dg s0) u)) in Hnd. rewrite Hout, !fmap_app, <-app_assoc in Hnd. apply NoDup_app in Hnd as (_ & Hd & _).
      intros Hx. apply (Hd _ Hx). cbn. by left.
    - subst pre. cbn in Ho. by exists (bg_out (dg s1) u). }
  assert (Hfl : esh <$> filter (fun e => flt e = true) es1 = esh <$> filter (fun e => flt e = true) rest).
  { apply (key_filter esh (fun e => flt e = true)); [|done]. intros a b Hab. by rewrite (Hflt a b Hab). }
  assert (Hunf : act_scan h (S k) i flt u prev col q s1 =
    match filter (fun e => flt e = true) es1 with
    | [] => (s1, [], Ret (col, q))
    | e :: _ =>
                match col !! e_tgt e with
                | None =>
                    (act_add_edge h i (e_src e) (e_tgt e) ;;;
                     act_scan h k i flt u (Some (e_id e)) (<[e_tgt e := CGray]> col) (q ++ [e_tgt e])) s1
                | Some CGray =>
                    (act_add_cross h i (e_src e) (e_tgt e) (e_id e) ;;;
                     act_scan h k i flt u (Some (e_id e)) col q) s1
                | Some CBlack => act_scan h k i flt u (Some (e_id e)) col q s1
                end
    end).
  { cbn [act_scan]. by rewrite (sh_alive _ _ u Hsh), Hu, Hes1. }
  unfold vruns. rewrite Hunf. clear Hunf Hes1.
  destruct (filter (fun e => flt e = true) rest) as [|e l] eqn:Hfr.
  { destruct (filter _ es1); [|done]. cbn in Hscan. injection Hscan as <- <- <-. by exists s1, []. }
  destruct (filter (fun e => flt e = true) es1) as [|e1 l1]; [done|].
  cbn [fmap list_fmap] in Hfl. injection Hfl as Hid Hsrc Htgt _ _.
  rewrite Hid, Hsrc, Htgt. clear Hid Hsrc Htgt e1 l1 Hes es1.
  apply filter_split in Hfr as (skip & rest' & -> & Hl & _). subst l.
  rewrite app_length in Hlen. cbn in Hlen.
  assert (Hout' : bg_out (gs_dg s0) u = (pre ++ skip ++ [e]) ++ rest').
  { rewrite Hout. rewrite <-!app_assoc. done. }
  assert (Hpre' : exists (e' : erec E) p, e_id e = e_id e' /\ pre ++ skip ++ [e] = p ++ [e']).
  { exists e, (pre ++ skip). by rewrite app_assoc. }
  cbn [bfs_scan] in Hscan. destruct (col !! e_tgt e) as [[]|].
  - destruct (bfs_scan _ col q) as [[tr2 c2] q2] eqn:H2. injection Hscan as <- <- <-.
    change (vruns (act_add_cross h i (e_src e) (e_tgt e) (e_id e) ;;; act_scan h k i flt u (Some (e_id e)) col q) s1 i
      (build_tree tr2 (tv_add_cross (e_src e) (e_tgt e) (e_id e) w)) s0 (Ret (c2, q2))).
    eapply vruns_bind; [by apply vruns_add_cross|]. intros s2 Hs2.
    eapply (IH (pre ++ skip ++ [e]) rest' (Some (e_id e))); try done. lia.
  - destruct (bfs_scan _ col q) as [[tr2 c2] q2] eqn:H2. injection Hscan as <- <- <-.
    change (vruns (act_scan h k i flt u (Some (e_id e)) col q) s1 i (build_tree tr2 w) s0 (Ret (c2, q2))).
    eapply (IH (pre ++ skip ++ [e]) rest' (Some (e_id e))); try done. lia.
  - destruct (bfs_scan _ _ (q ++ [e_tgt e])) as [[tr2 c2] q2] eqn:H2. injection Hscan as <- <- <-.
    change (vruns (act_add_edge h i (e_src e) (e_tgt e) ;;;
      act_scan h k i flt u (Some (e_id e)) (<[e_tgt e := CGray]> col) (q ++ [e_tgt e])) s1 i
      (build_tree tr2 (tv_add_edge (e_src e) (e_tgt e) w)) s0 (Ret (c2, q2))).
    eapply vruns_bind; [by apply vruns_add_edge|]. intros s2 Hs2.
    eapply (IH (pre ++ skip ++ [e]) rest' (Some (e_id e))); try done. lia.
Qed.

Lemma scan_queue (P : vid -> Prop) (es : list (erec E)) : forall col q tr c q', bfs_scan es col q = (tr, c, q') ->
  (forall e, e ∈ es -> P (e_tgt e)) -> Forall P q -> Forall P q'.
Proof.
  induction es as [|e es IH]; intros col q tr c q'; cbn [bfs_scan].
  - by intros [= _ _ <-] _ ?.
  - intros H He Hq. assert (He' : forall e, e ∈ es -> P (e_tgt e)) by (intros e' ?; apply He; by right).
    destruct (col !! e_tgt e) as [[]|].
    + destruct (bfs_scan es col q) as [[tr2 c2] q2] eqn:H2. injection H as _ _ <-. by eapply IH.
    + destruct (bfs_scan es col q) as [[tr2 c2] q2] eqn:H2. injection H as _ _ <-. by eapply IH.
    + destruct (bfs_scan es _ (q ++ [e_tgt e])) as [[tr2 c2] q2] eqn:H2. injection H as _ _ <-.
      eapply IH; [done|done|]. apply list.Forall_app. split; [done|]. constructor; [|done]. apply He. by left.
Qed.

Lemma build_app (tr tr2 : list (bev E)) w : build_tree (tr ++ tr2) w = build_tree tr2 (build_tree tr w).
Proof. unfold build_tree. by rewrite foldl_app. Qed.

Lemma loop_sim i flt s0 : good i s0 -> flt_ok flt -> egood (gs_dg s0) -> length (dg_edges (gs_dg s0)) <= fuel ->
  forall n k col q tr w s1, bfs_loop n (fun u => filter (fun e => flt e = true) (bg_out (gs_dg s0) u)) col q = Some tr ->
  n <= k -> Forall (fun u => bg_alive (gs_dg s0) u = true) q -> vsim i w s0 s1 ->
  vruns (act_loop h fuel k i flt col q) s1 i (build_tree tr w) s0 (Ret tt).
Proof.
  intros Hi Hflt Hg Hfuel. induction n as [|n IH]; intros k col q tr w s1 Hl Hk Hq Hs.
  - destruct q; [|done]. cbn in Hl. injection Hl as <-. destruct k; by apply vruns_ret.
  - destruct q as [|u q]; [cbn in Hl; injection Hl as <-; destruct k; by apply vruns_ret|].
    destruct k as [|k]; [lia|]. cbn [bfs_loop act_loop] in *. apply Forall_cons in Hq as [Hu Hq].
    destruct (bfs_scan _ col q) as [[tr1 c] q2] eqn:Hscan.
    destruct (bfs_loop n _ _ q2) as [tr2|] eqn:Hl2; [|done]. injection Hl as <-.
    eapply (vruns_bind _ _ _ _ (build_tree tr1 w) _ _ (c, q2)).
    + eapply (scan_sim i flt u s0 Hi Hflt Hg Hu fuel [] (bg_out (gs_dg s0) u) None); try done.
      etrans; [|exact Hfuel]. apply filter_length.
    + intros s2 Hs2. rewrite build_app. cbn. eapply IH; [done|lia| |done].
      eapply scan_queue; [exact Hscan| |done]. intros e (_ & He)%elem_of_list_filter.
      apply elem_of_list_filter in He as [_ He]. by apply Hg.
Qed.

Lemma bfs_sim i flt s0 root tr w s1 : good i s0 -> flt_ok flt -> egood (gs_dg s0) ->
  length (dg_verts (gs_dg s0)) <= fuel -> length (dg_edges (gs_dg s0)) <= fuel ->
  bfs_trace (gs_dg s0) flt root = Ret tr -> vsim i w s0 s1 ->
  vruns (act_bfs h fuel i flt root) s1 i (build_tree tr w) s0 (Ret tt).
Proof.
  intros Hi Hflt Hg Hf1 Hf2 Htr Hs. unfold act_bfs. revert Htr. unfold bfs_trace.
  destruct (bg_alive (gs_dg s0) root) eqn:Ha; [|done].
  destruct (bfs_loop _ _ _ _) as [tr'|] eqn:Hl; [|done]. intros [= <-].
  eapply vruns_bind; [apply (vruns_read _ _ _ w s0 (Ret tt)); [done|]|].
  { destruct Hs as (Hsh & _). by rewrite (sh_alive _ _ root Hsh), Ha. }
  intros s2 Hs2. cbn. eapply loop_sim; try done. by constructor.
Qed.

Lemma obind_ret {A B} (m : outcome A) (k : A -> outcome B) b : obind m k = Ret b -> exists a, m = Ret a /\ k a = Ret b.
Proof. destruct m; try done. by eexists. Qed.

Lemma grow_sim i s0 inv notinv w w' r s1 : good i s0 -> egood (gs_dg s0) ->
  length (dg_verts (gs_dg s0)) <= fuel -> length (dg_edges (gs_dg s0)) <= fuel -> vsim i w s0 s1 ->
  (let w1 := tv_add_edge inv notinv w in
   if bg_alive (gs_dg s0) notinv then
      if bool_decide (2 < bg_degree (gs_dg s0) notinv) then
        match obind (get_frame_id s0 inv) (fun id1 =>
              obind (get_frame_id s0 notinv) (fun id2 =>
              obind (get_edge s0 id1 id2) (fun e1 =>
              obind (get_edge s0 id2 id1) (fun e2 =>
              bfs_trace (gs_dg s0)
                (fun e => negb (Nat.eqb (e_id e) (e_id e1)) && negb (Nat.eqb (e_id e) (e_id e2)))
                notinv)))) with
        | Ret tr => (build_tree tr w1, Ret tt)
        | Throw x => (w1, Throw x)
        | UB => (w1, UB)
        | Fuel => (w1, Fuel)
        end
      else (w1, Ret tt)
    else (w1, UB)) = (w', r) -> ok r -> vruns (act_grow h fuel i inv notinv) s1 i w' s0 r.
Proof.
  intros Hi Hg Hf1 Hf2 Hs. cbn zeta. intros H Hok. unfold act_grow.
  eapply vruns_bind; [by apply vruns_add_edge|]. intros s2 Hs2.
  destruct (bg_alive (gs_dg s0) notinv) eqn:Ha; [|by injection H as <- <-].
  eapply vruns_bind; [apply (vruns_read _ _ _ _ _ (Ret (bg_degree (gs_dg s0) notinv))); [done|]|].
  { destruct Hs2 as (Hsh & _). by rewrite (sh_alive _ _ _ Hsh), Ha, (sh_degree _ _ _ Hsh). }
  intros s3 Hs3. destruct (bool_decide _); [|injection H as <- <-; by apply vruns_ret].
  assert (Hread : forall {A B} (f : gst -> outcome A) s4 a0 (k : A -> call ast B) (R : A -> A -> Prop) w1 w2 r2,
    vsim i w1 s0 s4 -> (forall s5 : gst, sh (gs_dg s5) (gs_dg s0) -> orel R (f s5) (f s0)) -> f s0 = Ret a0 ->
    (forall a1 s5, R a1 a0 -> vsim i w1 s0 s5 -> vruns (k a1) s5 i w2 s0 r2) -> vruns (cbind (aread f) k) s4 i w2 s0 r2).
  { intros A B f s4 a0 k R w1 w2 r2 Hs4 Hf Ha0 Hk. pose proof (Hf (fst s4) (proj1 Hs4)) as Hr. rewrite Ha0 in Hr.
    destruct (f (fst s4)) as [a1|x| |] eqn:Hfs; try done.
    eapply vruns_bind; [by apply vruns_read|]. intros s5 Hs5. by apply Hk. }
  assert (Hthrow : forall {A B} (f : gst -> outcome A) s4 x (k : A -> call ast B) (R : A -> A -> Prop) w1,
    vsim i w1 s0 s4 -> (forall s5 : gst, sh (gs_dg s5) (gs_dg s0) -> orel R (f s5) (f s0)) -> f s0 = Throw x ->
    vruns (cbind (aread f) k) s4 i w1 s0 (Throw x)).
  { intros A B f s4 x k R w1 Hs4 Hf Ha0. pose proof (Hf (fst s4) (proj1 Hs4)) as Hr. rewrite Ha0 in Hr.
    destruct (f (fst s4)) as [a1|y| |] eqn:Hfs; try done. cbn in Hr. subst y.
    apply vruns_throw. by apply vruns_read. }
  assert (Hfid : forall v (s5 : gst), sh (gs_dg s5) (gs_dg s0) -> orel eq (get_frame_id s5 v) (get_frame_id s0 v)).
  { intros v s5 H5. by apply orel_eq, sh_frame_id. }
  assert (Hge : forall a b (s5 : gst), sh (gs_dg s5) (gs_dg s0) -> orel erel (get_edge s5 a b) (get_edge s0 a b)).
  { intros a b s5 H5. by apply sh_get_edge. }
  destruct (get_frame_id s0 inv) as [id1|x| |] eqn:H1; cbn in H; try (by injection H as <- <-);
    [|injection H as <- <-; eapply (Hthrow _ _ (fun s => get_frame_id s inv)); [done|by apply Hfid|done]].
  eapply (Hread _ _ (fun s => get_frame_id s inv)); [done|by apply Hfid|done|]. intros ? s4 -> Hs4.
  destruct (get_frame_id s0 notinv) as [id2|x| |] eqn:H2; cbn in H; try (by injection H as <- <-);
    [|injection H as <- <-; eapply (Hthrow _ _ (fun s => get_frame_id s notinv)); [done|by apply Hfid|done]].
  eapply (Hread _ _ (fun s => get_frame_id s notinv)); [done|by apply Hfid|done|]. intros ? s5 -> Hs5.
  destruct (get_edge s0 id1 id2) as [e1|x| |] eqn:H3; cbn in H; try (by injection H as <- <-);
    [|injection H as <- <-; eapply (Hthrow _ _ (fun s => get_edge s id1 id2)); [done|by apply Hge|done]].
  eapply (Hread _ _ (fun s => get_edge s id1 id2)); [done|by apply Hge|done|]. intros e1' s6 He1 Hs6.
  destruct (get_edge s0 id2 id1) as [e2|x| |] eqn:H4; cbn in H; try (by injection H as <- <-);
    [|injection H as <- <-; eapply (Hthrow _ _ (fun s => get_edge s id2 id1)); [done|by apply Hge|done]].
  eapply (Hread _ _ (fun s => get_edge s id2 id1)); [done|by apply Hge|done|]. intros e2' s7 He2 Hs7.
  apply esh_inv in He1 as (-> & _), He2 as (-> & _).
  destruct (bfs_trace _ _ notinv) as [tr|x| |] eqn:Htr; cbn in H; try (by injection H as <- <-).
  - injection H as <- <-. eapply bfs_sim; try done. intros a b (-> & _)%esh_inv. done.
  - exfalso. revert Htr. unfold bfs_trace. destruct (bg_alive _ _); [|done]. by destruct (bfs_loop _ _ _ _).
Qed.

Lemma add_to_sim ne i s0 w w' r s1 : good i s0 -> egood (gs_dg s0) ->
  length (dg_verts (gs_dg s0)) <= fuel -> length (dg_edges (gs_dg s0)) <= fuel -> vsim i w s0 s1 ->
  add_edge_to_tree_view s0 ne w = (w', r) -> ok r -> vruns (act_add_to_view h fuel ne i) s1 i w' s0 r.
Proof.
  intros Hi Hg Hf1 Hf2 Hs H Hok. unfold act_add_to_view. eapply vruns_bind; [by apply vruns_view|]. intros s2 Hs2. cbn zeta.
  revert H. unfold add_edge_to_tree_view. cbn zeta.
  destruct (tv_vertex_exists w (get_source_vertex ne)), (tv_vertex_exists w (get_target_vertex ne)).
  - intros H. destruct (tv_edge_exists _ _ _) as [b|x| |].
    + eapply vruns_bind; [by apply (vruns_read (fun _ => Ret b))|]. intros s3 Hs3. destruct b.
      * injection H as <- <-. by apply vruns_ret.
      * injection H as <- <-. by apply vruns_add_cross.
    + injection H as <- <-. apply vruns_throw. by apply (vruns_read (fun _ => Throw x)).
    + by injection H as <- <-.
    + by injection H as <- <-.
  - intros H. by eapply grow_sim.
  - intros H. by eapply grow_sim.
  - intros [= <- <-]. by apply vruns_ret.
Qed.

(** Whole calls. *)
Definition sim (s1 : ast) (s0 : gst) : Prop :=
  sh (dg s1) (gs_dg s0) /\ gs_subs (fst s1) = gs_subs s0 /\ snd s1 = ver /\
  forall j, V j -> gs_views (fst s1) !! j = gs_views s0 !! j.

Definition simc {A B} (R : A -> B -> Prop) (s1 : ast) (s0 : gst) (m1 : call ast A) (m0 : call gst B) : Prop :=
  forall s0' e0 r0, m0 s0 = (s0', e0, r0) -> ok r0 ->
  exists s1' e1 r1, m1 s1 = (s1', e1, r1) /\ orel R r1 r0 /\ sim s1' s0' /\ filter structural e1 = filter structural e0.

Lemma simc_bind {A B A2 B2} (R : A -> B -> Prop) (R2 : A2 -> B2 -> Prop) s1 s0 m1 m0 (k1 : A -> call ast A2) (k0 : B -> call gst B2) :
  simc R s1 s0 m1 m0 ->
  (forall a b s1' s0' e0, R a b -> sim s1' s0' -> m0 s0 = (s0', e0, Ret b) -> simc R2 s1' s0' (k1 a) (k0 b)) ->
  simc R2 s1 s0 (cbind m1 k1) (cbind m0 k0).
Proof.
  intros Hm Hk s0' e0 r0 H Hok.
  apply cbind_inv in H as [(s2 & ev1 & a & ev2 & H1 & H2 & ->)|[(x & H1 & ->)|[[_ ->]|[_ ->]]]]; [| |done|done].
  - destruct (Hm _ _ _ H1 I) as (t1 & f1 & r1 & Hm1 & Hr & Hs & Hf). destruct r1 as [a1|x| |]; try done. cbn in Hr.
    destruct (Hk _ _ _ _ _ Hr Hs H1 _ _ _ H2 Hok) as (t2 & f2 & r2 & Hk1 & Hr2 & Hs2 & Hf2).
    unfold cbind. rewrite Hm1, Hk1. exists t2, (f1 ++ f2), r2. split_and!; try done. by rewrite !filter_app, Hf, Hf2.
  - destruct (Hm _ _ _ H1 I) as (t1 & f1 & r1 & Hm1 & Hr & Hs & Hf). destruct r1 as [a1|y| |]; try done. cbn in Hr. subst y.
    unfold cbind. rewrite Hm1. by exists t1, f1, (Throw x).
Qed.

Lemma simc_read {A B} (R : A -> B -> Prop) s1 s0 (f1 : gst -> outcome A) (f0 : gst -> outcome B) : sim s1 s0 ->
  orel R (f1 (fst s1)) (f0 s0) -> simc R s1 s0 (aread f1) (cread f0).
Proof. intros Hs Hr s0' e0 r0 [= <- <- <-] _. by exists s1, [], (f1 (fst s1)). Qed.

Lemma simc_ret {A} (a : A) s1 s0 : sim s1 s0 -> simc eq s1 s0 (cret a) (cret a).
Proof. intros Hs s0' e0 r0 [= <- <- <-] _. by exists s1, [], (Ret a). Qed.

Lemma simc_notify e s1 s0 : sim s1 s0 -> simc eq s1 s0 (cnotify e) (cnotify e).
Proof. intros Hs s0' e0 r0 [= <- <- <-] _. by exists s1, [e], (Ret tt). Qed.

Lemma sim_dg g1 g0 s1 s0 : sim s1 s0 -> sh g1 g0 -> sim (gs_set_dg g1 (fst s1), snd s1) (gs_set_dg g0 s0).
Proof. by intros (_ & H2 & H3 & H4) Hg. Qed.

Lemma simc_add_vertex f d s1 s0 : sim s1 s0 -> simc eq s1 s0 (alift (add_vertex f d)) (add_vertex f d).
Proof.
  intros Hs s0' e0 r0. unfold add_vertex, alift. destruct (sh_add_vertex f d _ _ (proj1 Hs)) as [Hg Hv].
  destruct (bg_add_vertex f d (gs_dg s0)) as [g0 v0], (bg_add_vertex f d (dg s1)) as [g1 v1]. cbn in Hg, Hv. subst v1.
  intros [= <- <- <-] _. cbn [gs_set_dg gs_subs]. rewrite bool_decide_eq_true_2 by done.
  eexists _, _, _. split; [done|]. split; [done|]. split; [|done]. by apply sim_dg.
Qed.

Lemma simc_remove i s1 s0 : sim s1 s0 -> simc eq s1 s0 (alift (boost_remove_edge i)) (boost_remove_edge i).
Proof.
  intros Hs s0' e0 r0. unfold boost_remove_edge, alift. pose proof (sh_remove_edge i _ _ (proj1 Hs)) as Hg.
  destruct (bg_remove_edge i (gs_dg s0)) as [g0|], (bg_remove_edge i (dg s1)) as [g1|]; try done.
  2: { by intros [= <- <- <-]. }
  intros [= <- <- <-] _. cbn [gs_set_dg gs_subs]. rewrite bool_decide_eq_true_2 by done.
  eexists _, _, _. split; [done|]. split; [done|]. split; [|done]. by apply sim_dg.
Qed.

Lemma simc_views f1 f0 (l : list viewid) s0c : Forall V l -> intact (gs_dg s0c) ->
  (forall i w w' r s0 s1, good i s0 -> gs_dg s0 = gs_dg s0c -> vsim i w s0 s1 -> f0 i w = (w', r) -> ok r -> vruns (f1 i) s1 i w' s0 r) ->
  forall s1 s0, gs_dg s0 = gs_dg s0c -> sim s1 s0 -> simc eq s1 s0 (act_views f1 ver l) (for_views f0 l).
Proof.
  intros Hl Hin Hf. induction Hl as [|i l Hi Hl IH]; intros s1 s0 Hd Hs; cbn [act_views for_views]; [by apply simc_ret|].
  intros s0' e0 r0. destruct (gs_views s0 !! i) as [w|] eqn:Hw; [|by intros [= <- <- <-]].
  destruct (f0 i w) as [w' r] eqn:Hfw. intros H Hok.
  assert (Hv : vsim i w s0 s1).
  { destruct Hs as (H1 & H2 & H3 & H4). split_and!; try done; [by rewrite H4|]. intros j Hj _. by apply H4. }
  assert (Hr : ok r) by (destruct r; try done; by injection H as <- <- <-).
  assert (Hgi : good i s0) by (split; [done|by rewrite Hd]).
  destruct (Hf _ _ _ _ _ _ Hgi Hd Hv Hfw Hr) as (t1 & f & Hf1 & Hv' & Hev).
  assert (Hs' : sim t1 (gs_set_view i w' s0)).
  { destruct Hv' as (H1 & H2 & H3 & H4 & H5). split_and!; try done. intros j Hj. cbn.
    destruct (decide (j = i)) as [->|Hne]; [by rewrite lookup_insert|]. rewrite lookup_insert_ne by done. by apply H5. }
  unfold cbind. rewrite Hf1. destruct r as [[]|x| |]; try done.
  - pose proof Hs' as (_ & _ & Hver & _). rewrite Hver, Nat.eqb_refl.
    destruct (IH t1 (gs_set_view i w' s0) Hd Hs' _ _ _ H Hok) as (t2 & f2 & r2 & -> & Hr2 & Hs2 & Hf2).
    exists t2, (f ++ f2), r2. split_and!; try done. by rewrite filter_app, Hev.
  - injection H as <- <- <-. by exists t1, f, (Throw x).
Qed.

Lemma add_view_dg (s s' : gst) ne w : gs_dg s = gs_dg s' -> add_edge_to_tree_view s ne w = add_edge_to_tree_view s' ne w.
Proof. destruct s, s'. cbn. by intros ->. Qed.

Lemma sim_subs s1 s0 : sim s1 s0 -> gs_subs (fst s1) = gs_subs s0 /\ snd s1 = ver.
Proof. by intros (_ & ? & ? & _). Qed.

Lemma simc_find u v s1 s0 : sim s1 s0 -> simc oerel s1 s0 (aread (fun s => find_edge s u v)) (cread (fun s => find_edge s u v)).
Proof. intros Hs. apply simc_read; [done|]. by apply sh_find_edge, Hs. Qed.
Lemma simc_fid v s1 s0 : sim s1 s0 -> simc eq s1 s0 (aread (fun s => get_frame_id s v)) (cread (fun s => get_frame_id s v)).
Proof. intros Hs. apply simc_read; [done|]. by apply orel_eq, sh_frame_id, Hs. Qed.
Lemma simc_gv f s1 s0 : sim s1 s0 -> simc eq s1 s0 (aread (fun s => get_vertex s f)) (cread (fun s => get_vertex s f)).
Proof. intros Hs. apply simc_read; [done|]. by apply orel_eq, sh_get_vertex, Hs. Qed.

Lemma simc_add_edge_v o t p s1 s0 : sim s1 s0 -> egood (gs_dg s0) -> intact (gs_dg s0) -> Forall V (gs_subs s0) ->
  length (dg_verts (gs_dg s0)) <= fuel -> 2 + length (dg_edges (gs_dg s0)) <= fuel ->
  simc eq s1 s0 (act_add_edge_v einv h fuel o t p) (add_edge_v einv o t p).
Proof.
  intros Hs Hg Hin HV Hf1 Hf2. unfold act_add_edge_v, add_edge_v.
  eapply simc_bind; [by apply simc_find|]. intros e1 e0 t1 t0 ev He Hs1 Hfind.
  unfold cread in Hfind. injection Hfind as <- _ Hfind.
  destruct e1 as [e1|], e0 as [e0|]; try done.
  { eapply simc_bind; [by apply simc_fid|]. intros fo ? t2 t3 ? -> Hs2 _.
    eapply simc_bind; [by apply simc_fid|]. intros ft ? t4 t5 ? -> Hs3 _. by apply simc_read. }
  assert (Ho : bg_alive (gs_dg s0) o = true) by (unfold find_edge in Hfind; by destruct (bg_alive _ o)).
  eapply (simc_bind eq).
  { apply simc_read; [done|]. rewrite (sh_alive _ _ t (proj1 Hs1)). by destruct (bg_alive _ t). }
  intros [] [] t2 t3 ev2 _ Hs2 Ht. unfold cread in Ht. injection Ht as <- _ Ht.
  assert (Hta : bg_alive (gs_dg s0) t = true) by by destruct (bg_alive _ t). clear Ht.
  eapply (simc_bind eq).
  { intros s0' ex r0. unfold alift. destruct (sh_add_edge o t p _ _ (proj1 Hs2)) as [Hg1 Hv1].
    destruct (bg_add_edge o t p (gs_dg s0)) as [g0 v0], (bg_add_edge o t p (dg t2)) as [g1 v1]. cbn in Hg1, Hv1. subst v1.
    intros [= <- <- <-] _. cbn [gs_set_dg gs_subs]. rewrite bool_decide_eq_true_2 by done.
    eexists _, _, _. split; [done|]. split; [done|]. split; [|done]. by apply sim_dg. }
  intros i ? t3 s3 ev3 -> Hs3 Hs3eq.
  assert (Hd3 : gs_dg s3 = fst (bg_add_edge o t p (gs_dg s0)) /\ gs_subs s3 = gs_subs s0) by (by injection Hs3eq as <- _ _).
  clear Hs3eq. destruct Hd3 as [Hd3 Hsub3].
  eapply (simc_bind eq).
  { intros s0' ex r0. unfold alift, cmodify. destruct (sh_add_edge t o (einv p) _ _ (proj1 Hs3)) as [Hg1 _].
    intros [= <- <- <-] _. cbn [gs_set_dg gs_subs]. rewrite bool_decide_eq_true_2 by done.
    eexists _, _, _. split; [done|]. split; [done|]. split; [|done]. by apply (sim_dg _ _ t3 s3). }
  intros [] [] t4 s4 ev4 _ Hs4 Hs4eq.
  assert (Hd4 : gs_dg s4 = fst (bg_add_edge t o (einv p) (gs_dg s3)) /\ gs_subs s4 = gs_subs s0) by (by injection Hs4eq as <- _).
  clear Hs4eq. destruct Hd4 as [Hd4 Hsub4].
  assert (Hg4 : egood (gs_dg s4)).
  { rewrite Hd4. apply egood_add_edge; [rewrite Hd3; by apply egood_add_edge|]. by rewrite Hd3. }
  assert (Hv4 : length (dg_verts (gs_dg s4)) <= fuel) by by rewrite Hd4, Hd3.
  assert (He4 : length (dg_edges (gs_dg s4)) <= fuel).
  { rewrite Hd4, Hd3. cbn. rewrite !app_length. cbn. lia. }
  eapply (simc_bind eq).
  { unfold add_edge_to_tree_views. intros s0' ex r0 H Hok. pose proof (sim_subs _ _ Hs4) as [Hsub Hver]. rewrite Hsub, Hver, Hsub4.
    rewrite Hsub4 in H. revert s0' ex r0 H Hok. eapply (simc_views _ _ _ s4); [done|by rewrite Hd4, Hd3; apply intact_add2| |done|done].
    intros j w w' r u0 u1 Hj Hd Hu Hadd Hok. rewrite (add_view_dg s4 u0) in Hadd by done.
    apply (add_to_sim _ _ u0 w); rewrite ?Hd; done. }
  intros [] [] t5 s5 ev5 _ Hs5 _.
  eapply simc_bind; [by apply simc_fid|]. intros fo ? t6 s6 ? -> Hs6 _.
  eapply simc_bind; [by apply simc_fid|]. intros ft ? t7 s7 ? -> Hs7 _. by apply simc_notify.
Qed.

Lemma simc_remove_impl ord o t vo vt s1 s0 : sim s1 s0 -> dg_wf einv (gs_dg s0) -> Forall V (gs_subs s0) ->
  simc eq s1 s0 (act_remove_impl h ord o t vo vt) (remove_edge_impl ord o t vo vt).
Proof.
  intros Hs Hwf HV. unfold act_remove_impl, remove_edge_impl.
  eapply simc_bind; [by apply simc_find|]. intros a1 a0 t1 t0 ev Ha Hs1 Hf1. injection Hf1 as <- _ Hf1.
  eapply simc_bind; [by apply simc_find|]. intros b1 b0 t2 t0 ev2 Hb Hs2 Hf2. injection Hf2 as <- _ Hf2.
  destruct a1 as [a1|], a0 as [a0|]; try done; [|by apply simc_read].
  destruct b1 as [b1|], b0 as [b0|]; try done; [|by apply simc_read].
  unfold oerel in Ha, Hb. cbn in Ha, Hb. injection Ha as -> _ _ _. injection Hb as -> _ _ _.
  eapply simc_bind; [by apply simc_remove|]. intros [] [] t3 s3 ev3 _ Hs3 Hr3.
  eapply simc_bind; [by apply simc_notify|]. intros [] [] t4 s4 ev4 _ Hs4 Hr4. injection Hr4 as <- _.
  eapply simc_bind; [by apply simc_remove|]. intros [] [] t5 s5 ev5 _ Hs5 Hr5.
  assert (gs_subs s5 = gs_subs s0 /\ dg_wf einv (gs_dg s5)) as [Hsub Hwf5].
  { unfold find_edge in Hf1, Hf2. destruct (bg_alive _ vo); [|done]. destruct (bg_alive _ vt); [|done].
    injection Hf1 as Hf1. injection Hf2 as Hf2. destruct (remove_two einv _ _ _ _ _ Hwf Hf1 Hf2) as (g1 & Hg1 & Hg2).
    unfold boost_remove_edge in Hr3, Hr5. rewrite Hg1 in Hr3. injection Hr3 as <- _.
    cbn in Hr5. rewrite Hg2 in Hr5. injection Hr5 as <- _. split; [done|]. by eapply (wf_rem2 einv). }
  intros s0' ex r0 H Hok. unfold remove_edge_from_tree_views in H. pose proof (sim_subs _ _ Hs5) as [Hsb Hver].
  rewrite Hsb, Hver, Hsub. rewrite Hsub in H. revert s0' ex r0 H Hok. eapply (simc_views _ _ _ s5); [done|by apply wf_intact| |done|done].
  intros j w w' r u0 u1 Hj _ Hu H Hok. by eapply vruns_remove_from.
Qed.

Lemma simc_remove_v ord vo vt s1 s0 : sim s1 s0 -> dg_wf einv (gs_dg s0) -> Forall V (gs_subs s0) ->
  simc eq s1 s0 (act_remove_v h ord vo vt) (remove_edge_v ord vo vt).
Proof.
  intros Hs Hwf HV. unfold act_remove_v, remove_edge_v.
  eapply simc_bind; [by apply simc_fid|]. intros a ? t1 t0 ev -> Hs1 Hf1. injection Hf1 as <- _ _.
  eapply simc_bind; [by apply simc_fid|]. intros c2 ? t2 t0 ev2 -> Hs2 Hf2. injection Hf2 as <- _ _.
  by eapply simc_remove_impl.
Qed.

Lemma for_views_subs f l : forall (s s' : gst) ev r, for_views f l s = (s', ev, r) -> gs_subs s' = gs_subs s /\ gs_dg s' = gs_dg s.
Proof.
  induction l as [|i l IH]; intros s s' ev r; cbn; [by intros [= <- _ _]|].
  destruct (gs_views s !! i); [|by intros [= <- _ _]]. destruct (f i _) as [w' []]; try (by intros [= <- _ _]).
  intros H. by apply IH in H.
Qed.

Lemma remove_v_keeps ord vo vt (s s' : gst) ev r : remove_edge_v ord vo vt s = (s', ev, r) ->
  gs_subs s' = gs_subs s /\ dg_verts (gs_dg s') = dg_verts (gs_dg s).
Proof.
  assert (Hb : forall i (s s' : gst) ev r, boost_remove_edge i s = (s', ev, r) ->
    gs_subs s' = gs_subs s /\ dg_verts (gs_dg s') = dg_verts (gs_dg s)).
  { intros i u u' ev' r'. unfold boost_remove_edge, bg_remove_edge. destruct (bg_erec _ _); by intros [= <- _ _]. }
  unfold remove_edge_v, remove_edge_impl, cbind, cread, cnotify.
  destruct (get_frame_id s vo); try (by intros [= <- _ _]). destruct (get_frame_id s vt); try (by intros [= <- _ _]).
  destruct (find_edge s vo vt) as [e1|x| |]; try (by intros [= <- _ _]). destruct (find_edge s vt vo) as [e2|x| |]; try (by intros [= <- _ _]).
  destruct e1, e2; try (by intros [= <- _ _]).
  destruct (boost_remove_edge _ s) as [[s2 ev2] r2] eqn:H2. apply Hb in H2 as [Ha Hbb]. destruct r2; try (by intros [= <- _ _]).
  destruct (boost_remove_edge _ s2) as [[s3 ev3] r3] eqn:H3. apply Hb in H3 as [Hc3 Hd3].
  destruct r3; try (intros [= <- _ _]; split; congruence).
  destruct (remove_edge_from_tree_views ord vo vt s3) as [[s4 ev4] r4] eqn:H4.
  unfold remove_edge_from_tree_views in H4. apply for_views_subs in H4 as [He4 Hf4]. intros [= <- _ _]. split; congruence.
Qed.

Lemma simc_loop ord v : forall n k s1 s0, n <= k -> sim s1 s0 -> dg_wf einv (gs_dg s0) -> Forall V (gs_subs s0) -> bg_alive (gs_dg s0) v = true ->
  simc eq s1 s0 (act_disconnect_loop h k ord v) (disconnect_loop n ord v).
Proof.
  induction n as [|n IH]; intros k s1 s0 Hk Hs Hwf HV Ha s0' e0 r0.
  - cbn [disconnect_loop]. pose proof (sh_out _ _ v (proj1 Hs)) as Ho.
    destruct (bg_out (gs_dg s0) v) as [|e l] eqn:Hout; [|by intros [= <- <- <-]].
    intros [= <- <- <-] _. exists s1, [], (Ret tt). split_and!; try done.
    destruct k; cbn [act_disconnect_loop]; rewrite (sh_alive _ _ v (proj1 Hs)), Ha; by destruct (bg_out (dg s1) v).
  - destruct k as [|k]; [lia|]. cbn [disconnect_loop act_disconnect_loop].
    rewrite (sh_alive _ _ v (proj1 Hs)), Ha. pose proof (sh_out _ _ v (proj1 Hs)) as Ho.
    destruct (bg_out (gs_dg s0) v) as [|e l] eqn:Hout, (bg_out (dg s1) v) as [|e1 l1] eqn:Hout1; try done.
    + intros [= <- <- <-] _. by exists s1, [], (Ret tt).
    + cbn in Ho. injection Ho as _ _ Htgt _ _. rewrite Htgt. revert s0' e0 r0.
      change (simc eq s1 s0 (act_remove_v h ord v (e_tgt e);;; act_disconnect_loop h k ord v)
        (remove_edge_v ord v (e_tgt e);;; disconnect_loop n ord v)).
      eapply simc_bind; [by apply simc_remove_v|]. intros [] [] t1 t0 ev _ Hs1 Hr. assert (Hwf1 : dg_wf einv (gs_dg t0)).
      { eapply (lsteps_wf einv); [exact Hwf|]. by eapply (remove_edge_v_lsteps einv). }
      apply remove_v_keeps in Hr as [Hsub Hvs].
      apply IH; [lia|done|done|by rewrite Hsub|]. unfold bg_alive in *. by rewrite Hvs.
Qed.

End quiet.

Section quiet2.
Context {D E D' E' : Type} (kd : D -> D') (ke : E -> E') (d0 : D) (einv : E -> E).
Local Notation gst := (gst D E).
Local Notation ast := (ast D E).
Local Notation dg s := (gs_dg (fst s)).
Local Notation sh := (same_shape kd ke).

Theorem quiet_call (V : viewid -> Prop) h fuel ord op (s : gst) n s0 ev0 r :
  considerate kd ke V h -> reachable d0 einv s ->
  (forall i, i ∈ gs_subs s -> V i) -> (forall i, fills op = Some i -> V i) ->
  length (dg_verts (gs_dg s)) + length (dg_edges (gs_dg s)) + 4 <= fuel ->
  gstep d0 einv ord op s = (s0, ev0, r) -> ended r ->
  exists s1 n1 ev1, gact d0 einv h fuel ord op (s, n) = ((s1, n1), ev1, r) /\
    sh (gs_dg s1) (gs_dg s0) /\ gs_subs s1 = gs_subs s0 /\ (forall j, V j -> gs_views s1 !! j = gs_views s0 !! j) /\
    filter structural ev1 = filter structural ev0.
Proof.
  intros Hc Hr HV Hfill Hfuel Hstep Hend.
  assert (Hok : ok r) by (destruct Hend as [[? ->]|[? ->]]; done).
  assert (Hwf : dg_wf einv (gs_dg s)) by by eapply reachable_wf.
  assert (Hg : egood (gs_dg s)) by by apply (wf_egood einv).
  assert (Hin : intact (gs_dg s)) by by apply (wf_intact einv).
  assert (HV' : Forall V (gs_subs s)) by by apply list.Forall_forall.
  assert (Hs : sim kd ke V n (s, n) s) by (split_and!; try done; by apply sh_refl).
  assert (Hfin : forall m1 m0, simc kd ke V n eq (s, n) s m1 m0 -> m0 s = (s0, ev0, r) ->
    exists s1 n1 ev1, m1 (s, n) = ((s1, n1), ev1, r) /\
    sh (gs_dg s1) (gs_dg s0) /\ gs_subs s1 = gs_subs s0 /\ (forall j, V j -> gs_views s1 !! j = gs_views s0 !! j) /\
    filter structural ev1 = filter structural ev0).
  { intros m1 m0 Hm H0. destruct (Hm _ _ _ H0 Hok) as ([s1 n1] & ev1 & r1 & Hm1 & ->%orel_eq & (Ha & Hb & _ & Hd) & He).
    by exists s1, n1, ev1. }
  assert (Htree : forall root keep i (Hi : V i) s1 t1, sim kd ke V n s1 t1 -> t1 = s -> get_tree_v root keep i t1 = (s0, ev0, r) ->
    exists s2 ev1, act_get_tree_v h fuel root keep i s1 = (s2, ev1, r) /\
    sh (dg s2) (gs_dg s0) /\ gs_subs (fst s2) = gs_subs s0 /\ (forall j, V j -> gs_views (fst s2) !! j = gs_views s0 !! j) /\
    filter structural ev1 = filter structural ev0).
  { intros root keep i Hi s1 t1 Hs1 -> H. unfold get_tree_v in H. destruct (gs_views s !! i) as [w|] eqn:Hw; [|by injection H as <- <- <-].
    assert (Hv : vsim kd ke V n i w s s1).
    { destruct Hs1 as (H1 & H2 & H3 & H4). split_and!; try done; [by rewrite H4|]. intros j Hj _. by apply H4. }
    unfold get_tree_into in H. destruct (bfs_trace (gs_dg s) _ root) as [tr|x| |] eqn:Htr; cbn in H; try (by injection H as <- <- <-).
    2: { exfalso. revert Htr. unfold bfs_trace. destruct (bg_alive _ _); [|done]. by destruct (bfs_loop _ _ _ _). }
    assert (Hrun : vruns kd ke V n (aset i (tv_add_root root w);;; act_bfs h fuel i (fun _ => true) root) s1 i
      (build_tree tr (tv_add_root root w)) s (Ret tt)).
    { eapply vruns_bind; [by eapply vruns_set|]. intros s2 Hs2. eapply bfs_sim; try done; lia. }
    destruct Hrun as (s2 & ev2 & Hrun & (H1 & H2 & H3 & H4 & H5) & Hev2).
    unfold cbind in Hrun. unfold act_get_tree_v, aview, aread, cread, cbind. destruct Hs1 as (_ & _ & _ & Hs14).
    rewrite (Hs14 i Hi), Hw. unfold aset, cmodify in Hrun |- *. cbv beta iota zeta in Hrun |- *.
    destruct (act_bfs h fuel i (fun _ => true) root _) as [[s3 ev3] r3] eqn:Hbfs.
    destruct r3 as [[]| | |]; try done. injection Hrun as -> <-. cbn in Hev2.
    assert (Hview : forall j, V j -> gs_views (fst s2) !! j = <[i := build_tree tr (tv_add_root root w)]> (gs_views s) !! j).
    { intros j Hj. destruct (decide (j = i)) as [->|Hne]; [by rewrite lookup_insert|]. rewrite lookup_insert_ne by done. by apply H5. }
    destruct keep.
    - unfold subscribe_tree_view in H. cbn in H. rewrite lookup_insert in H.
      destruct (tv_pub (build_tree _ _)) eqn:Hp; [by injection H as <- <- <-|]. injection H as <- <- <-.
      unfold alift, subscribe_tree_view. rewrite H4, Hp. eexists _, _. split; [done|]. cbn. split_and!.
      + done.
      + by rewrite H2.
      + intros j Hj. destruct (decide (j = i)) as [->|Hne]; [by rewrite !lookup_insert|]. rewrite !lookup_insert_ne by done. by apply H5.
      + by rewrite !filter_app, Hev2.
    - injection H as <- <- <-. eexists _, _. split; [done|]. cbn. split_and!; try done. by rewrite !filter_app, Hev2. }
  assert (Hlift : forall m : call gst unit, m s = (s0, ev0, r) -> exists s1 n1 ev1, alift m (s, n) = ((s1, n1), ev1, r) /\
    sh (gs_dg s1) (gs_dg s0) /\ gs_subs s1 = gs_subs s0 /\ (forall j, V j -> gs_views s1 !! j = gs_views s0 !! j) /\
    filter structural ev1 = filter structural ev0).
  { intros m Hm. unfold alift. cbn [fst]. rewrite Hm. eexists _, _, _. split; [done|]. by split_and!. }
  destruct op; cbn [gact gstep] in *; try (by apply Hlift).
  - (* OAddEdge *)
    eapply Hfin; [|exact Hstep]. intros s0' e0 r0 H0 Hok0. unfold act_add_edge_n. unfold add_edge in H0. revert H0 Hok0.
    cbn zeta. cbn [fst]. revert s0' e0 r0.
    match goal with |- forall s0' e0 r0, ?m0 s = _ -> ok _ -> exists s1' e1 r1, ?m1 (s, n) = _ /\ _ => change (simc kd ke V n eq (s, n) s m1 m0) end.
    assert (Hav : forall (b : bool) f v t1 t0, sim kd ke V n t1 t0 ->
      simc kd ke V n eq t1 t0 (if b then alift (add_vertex f d0) else cret v) (if b then add_vertex f d0 else cret v)).
    { intros [] f v t1 t0 Ht; [by apply simc_add_vertex|by apply simc_ret]. }
    assert (Hkeep : forall (b : bool) f v (t0 t1 : gst) ev a, (if b then add_vertex f d0 else cret v) t0 = (t1, ev, Ret a) ->
      gs_subs t1 = gs_subs t0 /\ length (dg_verts (gs_dg t1)) <= S (length (dg_verts (gs_dg t0))) /\
      dg_edges (gs_dg t1) = dg_edges (gs_dg t0) /\ (egood (gs_dg t0) -> egood (gs_dg t1)) /\ (intact (gs_dg t0) -> intact (gs_dg t1))).
    { intros [] f v t0 t1 ev a.
      - unfold add_vertex, bg_add_vertex. destruct (dg_map (gs_dg t0) !! f); [intros [= <- _ _]; split_and!; [done|cbn; lia|done|done|done]|].
        intros [= <- _ _]. cbn. rewrite app_length. cbn. split_and!; [done|lia|done| |].
        + intros (Ha & Hb & Hcc). split_and!; try done. intros e He. cbn in He. apply Hcc in He. unfold bg_alive in *. cbn.
          rewrite existsb_app. by rewrite He.
        + intros [Hm He]. assert (Hal : forall (x : vrec D) y, bg_alive (gs_dg t0) y = true -> existsb (fun r => Nat.eqb (v_id r) y) (dg_verts (gs_dg t0) ++ [x]) = true).
          { intros x y Hy. rewrite existsb_app. unfold bg_alive in Hy. by rewrite Hy. }
          split.
          * intros f' v'. cbn. destruct (decide (f' = f)) as [->|Hne].
            -- rewrite lookup_insert. intros [= <-]. unfold bg_alive. cbn. rewrite existsb_app. cbn. rewrite Nat.eqb_refl. by rewrite orb_true_r.
            -- rewrite lookup_insert_ne by done. intros Hf'. unfold bg_alive. cbn. by apply Hal, (Hm f').
          * cbn. intros e Hine. destruct (He e Hine) as (H1 & H2 & H3). split_and!; [by apply Hal|by apply Hal|done].
      - intros [= <- _ _]. split_and!; [done|lia|done|done|done]. }
    eapply simc_bind; [by apply Hav|]. intros vo ? t1 t0 ev -> Hs1 Hk1. apply Hkeep in Hk1 as (Hk1 & Hk2 & Hk3 & Hk4 & Hk5).
    eapply simc_bind; [by apply Hav|]. intros vt ? t2 t3 ev2 -> Hs2 Hl1. apply Hkeep in Hl1 as (Hl1 & Hl2 & Hl3 & Hl4 & Hl5).
    apply simc_add_edge_v; try done; [by apply Hl4, Hk4|by apply Hl5, Hk5|by rewrite Hl1, Hk1|lia|rewrite Hl3, Hk3; lia].
  - eapply Hfin; [|exact Hstep]. apply simc_add_edge_v; try done; lia.
  - (* ORemoveEdge *)
    eapply Hfin; [|exact Hstep]. unfold act_remove_n, remove_edge.
    eapply simc_bind; [by apply simc_gv|]. intros a ? t1 t0 ev -> Hs1 Hf1. injection Hf1 as <- _ _.
    eapply simc_bind; [by apply simc_gv|]. intros c2 ? t2 t0 ev2 -> Hs2 Hf2. injection Hf2 as <- _ _.
    by eapply simc_remove_impl.
  - eapply Hfin; [|exact Hstep]. by eapply simc_remove_v.
  - (* ODisconnect *)
    eapply Hfin; [|exact Hstep]. unfold act_disconnect, disconnect_frame.
    eapply simc_bind; [by apply simc_gv|]. intros ? v t1 t0 ev -> Hs1 Hf1. injection Hf1 as <- _ Hgv.
    intros s0' e0 r0. eapply simc_loop; try done; [lia|].
    apply get_vertex_inv in Hgv. eapply (wf_map_alive einv); [by eapply reachable_wf|done].
  - (* OGetTree *)
    unfold get_tree in Hstep. unfold cbind, aread, cread in *. cbn [fst] in *.
    destruct (get_vertex s root) as [v|x| |] eqn:Hgv; try (injection Hstep as <- <- <-; eexists _, _, _; split; [done|]; split_and!; try done; apply sh_refl).
    destruct (get_tree_v v keep i s) as [[s2 ev2] r2] eqn:Ht. injection Hstep as -> <- ->.
    destruct (Htree v keep i (Hfill i eq_refl) (s, n) s Hs eq_refl Ht) as ([s3 n3] & ev3 & -> & Ha & Hb & Hcc & Hd).
    by eexists _, _, _.
  - destruct (Htree root keep i (Hfill i eq_refl) (s, n) s Hs eq_refl Hstep) as ([s3 n3] & ev3 & -> & Ha & Hb & Hcc & Hd).
    by eexists _, _, _.
Qed.

End quiet2.

(** Nothing changed at all. *)
Lemma same_shape_id {D E} (g g' : digraph D E) : same_shape id id g g' -> g = g'.
Proof.
  intros [Hv He Hm Hr].
  assert (Hv' : dg_verts g = dg_verts g').
  { revert Hv. generalize (dg_verts g) (dg_verts g'). induction l as [|[] l IH]; intros [|[] l']; try done.
    cbn. intros [= -> -> -> -> Hl]. f_equal. by apply IH. }
  assert (He' : dg_edges g = dg_edges g').
  { revert He. generalize (dg_edges g) (dg_edges g'). induction l as [|[] l IH]; intros [|[] l']; try done.
    cbn. intros [= -> -> -> -> Hl]. f_equal. by apply IH. }
  destruct g, g'. cbn in *. congruence.
Qed.

Theorem readers_call {D E : Type} (d0 : D) (einv : E -> E) (V : viewid -> Prop) h fuel ord op (s : gst D E) n s0 ev0 r :
  considerate id id V h -> reachable d0 einv s ->
  (forall i, i ∈ gs_subs s -> V i) -> (forall i, fills op = Some i -> V i) ->
  length (dg_verts (gs_dg s)) + length (dg_edges (gs_dg s)) + 4 <= fuel ->
  gstep d0 einv ord op s = (s0, ev0, r) -> ended r ->
  exists s1 n1 ev1, gact d0 einv h fuel ord op (s, n) = ((s1, n1), ev1, r) /\
    gs_dg s1 = gs_dg s0 /\ gs_subs s1 = gs_subs s0 /\
    (forall j, V j -> gs_views s1 !! j = gs_views s0 !! j) /\
    filter structural ev1 = filter structural ev0.
Proof.
  intros Hc Hr HV Hf Hfu Hs He.
  destruct (quiet_call id id d0 einv V h fuel ord op s n s0 ev0 r Hc Hr HV Hf Hfu Hs He) as (s1 & n1 & ev1 & H1 & H2 & H3).
  exists s1, n1, ev1. split; [done|]. split; [by apply same_shape_id|done].
Qed.
