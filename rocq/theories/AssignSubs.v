(** Who hears of the events of a graph, as long as graphs are not assigned to each other. *)
From stdpp Require Import prelude strings gmap.
From Verif Require Import ListLib Outcome Digraph GraphModel GraphCopy AssignModel SpecAssign AssignThms.

Section subs.
Context {D E : Type} (d0 : D) (einv : E -> E).
Local Notation aworld := (aworld D E).
Implicit Types w : aworld.

Definition sp w := (go_recv <$> aw_objs w, aw_pubs w).
Definition calm {A} (m : call aworld A) : Prop := forall w, sp (fst (fst (m w))) = sp w.

Lemma calm_bind {A B} (m : call aworld A) (k : A -> call aworld B) : calm m -> (forall x, calm (k x)) -> calm (cbind m k).
Proof.
  intros Hm Hk w. unfold cbind. specialize (Hm w). destruct (m w) as [[w1 e1] [x| | |]]; try done.
  specialize (Hk x w1). destruct (k x w1) as [[? ?] ?]. cbn in *. congruence.
Qed.
Lemma calm_at {A B} (m : call aworld A) (k : A -> call aworld B) w : sp (fst (fst (m w))) = sp w ->
  (forall w1 e x, m w = (w1, e, Ret x) -> sp (fst (fst (k x w1))) = sp w1) -> sp (fst (fst (cbind m k w))) = sp w.
Proof.
  intros Hm Hk. unfold cbind. destruct (m w) as [[w1 e1] [x| | |]] eqn:Hmw; try done.
  specialize (Hk w1 e1 x eq_refl). destruct (k x w1) as [[? ?] ?]. cbn in *. congruence.
Qed.
Lemma calm_read {A} (f : aworld -> outcome A) : calm (cread f).
Proof. done. Qed.
Lemma calm_ret {A} (x : A) : calm (cret x).
Proof. done. Qed.
Local Ltac cr := first [apply calm_read | apply calm_ret].

Lemma obj_at w a w1 e o : aw_obj a w = (w1, e, Ret o) -> w1 = w /\ aw_objs w !! a = Some o.
Proof. unfold aw_obj, cread. destruct (aw_objs w !! a); [|done]. by intros [= <- _ ->]. Qed.

Lemma recv_insert w a o o' : aw_objs w !! a = Some o -> go_recv o' = go_recv o -> go_recv <$> <[a := o']> (aw_objs w) = go_recv <$> aw_objs w.
Proof. intros Ho Hr. rewrite fmap_insert, Hr. apply insert_id. by rewrite lookup_fmap, Ho. Qed.

Lemma calm_tell e l : calm (aw_tell e l).
Proof. induction l as [|s l IH]; intros w; [done|]. cbn. destruct (aw_pubs w !! s); [|done]. by rewrite IH. Qed.
Lemma calm_notify a e : calm (aw_notify a e).
Proof. apply calm_bind; [cr|]. intros o. apply calm_tell. Qed.

Lemma calm_add_vertex a f d : calm (aw_add_vertex a f d).
Proof.
  intros w. unfold aw_add_vertex. apply calm_at; [done|]. intros w1 e1 o [-> Ho]%obj_at. apply calm_at.
  - destruct (go_map o !! f) as [v|]; [done|]. unfold sp. cbn. f_equal. by apply (recv_insert w a o).
  - intros w2 e2 v _. apply calm_at; [apply calm_notify|done].
Qed.
Lemma calm_emplace a f d : calm (aw_emplace a f d).
Proof. apply calm_bind; [cr|]. intros o. destruct (go_map o !! f); [cr|]. apply calm_bind; [apply calm_add_vertex|]. intros _. cr. Qed.
Lemma calm_set_data a f d : calm (aw_set_data a f d).
Proof. do 2 (apply calm_bind; [cr|intros ?]). done. Qed.
Lemma calm_boost_add a u v p : calm (aw_boost_add a u v p).
Proof.
  intros w. unfold aw_boost_add. destruct (_ && _); [|done]. destruct (aw_objs w !! a) as [o|] eqn:Ho; [|done]. unfold sp. cbn. f_equal. by apply (recv_insert w a o).
Qed.
Lemma calm_add_edge a o t p : calm (aw_add_edge d0 einv a o t p).
Proof.
  apply calm_bind; [cr|]. intros g. apply calm_bind; [destruct (go_map g !! o); [cr|apply calm_add_vertex]|]. intros vo.
  apply calm_bind; [destruct (go_map g !! t); [cr|apply calm_add_vertex]|]. intros vt. apply calm_bind; [cr|]. intros [e|].
  - do 2 (apply calm_bind; [cr|intros ?]). cr.
  - do 2 (apply calm_bind; [apply calm_boost_add|intros ?]). do 2 (apply calm_bind; [cr|intros ?]). apply calm_notify.
Qed.
Lemma calm_set_prop a o t p : calm (aw_set_prop einv a o t p).
Proof.
  do 3 (apply calm_bind; [cr|intros ?]). destruct x1 as [e1|]; [|do 2 (apply calm_bind; [cr|intros ?]); cr].
  apply calm_bind; [done|]. intros _. apply calm_bind; [cr|]. intros [e2|]; [|cr]. apply calm_bind; [done|]. intros _.
  do 2 (apply calm_bind; [cr|intros ?]). apply calm_notify.
Qed.
Lemma calm_boost_remove a i : calm (aw_boost_remove a i).
Proof.
  intros w. unfold aw_boost_remove. destruct (existsb _ _); [|done]. destruct (aw_objs w !! a) as [o|] eqn:Ho; [|done]. unfold sp. cbn. f_equal. by apply (recv_insert w a o).
Qed.
Lemma calm_remove_edge a o t : calm (aw_remove_edge a o t).
Proof.
  do 4 (apply calm_bind; [cr|intros ?]). destruct x1 as [e1|], x2 as [e2|]; try cr.
  apply calm_bind; [apply calm_boost_remove|]. intros _. apply calm_bind; [apply calm_notify|]. intros _. apply calm_boost_remove.
Qed.
Lemma calm_remove_frame a f : calm (aw_remove_frame a f).
Proof.
  do 2 (apply calm_bind; [cr|intros ?]). apply calm_bind; [intros w; by destruct (aw_owns _ _ _)|]. intros _ w.
  apply calm_at; [done|]. intros w1 e1 o [-> Ho]%obj_at. apply calm_at; [|intros w2 e2 [] _; apply calm_notify]. unfold sp. cbn. f_equal. by apply (recv_insert w a o).
Qed.

(** The subscribers of a graph are those that believe to be. *)
Definition sinv w : Prop := forall a o, aw_objs w !! a = Some o -> NoDup (go_recv o) /\ forall s, s ∈ go_recv o -> aw_pubs w !! s = Some (Some a).
(** And all of them. *)
Definition sfull w : Prop := forall a s, aw_pubs w !! s = Some (Some a) -> exists o, aw_objs w !! a = Some o /\ s ∈ go_recv o.

Lemma sp_obj w w' a o : sp w' = sp w -> aw_objs w' !! a = Some o -> exists o', aw_objs w !! a = Some o' /\ go_recv o' = go_recv o.
Proof.
  intros [= Ho _] Ha. assert (H : (go_recv <$> aw_objs w') !! a = Some (go_recv o)) by (by rewrite lookup_fmap, Ha). rewrite Ho, lookup_fmap in H.
  destruct (aw_objs w !! a) as [o'|]; [|done]. cbn in H. exists o'. split; [done|congruence].
Qed.
Lemma sinv_sp w w' : sp w' = sp w -> sinv w -> sinv w'.
Proof. intros Hsp Hs a o (o' & Ho' & <-)%(sp_obj w w' a o Hsp). injection Hsp as _ ->. by apply Hs. Qed.
Lemma sfull_sp w w' : sp w' = sp w -> sfull w -> sfull w'.
Proof.
  intros Hsp Hs a s Ha. assert (Hp : aw_pubs w' = aw_pubs w) by (by injection Hsp). rewrite Hp in Ha. apply Hs in Ha as (o & Ho & Hin).
  apply (sp_obj w' w a o) in Ho as (o' & ? & Heq); [|done]. exists o'. split; [done|]. by rewrite Heq.
Qed.

Lemma erase_NoDup s l : NoDup l -> NoDup (aw_erase s l) /\ forall x, x ∈ aw_erase s l <-> x ∈ l /\ x <> s.
Proof.
  induction l as [|y l IH]; intros Hnd; cbn; [split; [done|]; intros x; by rewrite elem_of_nil; split; [|intros [??]]|].
  apply NoDup_cons in Hnd as [Hy Hnd]. destruct (IH Hnd) as [IH1 IH2]. destruct (Nat.eqb y s) eqn:Hys.
  - apply Nat.eqb_eq in Hys as ->. split; [done|]. intros x. rewrite elem_of_cons. split; [intros Hx; split; [by right|]; by intros ->|].
    by intros [[->|?] ?].
  - apply Nat.eqb_neq in Hys. split.
    + apply NoDup_cons. split; [|done]. by intros [? _]%IH2.
    + intros x. rewrite !elem_of_cons, IH2. split; [intros [->|[? ?]]; auto|]. intros [[->|?] ?]; auto.
Qed.

Definition both (full : bool) w : Prop := sinv w /\ (full = true -> sfull w).
Definition holds {A} (full : bool) (m : call aworld A) : Prop := forall w, both full w -> both full (fst (fst (m w))).

Lemma calm_holds {A} full (m : call aworld A) : calm m -> holds full m.
Proof. intros Hm w [H1 H2]. specialize (Hm w). split; [by eapply sinv_sp|]. intros Hf. eapply sfull_sp; [done|]. by apply H2. Qed.

Lemma holds_unsubscribe full s w : both full w -> both full (fst (fst (aw_unsubscribe s w))) /\
  forall w1 e x, aw_unsubscribe s w = (w1, e, Ret x) -> aw_pubs w1 !! s = Some None.
Proof.
  intros [H1 H2]. unfold aw_unsubscribe. destruct (aw_pubs w !! s) as [[a|]|] eqn:Hp; [|split; [done|]; by intros ??? [= <- _ _]|split; [done|]; by intros].
  destruct (aw_objs w !! a) as [o|] eqn:Ho; [|split; [done|]; by intros]. destruct (H1 a o Ho) as [Hnd Hin]. destruct (erase_NoDup s _ Hnd) as [He1 He2].
  split; [|intros ??? [= <- _ _]; cbn; by rewrite lookup_insert]. split.
  - intros b q. cbn. destruct (decide (b = a)) as [->|Hba].
    + rewrite lookup_insert. intros [= <-]. cbn. split; [done|]. intros x [Hx Hxs]%He2. rewrite lookup_insert_ne by done. by apply Hin.
    + rewrite lookup_insert_ne by done. intros Hq. destruct (H1 b q Hq) as [Hq1 Hq2]. split; [done|]. intros x Hx. rewrite lookup_insert_ne; [by apply Hq2|].
      intros <-. apply Hq2 in Hx. congruence.
  - intros Hf b x. cbn. destruct (decide (x = s)) as [->|Hx]; [by rewrite lookup_insert|]. rewrite lookup_insert_ne by done.
    intros (q & Hq & Hxq)%(H2 Hf). destruct (decide (b = a)) as [->|Hba].
    + rewrite lookup_insert. eexists. split; [done|]. cbn. apply He2. split; [|done]. congruence.
    + rewrite lookup_insert_ne by done. eauto.
Qed.

Lemma subscribe_fresh full s a w : both full w -> (forall b, aw_pubs w !! s <> Some (Some b)) ->
  both full (fst (fst ((o <-- aw_obj a ;; cmodify (fun w : aworld => aw_set_pub s (Some a) (aw_set_obj a (GObj (go_map o) (go_maxvi o) (go_nv o) (go_ne o) (go_recv o ++ [s])) w))) w))).
Proof.
  intros [H1 H2] Hn. unfold cbind, aw_obj, cread, cmodify. destruct (aw_objs w !! a) as [o|] eqn:Ho; [|done]. cbn [fst]. destruct (H1 a o Ho) as [Hnd Hin]. split.
  - intros b q. cbn. destruct (decide (b = a)) as [->|Hba].
    + rewrite lookup_insert. intros [= <-]. cbn. split.
      * apply NoDup_app. split_and!; [done| |apply NoDup_singleton]. intros x Hx ->%elem_of_list_singleton. by apply Hin, Hn in Hx.
      * intros x [Hx| ->%elem_of_list_singleton]%elem_of_app; [|by rewrite lookup_insert]. rewrite lookup_insert_ne; [by apply Hin|]. intros <-. by apply Hin, Hn in Hx.
    + rewrite lookup_insert_ne by done. intros Hq. destruct (H1 b q Hq) as [Hq1 Hq2]. split; [done|]. intros x Hx. rewrite lookup_insert_ne; [by apply Hq2|].
      intros <-. by apply Hq2, Hn in Hx.
  - intros Hf b x. cbn. destruct (decide (x = s)) as [->|Hx].
    + rewrite lookup_insert. intros [= <-]. rewrite lookup_insert. eexists. split; [done|]. cbn. apply elem_of_app. right. by left.
    + rewrite lookup_insert_ne by done. intros (q & Hq & Hxq)%(H2 Hf). destruct (decide (b = a)) as [->|Hba].
      * rewrite lookup_insert. eexists. split; [done|]. cbn. apply elem_of_app. left. congruence.
      * rewrite lookup_insert_ne by done. eauto.
Qed.

Lemma holds_subscribe full s a : holds full (aw_subscribe s a).
Proof.
  intros w Hw. unfold aw_subscribe. destruct (aw_pubs w !! s) as [p|] eqn:Hp.
  - unfold cbind at 1. destruct (holds_unsubscribe full s w Hw) as [Hu1 Hu2]. destruct (aw_unsubscribe s w) as [[w1 e1] r1]. destruct r1; [|done..].
    specialize (Hu2 _ _ _ eq_refl). assert (Hx := subscribe_fresh full s a w1 Hu1). destruct (cbind _ _ w1) as [[w2 e2] r2]. apply Hx. intros b. by rewrite Hu2.
  - unfold cbind at 1, cret. assert (Hx := subscribe_fresh full s a w Hw). destruct (cbind _ _ w) as [[w2 e2] r2]. apply Hx. intros b. by rewrite Hp.
Qed.

Lemma holds_destroy_sub full s : holds full (aw_destroy_sub s).
Proof.
  intros w Hw. unfold aw_destroy_sub, cbind. destruct (holds_unsubscribe full s w Hw) as [[Hu1 Hu2] Hu3]. destruct (aw_unsubscribe s w) as [[w1 e1] r1]. destruct r1; [|done..].
  specialize (Hu3 _ _ _ eq_refl). cbn in Hu1, Hu2. cbn. split.
  - intros b o Ho. cbn in *. destruct (Hu1 b o Ho) as [Ha1 Ha2]. split; [done|]. intros x Hx. rewrite lookup_delete_ne; [by apply Ha2|]. intros <-. apply Ha2 in Hx. congruence.
  - intros Hf b x. cbn. destruct (decide (x = s)) as [->|Hx]; [by rewrite lookup_delete|]. rewrite lookup_delete_ne by done. by apply Hu2.
Qed.

Lemma holds_new full a : holds full (aw_new a).
Proof.
  intros w [H1 H2]. unfold aw_new. destruct (aw_objs w !! a) as [o|] eqn:Ho; [done|]. split.
  - intros b q. cbn. destruct (decide (b = a)) as [->|Hba]; [rewrite lookup_insert; intros [= <-]; split; [constructor|]; by intros s Hs%elem_of_nil|].
    rewrite lookup_insert_ne by done. apply H1.
  - intros Hf b x Hx. cbn. apply (H2 Hf) in Hx as (q & Hq & Hxq). exists q. split; [|done]. rewrite lookup_insert_ne; [done|]. congruence.
Qed.
Lemma holds_copy full a b : holds full (aw_copy a b).
Proof.
  intros w [H1 H2]. unfold aw_copy. destruct (aw_objs w !! a) as [oa|] eqn:Ha; [done|]. destruct (aw_objs w !! b) as [o|] eqn:Hb; [|done]. destruct (forallb _ _); [|done]. split.
  - intros c q. cbn. destruct (decide (c = a)) as [->|Hba]; [rewrite lookup_insert; intros [= <-]; split; [constructor|]; by intros s Hs%elem_of_nil|].
    rewrite lookup_insert_ne by done. apply H1.
  - intros Hf c x Hx. cbn. apply (H2 Hf) in Hx as (q & Hq & Hxq). exists q. split; [|done]. rewrite lookup_insert_ne; [done|]. congruence.
Qed.

Lemma removelast_sub {A} (l : list A) : NoDup l -> NoDup (removelast l) /\ forall x, x ∈ removelast l -> x ∈ l.
Proof.
  intros Hnd. destruct l as [|y l]; [done|]. pose proof (app_removelast_last y (l := y :: l)) as Hr. specialize (Hr ltac:(done)).
  remember (removelast (y :: l)) as r. rewrite Hr in Hnd |- *. apply NoDup_app in Hnd as (H1 & _). split; [done|]. intros x Hx. apply elem_of_app. by left.
Qed.

Lemma holds_release n a w : sinv w -> sinv (fst (fst (aw_release n a w))).
Proof.
  revert w. induction n as [|n IH]; intros w Hw; cbn [aw_release]; destruct (aw_objs w !! a) as [o|]; try done; destruct (last (go_recv o)) as [s|]; try done.
  assert (Hb : both false w) by done. destruct (holds_unsubscribe false s w Hb) as [[Hu _] _]. unfold cbind at 1. destruct (aw_unsubscribe s w) as [[w1 e1] r1].
  destruct r1; [|done..]. cbn in Hu. unfold cbind at 1, aw_obj, cread. destruct (aw_objs w1 !! a) as [o1|] eqn:Ho1; [|done].
  destruct (go_recv o1) as [|x l] eqn:Hr; [done|]. unfold cbind, cmodify.
  match goal with |- context [aw_release n a ?w2] => assert (Hw2 : sinv w2); [|specialize (IH w2 Hw2); destruct (aw_release n a w2) as [[? ?] ?]; exact IH] end.
  intros b q. cbn [aw_objs aw_pubs aw_set_obj]. destruct (decide (b = a)) as [->|Hba]; [|rewrite lookup_insert_ne by done; apply Hu].
  rewrite lookup_insert. intros [= <-]. cbn [go_recv]. destruct (Hu a o1 Ho1) as [Hn Hin]. rewrite Hr in Hn, Hin. destruct (removelast_sub _ Hn) as [Hn1 Hn2]. split; [done|].
  intros y Hy. by apply Hin, Hn2.
Qed.
Lemma holds_destroy a : holds false (aw_destroy a).
Proof.
  intros w [Hw _]. split; [|done]. unfold aw_destroy, cbind at 1, aw_obj, cread. destruct (aw_objs w !! a) as [o|]; [|done]. unfold cbind.
  assert (Hr := holds_release (length (go_recv o)) a w Hw). destruct (aw_release _ a w) as [[w1 e1] r1]. destruct r1; [|done..]. cbn in *.
  intros b q. cbn. intros [_ Hq]%lookup_delete_Some. by apply Hr.
Qed.

Lemma holds_step full op : no_assign op -> (full = true -> no_destroy op) -> holds full (awstep d0 einv op).
Proof.
  destruct op; cbn; intros H Hf; try done.
  - apply holds_new.
  - apply holds_copy.
  - destruct full; [by specialize (Hf eq_refl)|]. apply holds_destroy.
  - apply calm_holds, calm_emplace.
  - apply calm_holds, calm_set_data.
  - apply calm_holds, calm_add_edge.
  - apply calm_holds, calm_set_prop.
  - apply calm_holds, calm_remove_edge.
  - apply calm_holds, calm_remove_frame.
  - apply holds_subscribe.
  - apply holds_destroy_sub.
Qed.

Lemma holds_run full p w : Forall (fun op => no_assign op /\ (full = true -> no_destroy op)) p -> both full w -> both full (fst (fst (awrun d0 einv p w))).
Proof.
  revert w. induction p as [|op p IH]; intros w Hp Hw; [done|]. apply Forall_cons in Hp as [[Hop Hd] Hp]. cbn. pose proof (holds_step full op Hop Hd w Hw) as Hs.
  destruct (awstep d0 einv op w) as [[w1 e1] r1]. cbn in Hs. destruct r1; try done; by apply IH.
Qed.
Lemma both_empty full : both full (aw_empty : aworld).
Proof. split; [by intros a o|]. by intros _ a s. Qed.

Lemma made_sinv w : made d0 einv w -> sinv w.
Proof.
  intros (p & Hp & <- & _). apply (holds_run false); [|apply both_empty]. eapply Forall_impl; [exact Hp|]. intros op Hop. by split.
Qed.
Lemma alive_sfull w : made_alive d0 einv w -> sinv w /\ sfull w.
Proof.
  intros (p & Hp & <- & _). destruct (holds_run true p aw_empty) as [H1 H2]; [|apply both_empty|by split; [|apply H2]].
  eapply Forall_impl; [exact Hp|]. intros op [Hop Hd]. by split.
Qed.

Lemma emplace_told w a o f d : sinv w -> aw_objs w !! a = Some o -> aw_contains w a f = Ret false ->
  exists w', aw_emplace a f d w = (w', [], Ret tt) /\ aw_told w' = aw_told w ++ ((fun s => (s, EvFrameAdded f)) <$> go_recv o).
Proof.
  intros Hs Ho Hc. pose proof (contains_not w a o f Ho Hc) as Hf.
  unfold aw_emplace, cbind at 1, aw_obj, cread. rewrite Ho, Hf. unfold cbind at 1, aw_add_vertex, cbind at 1, aw_obj, cread.
  rewrite Ho, Hf. unfold cbind at 1. unfold cbind at 1, aw_notify, cbind at 1, aw_obj, cread. cbn [aw_objs]. rewrite lookup_insert. cbn [go_recv].
  match goal with |- context [aw_tell ?e ?l ?w0] => destruct (tell_all e l w0) as (w1 & Hw1 & Ht) end.
  { apply Forall_forall. intros s Hin. cbn [aw_pubs]. destruct (Hs a o Ho) as [_ Hq]. rewrite (Hq s Hin). by eexists. }
  rewrite Hw1. unfold cret. exists w1. split; [done|]. by rewrite Ht.
Qed.

Theorem told_sound w a f d : made d0 einv w -> aw_contains w a f = Ret false ->
  exists w' l, aw_emplace a f d w = (w', [], Ret tt) /\ aw_told w' = aw_told w ++ ((fun s => (s, EvFrameAdded f)) <$> l) /\ NoDup l /\
    forall s, s ∈ l -> aw_pubs w !! s = Some (Some a).
Proof.
  intros Hw%made_sinv Hc. destruct (aw_objs w !! a) as [o|] eqn:Ho; [|unfold aw_contains in Hc; by rewrite Ho in Hc].
  destruct (emplace_told w a o f d Hw Ho Hc) as (w' & H1 & H2). exists w', (go_recv o). destruct (Hw a o Ho). by split_and!.
Qed.
Theorem told_all w a f d : made_alive d0 einv w -> aw_contains w a f = Ret false ->
  exists w' l, aw_emplace a f d w = (w', [], Ret tt) /\ aw_told w' = aw_told w ++ ((fun s => (s, EvFrameAdded f)) <$> l) /\ NoDup l /\
    forall s, s ∈ l <-> aw_pubs w !! s = Some (Some a).
Proof.
  intros [Hw Hfull]%alive_sfull Hc. destruct (aw_objs w !! a) as [o|] eqn:Ho; [|unfold aw_contains in Hc; by rewrite Ho in Hc].
  destruct (emplace_told w a o f d Hw Ho Hc) as (w' & H1 & H2). exists w', (go_recv o). destruct (Hw a o Ho) as [Hn Hin]. split_and!; try done.
  intros s. split; [by apply Hin|]. intros (o' & Ho' & Hs)%Hfull. congruence.
Qed.

End subs.
