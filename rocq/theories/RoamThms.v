(** Lemmas about a subscriber in a program with several graphs. *)
From stdpp Require Import prelude strings gmap gmultiset.
From Verif Require Import Outcome ItemClass Digraph Bfs TreeView GraphModel GraphOps GraphWf SpecStore SpecObs GraphStep GraphRefine GraphThms
  ItemsModel SpecReplica SpecItems ItemsData ItemsOps GraphCopy ItemsLog ItemsCopy ItemsThms ItemsPublish SpecQueue QueueModel SpecFollow FollowThms
  RoamModel SpecRoam.

Section roam.
Context {E : Type} (einv : E -> E).
Implicit Types s : roam E.

(** Events are switched on, the subscriber is in exactly one vector, once, or in none. *)
Definition settled s : Prop :=
  ro_off s = ∅ /\ forall g, ro_count s g = if decide (ro_at s = Some g) then 1 else 0.

Lemma once_all (ev : list event) : concat ((fun e => replicate 1 e) <$> ev) = ev.
Proof. induction ev as [|e ev IH]; [done|]. cbn [fmap list_fmap concat replicate app]. by f_equal. Qed.
Lemma never (ev : list event) : concat ((fun e => replicate 0 e) <$> ev) = [].
Proof. by induction ev as [|e ev IH]. Qed.

Lemma wreachable_step ord io op (w w' : world E) ev r : wreachable einv w -> iorder_ok io -> wop_ok op ->
  wstep einv ord io op w = (w', ev, r) -> ok r -> wreachable einv w'.
Proof.
  intros (h & Hh & Hr) Hio Hop Hs Hok. exists (h ++ [(ord, io, op)]). split.
  - apply list.Forall_app. split; [done|]. apply list.Forall_singleton. by split.
  - rewrite (wrun_app einv h _ _ w) by done. cbn [wrun]. rewrite Hs. destruct r; try done; by destruct Hok.
Qed.

Lemma in_world_ex (w : world E) g G : w_graphs w !! g = Some G -> in_world w g (ESt G (w_heap w)).
Proof. by split. Qed.
Lemma in_world_eq (w : world E) g t G : in_world w g t -> w_graphs w !! g = Some G -> t = ESt G (w_heap w).
Proof. intros [H1 H2] H. destruct t as [tg th]. cbn in *. congruence. Qed.
Lemma wreachable_in (w : world E) g t : wreachable einv w -> in_world w g t -> ereachable einv t.
Proof. intros Hw Ht. by exists w, g. Qed.

Lemma mirrors_heap t t' r : ereachable einv t -> ereachable einv t' -> es_g t' = es_g t -> mirrors t r -> mirrors t' r.
Proof.
  intros H1 H2 He Hm. apply (mirrors_mir einv); [by apply ereachable_wf|]. rewrite He. apply (mirrors_mir einv); [by apply ereachable_wf|done].
Qed.

Lemma construct_quiet g x (w w' : world E) ev r : w_construct g x w = (w', ev, r) -> ev = [] /\ (ok r -> w_graphs w !! g = None).
Proof. unfold w_construct. destruct x, (w_graphs w !! g) eqn:Hg; intros [= <- <- <-]; (split; [done|]); try done; by intros []. Qed.

(** A step on the graphs keeps the subscriber informed. *)
Lemma graphs_step ord io op s s' ev o r : wreachable einv (ro_w s) -> settled s -> knows s r -> iorder_ok io -> told s (RStep op) ->
  rstep einv ord io (RStep op) s = (s', ev, o) -> ok o ->
  wreachable einv (ro_w s') /\ settled s' /\ exists r', replay ev r = Some r' /\ knows s' r'.
Proof.
  intros Hw [Hoff Hcnt] Hk Hio [Hop Hlog] Hs Hok. cbn [rstep] in Hs.
  destruct (wstep einv ord io op (ro_w s)) as [[w1 ev1] r1] eqn:H1. injection Hs as <- <- <-. cbn [ro_w].
  pose proof (wreachable_step _ _ _ _ _ _ _ Hw Hio Hop H1 Hok) as Hw1. split; [done|]. split; [by split|].
  destruct (wstep_others einv _ _ _ _ _ _ _ H1) as [Hoth _].
  unfold ro_notify. rewrite Hoff, bool_decide_false by set_solver. rewrite Hcnt.
  fold (acts_on op).
  unfold knows in *. cbn [ro_at ro_w]. destruct (ro_at s) as [g|]; [|rewrite decide_False by done; rewrite never; by exists r].
  destruct Hk as (t & Ht & Hm). destruct Ht as [Htg Hth].
  destruct (decide (Some g = Some (acts_on op))) as [Heq|Hne].
  - injection Heq as ->. rewrite once_all. destruct op as [g|g op|src dst|fl incl src dst]; cbn [acts_on wstep] in *.
    + apply construct_quiet in H1 as [_ H1]. by rewrite H1 in Htg.
    + rewrite Htg in H1. assert (ESt (es_g t) (w_heap (ro_w s)) = t) as Het by (rewrite <- Hth; by destruct t). rewrite Het in H1.
      destruct (estep einv ord io op t) as [[t1 ev2] r2] eqn:H2. injection H1 as <- <- <-.
      destruct (events_are_a_log einv t r [(ord, io, op)] t1 (ev2 ++ [])) as (r' & Hr' & Hm'); try done.
      * apply (wreachable_in (ro_w s) g); [done|by split].
      * apply list.Forall_singleton. by split.
      * split; [|done]. apply Hlog. by split.
      * cbn [erun]. rewrite H2. by destruct r2; try done; destruct Hok.
      * rewrite app_nil_r in Hr'. exists r'. split; [done|]. exists t1. split; [|done]. split; [cbn; apply lookup_insert|done].
    + destruct (w_graphs (ro_w s) !! src); [|injection H1 as _ _ <-; by destruct Hok]. apply construct_quiet in H1 as [_ H1]. by rewrite H1 in Htg.
    + destruct (w_graphs (ro_w s) !! src); [|injection H1 as _ _ <-; by destruct Hok]. apply construct_quiet in H1 as [_ H1]. by rewrite H1 in Htg.
  - rewrite never. exists r. split; [done|]. assert (Hg : g <> acts_on op) by congruence.
    exists (ESt (es_g t) (w_heap w1)). assert (Hin : in_world w1 g (ESt (es_g t) (w_heap w1))) by (split; [cbn; by rewrite Hoth|done]).
    split; [done|]. apply (mirrors_heap t); [|by apply (wreachable_in w1 g)|done|done]. apply (wreachable_in (ro_w s) g); [done|by split].
Qed.

(** A move with publishing: it cannot fail. *)
Lemma move_step io g G s r : wreachable einv (ro_w s) -> settled s -> knows s r -> iorder_ok io -> w_graphs (ro_w s) !! g = Some G ->
  exists s' ev r', sub_subscribe io g true s = (s', ev, Ret tt) /\ ro_w s' = ro_w s /\ ro_at s' = Some g /\ settled s' /\
    replay ev r = Some r' /\ knows s' r'.
Proof.
  intros Hw [Hoff Hcnt] Hk Hio HG. unfold sub_subscribe.
  destruct (publish_spec einv io (ESt G (w_heap (ro_w s)))) as (ev2 & r2 & Hp & _ & Hr2 & Hm2 & _); [by apply (wreachable_in (ro_w s) g)|done|].
  assert (Htell : forall (q : roam E) k l, ro_off q = ∅ -> ro_tell q k l = l).
  { intros q k l Hq. unfold ro_tell. rewrite Hq, bool_decide_false by set_solver. done. }
  unfold knows in Hk. destruct (ro_at s) as [g0|] eqn:Hat.
  - destruct Hk as (t & Ht & Hm). pose proof (wreachable_in _ _ _ Hw Ht) as Hret.
    destruct (unpublish_spec einv io t Hret Hio) as (ev1 & Hu & _ & Hr1 & _). specialize (Hr1 r Hm).
    assert (Hg0 : ro_graph s g0 = Ret t).
    { unfold ro_graph. destruct Ht as [-> <-]. by destruct t. }
    set (s1 := ro_set s g0 (pred (ro_count s g0))).
    set (s2 := Roam (ro_w s) (ro_off s) (ro_subs s1) (Some g)).
    exists (ro_set s2 g (S (ro_count s2 g))), (ev1 ++ ev2), r2. split.
    { unfold cbind at 1. unfold ro_unsubscribe. rewrite Hg0, Hu. cbn [ro_set_at cmodify]. fold s1.
      unfold cbind, ro_set_at, cmodify. change (Roam (ro_w s1) (ro_off s1) (ro_subs s1) (Some g)) with s2.
      unfold ro_subscribe. assert (ro_graph s2 g = Ret (ESt G (w_heap (ro_w s)))) as -> by (unfold ro_graph; cbn; by rewrite HG).
      rewrite Hp. rewrite !Htell by done. done. }
    split; [done|]. split; [done|]. split; [split; [done|]|split].
    + intros k. cbn [ro_at]. unfold ro_count at 1. cbn [ro_subs ro_set]. 
      assert (Hc : forall k, ro_count s2 k = 0).
      { intros k'. unfold ro_count at 1. cbn. destruct (decide (g0 = k')) as [<-|Hne].
        - rewrite lookup_insert. cbn. rewrite Hcnt, decide_True by done. done.
        - rewrite lookup_insert_ne by done. change (ro_count s k' = 0). rewrite Hcnt, decide_False by congruence. done. }
      rewrite Hc. cbn [ro_at s2 ro_set]. destruct (decide (g = k)) as [<-|Hne].
      * rewrite lookup_insert, decide_True by done. done.
      * rewrite lookup_insert_ne, decide_False by congruence. apply Hc.
    + rewrite replay_app, Hr1. done.
    + exists (ESt G (w_heap (ro_w s))). split; [by apply in_world_ex|done].
  - set (s2 := Roam (ro_w s) (ro_off s) (ro_subs s) (Some g)). subst r.
    exists (ro_set s2 g (S (ro_count s2 g))), ev2, r2. split.
    { unfold cbind, cret, ro_set_at, cmodify. fold s2.
      unfold ro_subscribe. assert (ro_graph s2 g = Ret (ESt G (w_heap (ro_w s)))) as -> by (unfold ro_graph; cbn; by rewrite HG).
      rewrite Hp. rewrite !Htell by done. done. }
    split; [done|]. split; [done|]. split; [split; [done|]|split; [done|]].
    + intros k. unfold ro_count at 1. cbn [ro_subs ro_set ro_at s2].
      assert (Hc : forall k, ro_count s2 k = 0).
      { intros k'. change (ro_count s k' = 0). rewrite Hcnt, decide_False by done. done. }
      rewrite Hc. destruct (decide (g = k)) as [<-|Hne].
      * rewrite lookup_insert, decide_True by done. done.
      * rewrite lookup_insert_ne, decide_False by congruence. apply Hc.
    + exists (ESt G (w_heap (ro_w s))). split; [by apply in_world_ex|done].
Qed.

Lemma roams h s s' ev r : wreachable einv (ro_w s) -> settled s -> knows s r -> all_steps einv told h s ->
  rrun einv h s = (s', ev, Ret tt) ->
  wreachable einv (ro_w s') /\ settled s' /\ exists r', replay ev r = Some r' /\ knows s' r'.
Proof.
  revert s s' ev r. induction h as [|[[ord io] op] h IH]; intros s s' ev r Hw Hs Hk Ha Hr; cbn [rrun] in Hr.
  - injection Hr as <- <-. split; [done|]. split; [done|]. by exists r.
  - cbn [all_steps] in Ha. destruct Ha as (Hio & Hop & Ha). destruct (rstep einv ord io op s) as [[s1 ev1] r1] eqn:H1. cbn [fst] in Ha.
    assert (Hok : ok r1) by by destruct r1.
    assert (Hmid : wreachable einv (ro_w s1) /\ settled s1 /\ exists r', replay ev1 r = Some r' /\ knows s1 r').
    { destruct op as [op|g b| | | |]; try done; [by eapply graphs_step|]. cbn [told] in Hop. subst b. cbn [rstep] in H1.
      destruct (w_graphs (ro_w s) !! g) as [G|] eqn:HG.
      - destruct (move_step io g G s r) as (s2 & ev2 & r2 & H2 & Hw2 & _ & Hs2 & Hr2 & Hk2); try done.
        rewrite H2 in H1. injection H1 as <- <- <-. rewrite Hw2. split; [done|]. split; [done|]. by exists r2.
      - exfalso. unfold knows in Hk. destruct (ro_at s) as [g0|] eqn:Hat.
        + destruct Hk as (t & Ht & Hm). pose proof (wreachable_in _ _ _ Hw Ht) as Hret.
          destruct (unpublish_spec einv io t Hret Hio) as (evu & Hu & _).
          assert (Hg0 : ro_graph s g0 = Ret t) by (unfold ro_graph; destruct Ht as [-> <-]; by destruct t).
          unfold sub_subscribe in H1. rewrite Hat in H1. unfold cbind at 1 in H1. unfold ro_unsubscribe in H1. rewrite Hg0, Hu in H1.
          unfold cbind, ro_set_at, cmodify, ro_subscribe, ro_graph in H1. cbn [ro_w ro_set] in H1. rewrite HG in H1.
          injection H1 as _ _ <-. by destruct Hok.
        + unfold sub_subscribe in H1. rewrite Hat in H1. unfold cbind, cret, ro_set_at, cmodify, ro_subscribe, ro_graph in H1.
          cbn [ro_w] in H1. rewrite HG in H1. injection H1 as _ _ <-. by destruct Hok. }
    destruct Hmid as (Hw1 & Hs1 & r' & Hr' & Hk1).
    assert (Hrest : exists ev2, rrun einv h s1 = (s', ev2, Ret tt) /\ ev = ev1 ++ ev2).
    { destruct r1; try done; destruct (rrun einv h s1) as [[s2 ev2] r2]; injection Hr as <- <- ->; eauto. }
    destruct Hrest as (ev2 & H2 & ->). destruct (IH s1 s' ev2 r' Hw1 Hs1 Hk1 Ha H2) as (Hw2 & Hs2 & r2 & Hr2 & Hk2).
    split; [done|]. split; [done|]. exists r2. split; [by rewrite replay_app, Hr'|done].
Qed.

Lemma settled_new : settled (roam_new (E := E)).
Proof. split; [done|]. intros g. by rewrite decide_False. Qed.
Lemma wreachable_new : wreachable einv (World ∅ ∅).
Proof. exists []. split; [by apply list.Forall_nil|done]. Qed.

Lemma roams_new h s ev : all_steps einv told h roam_new -> rrun einv h roam_new = (s, ev, Ret tt) ->
  exists r, replay ev empty_replica = Some r /\ knows s r.
Proof.
  intros Ha Hr. destruct (roams h roam_new s ev empty_replica wreachable_new settled_new eq_refl Ha Hr) as (_ & _ & H). done.
Qed.

(** Moves are always possible. *)
Lemma move_possible h s ev io g : all_steps einv told h roam_new -> rrun einv h roam_new = (s, ev, Ret tt) -> iorder_ok io ->
  is_Some (w_graphs (ro_w s) !! g) ->
  exists s' ev', sub_subscribe io g true s = (s', ev', Ret tt) /\ ro_w s' = ro_w s /\ ro_at s' = Some g.
Proof.
  intros Ha Hr Hio [G HG]. destruct (roams h roam_new s ev empty_replica wreachable_new settled_new eq_refl Ha Hr) as (Hw & Hs & r & _ & Hk).
  destruct (move_step io g G s r) as (s' & ev' & r' & H1 & H2 & H3 & _); try done. eauto 10.
Qed.

(** A move that does not ask for the current state and a plain unsubscribe send nothing at all. *)
Lemma silent_move io g s : (sub_subscribe (E := E) io g false s).1.2 = [].
Proof.
  assert (H1 : forall g s, (ro_subscribe (E := E) io g false s).1.2 = []).
  { intros k t. unfold ro_subscribe. destruct (ro_graph t k); try done. cbn. unfold ro_tell. by case_bool_decide. }
  assert (H2 : forall g s, (ro_unsubscribe (E := E) io g false s).1.2 = []).
  { intros k t. unfold ro_unsubscribe. destruct (ro_graph t k); try done. cbn. unfold ro_tell. by case_bool_decide. }
  unfold sub_subscribe, cbind, ro_set_at, cmodify.
  set (m := match ro_at s with Some g0 => ro_unsubscribe io g0 false | None => cret tt end).
  assert (Hm : (m s).1.2 = []) by (unfold m; destruct (ro_at s); [apply H2|done]).
  destruct (m s) as [[s1 ev1] r1]. cbn in Hm. subst ev1. destruct r1; try done. specialize (H1 g (Roam (ro_w s1) (ro_off s1) (ro_subs s1) (Some g))).
  destruct (ro_subscribe io g false _) as [[s2 ev2] r2]. cbn in H1 |- *. by subst ev2.
Qed.
Lemma silent_leave io s : (sub_unsubscribe (E := E) io s).1.2 = [].
Proof.
  unfold sub_unsubscribe. destruct (ro_at s) as [g|]; [|done]. unfold cbind, ro_unsubscribe. destruct (ro_graph s g); try done.
  cbn. unfold ro_tell. by case_bool_decide.
Qed.

Lemma silent_defined io g b s g0 : wreachable einv (ro_w s) -> settled s -> ro_at s = Some g0 -> is_Some (w_graphs (ro_w s) !! g0) ->
  is_Some (w_graphs (ro_w s) !! g) -> b = false ->
  exists s', sub_subscribe io g b s = (s', [], Ret tt) /\ ro_w s' = ro_w s /\ ro_at s' = Some g.
Proof.
  intros Hw [Hoff _] Hat [G0 HG0] [G HG] ->. destruct (sub_subscribe io g false s) as [[s' ev] o] eqn:Hs.
  pose proof (silent_move io g s) as Hev. rewrite Hs in Hev. cbn in Hev. subst ev.
  unfold sub_subscribe in Hs. rewrite Hat in Hs. unfold cbind, ro_unsubscribe, ro_set_at, cmodify, ro_subscribe, ro_graph in Hs.
  rewrite HG0 in Hs. cbn in Hs. rewrite HG in Hs. injection Hs as <- _ <-. by eexists.
Qed.

(** A frame that only the old graph has stays in the replica. *)
Lemma stale_move h s ev io g1 g2 t1 t2 f : all_steps einv told h roam_new -> rrun einv h roam_new = (s, ev, Ret tt) ->
  ro_at s = Some g1 -> in_world (ro_w s) g1 t1 -> in_world (ro_w s) g2 t2 ->
  contains_frame (es_g t1) f = true -> contains_frame (es_g t2) f = false ->
  exists s' r, sub_subscribe io g2 false s = (s', [], Ret tt) /\ ro_at s' = Some g2 /\ ro_w s' = ro_w s /\
    replay ev empty_replica = Some r /\ f ∈ r_frames r /\ ~ knows s' r.
Proof.
  intros Ha Hr Hat H1 H2 Hf1 Hf2. destruct (roams h roam_new s ev empty_replica wreachable_new settled_new eq_refl Ha Hr) as (Hw & Hs & r & Hr' & Hk).
  destruct (silent_defined io g2 false s g1) as (s' & Hs' & Hw' & Hat'); try done; [destruct H1; eauto|destruct H2; eauto|].
  exists s', r. split; [done|]. split; [done|]. split; [done|]. split; [done|].
  unfold knows in Hk. rewrite Hat in Hk. destruct Hk as (t & Ht & Hm). destruct H1 as [H1 H1h].
  assert (t = ESt (es_g t1) (w_heap (ro_w s))) as -> by (by eapply in_world_eq). split; [by apply Hm|].
  unfold knows. rewrite Hat', Hw'. intros (t & Ht2 & Hm2). destruct H2 as [H2 H2h].
  assert (t = ESt (es_g t2) (w_heap (ro_w s))) as -> by (by eapply in_world_eq).
  assert (Hin : f ∈ r_frames r) by by apply Hm. apply Hm2 in Hin. cbn [es_g] in Hin. congruence.
Qed.

Lemma stale_leave h s ev io g t f : all_steps einv told h roam_new -> rrun einv h roam_new = (s, ev, Ret tt) ->
  ro_at s = Some g -> in_world (ro_w s) g t -> contains_frame (es_g t) f = true ->
  exists s' r, sub_unsubscribe io s = (s', [], Ret tt) /\ ro_at s' = None /\ ro_w s' = ro_w s /\
    replay ev empty_replica = Some r /\ f ∈ r_frames r /\ ~ knows s' r.
Proof.
  intros Ha Hr Hat H1 Hf. destruct (roams h roam_new s ev empty_replica wreachable_new settled_new eq_refl Ha Hr) as (Hw & Hs & r & Hr' & Hk).
  destruct (sub_unsubscribe io s) as [[s' ev'] o] eqn:Hu. pose proof (silent_leave io s) as Hev. rewrite Hu in Hev. cbn in Hev. subst ev'.
  unfold sub_unsubscribe in Hu. rewrite Hat in Hu. unfold cbind, ro_unsubscribe, ro_set_at, cmodify, ro_graph in Hu.
  destruct H1 as [H1 H1h]. rewrite H1 in Hu. cbn in Hu. injection Hu as <- _ <-.
  eexists _, r. split; [done|]. split; [done|]. split; [done|]. split; [done|].
  unfold knows in Hk. rewrite Hat in Hk. destruct Hk as (t' & Ht & Hm).
  assert (t' = ESt (es_g t) (w_heap (ro_w s))) as -> by (by eapply in_world_eq).
  assert (Hin : f ∈ r_frames r) by by apply Hm. split; [done|]. unfold knows. cbn [ro_at]. intros ->. by apply elem_of_empty in Hin.
Qed.

(** Graphs whose events are switched off *)
Definition muted (g : nat) s : Prop := g ∈ ro_off s /\ (ro_at s = None \/ ro_at s = Some g).
Lemma muted_unsubscribe io g b s s' ev r : muted g s -> ro_unsubscribe io g b s = (s', ev, r) -> muted g s' /\ ev = [] /\ ro_w s' = ro_w s.
Proof.
  intros [Ho Ha] Hu. unfold ro_unsubscribe, ro_tell in Hu. rewrite bool_decide_true in Hu by done.
  destruct (ro_graph s g); [|by injection Hu as <- <- <-..].
  destruct (if b then _ else _) as [ev0 [[]| | |]]; by injection Hu as <- <- <-.
Qed.
Lemma muted_subscribe io g b s s' ev r : muted g s -> ro_subscribe io g b s = (s', ev, r) -> muted g s' /\ ev = [] /\ ro_w s' = ro_w s.
Proof.
  intros [Ho Ha] Hu. unfold ro_subscribe, ro_tell in Hu. rewrite bool_decide_true in Hu by done.
  destruct (ro_graph s g); [|by injection Hu as <- <- <-..].
  destruct (if b then _ else _) as [ev0 [[]| | |]]; by injection Hu as <- <- <-.
Qed.
Lemma muted_step ord io g op s s' ev r : muted g s -> about g op -> rstep einv ord io op s = (s', ev, r) -> muted g s' /\ ev = [].
Proof.
  intros Hm Ha Hr. destruct op as [op|g' b| |g' b|g' b|g' b]; cbn [rstep] in Hr.
  - destruct (wstep einv ord io op (ro_w s)) as [[w ev0] r0] eqn:Hw. injection Hr as <- <- <-. split; [done|].
    unfold ro_notify. destruct Hm as [Ho _]. destruct op; cbn in Ha; subst; by rewrite bool_decide_true.
  - cbn in Ha. subst g'. unfold sub_subscribe, cbind in Hr.
    destruct (match ro_at s with Some g0 => ro_unsubscribe io g0 b | None => cret tt end s) as [[s1 e1] r1] eqn:H1.
    assert (Hm1 : muted g s1 /\ e1 = []).
    { destruct Hm as [Ho [Hn|Hn]]; rewrite Hn in H1.
      - injection H1 as <- <- <-. split; [split; [done|by left]|done].
      - destruct (muted_unsubscribe io g b s s1 e1 r1) as (? & ? & ?); [split; [done|by right]|done|done]. }
    destruct Hm1 as [Hm1 ->]. destruct r1 as [[]| | |]; [|by injection Hr as <- <- <-..]. destruct Hm1 as [Ho1 _].
    + cbn in Hr. destruct (ro_subscribe io g b (Roam (ro_w s1) (ro_off s1) (ro_subs s1) (Some g))) as [[s2 e2] r2] eqn:H2.
      destruct (muted_subscribe io g b (Roam (ro_w s1) (ro_off s1) (ro_subs s1) (Some g)) s2 e2 r2) as (? & -> & ?); [split; [done|by right]|done|].
      by injection Hr as <- <- <-.
  - unfold sub_unsubscribe, cbind in Hr. destruct Hm as [Ho [Hn|Hn]]; rewrite Hn in Hr; [injection Hr as <- <- <-; split; [split; [done|by left]|done]|].
    destruct (ro_unsubscribe io g false s) as [[s1 e1] r1] eqn:H1.
    destruct (muted_unsubscribe io g false s s1 e1 r1) as (Hm1 & -> & _); [split; [done|by right]|done|].
    destruct r1 as [[]| | |]; [|by injection Hr as <- <- <-..]. cbn in Hr. injection Hr as <- <- <-.
    split; [split; [apply Hm1|by left]|done].
  - cbn in Ha. subst g'. destruct (muted_subscribe io g b s s' ev r Hm Hr) as (? & ? & ?). done.
  - cbn in Ha. subst g'. destruct (muted_unsubscribe io g b s s' ev r Hm Hr) as (? & ? & ?). done.
  - injection Hr as <- <- <-. split; [|done]. destruct Hm as [Ho Hat]. split; [|done]. cbn. cbn in Ha. destruct b; set_solver.
Qed.
Lemma muted_run g h : Forall (fun x => about g x.2) h -> forall s s' ev r, muted g s -> rrun einv h s = (s', ev, r) -> muted g s' /\ ev = [].
Proof.
  induction h as [|[[ord io] op] h IH]; intros Hf s s' ev r Hm Hr; cbn [rrun] in Hr; [by injection Hr as <- <- <-|].
  inversion Hf as [|? ? Ha Hf']; subst. destruct (rstep einv ord io op s) as [[s1 e1] r1] eqn:H1.
  destruct (muted_step ord io g op s s1 e1 r1 Hm Ha H1) as [Hm1 ->].
  destruct r1 as [[]| | |]; [| |by injection Hr as <- <- <-..].
  all: destruct (rrun einv h s1) as [[s2 e2] r2] eqn:H2; destruct (IH Hf' s1 s2 e2 r2 Hm1 H2) as [? ->]; by injection Hr as <- <- <-.
Qed.
Lemma switched_off ord io g h s s' ev r : (ro_at s = None \/ ro_at s = Some g) -> Forall (fun x => about g x.2) h ->
  rrun einv ((ord, io, REnable g false) :: h) s = (s', ev, r) -> ev = [].
Proof.
  intros Ha Hf Hr. cbn [rrun rstep] in Hr. set (s1 := Roam (ro_w s) ({[g]} ∪ ro_off s) (ro_subs s) (ro_at s)) in *.
  destruct (rrun einv h s1) as [[s2 e2] r2] eqn:H2.
  destruct (muted_run g h Hf s1 s2 e2 r2) as [? ->]; [|done|by injection Hr as <- <- <-].
  split; [cbn; set_solver|done].
Qed.

End roam.
