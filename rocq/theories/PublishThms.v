(** Event delivery (C31-C34). *)
From stdpp Require Import prelude gmap.
From Verif Require Import ListLib Outcome PublisherModel SpecPublish.

Lemma without_not_in x l : x ∉ l -> without x l = l.
Proof. induction l as [|y l IH]; intros Hx; [done|]. cbn. rewrite decide_False by set_solver. f_equal. apply IH. set_solver. Qed.
Lemma without_in x l : x ∈ l -> exists l1 l2, l = l1 ++ x :: l2 /\ x ∉ l1 /\ without x l = l1 ++ l2.
Proof.
  induction l as [|y l IH]; intros Hx; [by apply elem_of_nil in Hx|]. cbn. destruct (decide (y = x)) as [->|Hne].
  - exists [], l. split; [done|]. split; [apply not_elem_of_nil|done].
  - destruct IH as (l1 & l2 & -> & H1 & H2); [set_solver|]. exists (y :: l1), l2. cbn. rewrite H2. set_solver.
Qed.
Lemma without_sub x y l : y ∈ without x l -> y ∈ l.
Proof.
  destruct (decide (x ∈ l)) as [Hx|Hx]; [|by rewrite without_not_in].
  destruct (without_in x l Hx) as (l1 & l2 & -> & _ & ->). set_solver.
Qed.
Lemma without_NoDup x l : NoDup l -> NoDup (without x l).
Proof.
  destruct (decide (x ∈ l)) as [Hx|Hx]; [|by rewrite without_not_in].
  destruct (without_in x l Hx) as (l1 & l2 & -> & _ & ->). rewrite !NoDup_app, NoDup_cons. set_solver.
Qed.
Lemma without_gone x l : NoDup l -> x ∉ without x l.
Proof.
  destruct (decide (x ∈ l)) as [Hx|Hx]; [|by rewrite without_not_in].
  destruct (without_in x l Hx) as (l1 & l2 & -> & _ & ->). rewrite NoDup_app, NoDup_cons. set_solver.
Qed.
Lemma without_app x l l' : (x ∈ l \/ x ∉ l') -> without x (l ++ l') = without x l ++ l'.
Proof.
  intros Hx. induction l as [|y l IH]; cbn.
  - destruct Hx as [Hx|Hx]; [by apply elem_of_nil in Hx|]. by rewrite without_not_in.
  - destruct (decide (y = x)) as [->|Hne]; [done|]. cbn. rewrite IH; [done|]. set_solver.
Qed.
Lemma erase_without x l :
  (match list_find (fun y => y = x) l with Some (i, _) => delete i l | None => l end) = without x l.
Proof.
  induction l as [|y l IH]; [done|]. cbn. destruct (decide (y = x)) as [->|Hne]; [done|]. rewrite <- IH.
  destruct (list_find _ l) as [[i z]|]; done.
Qed.

Section thms.
Context {H E : Type} (handle : H -> sid -> E -> H * list (pact E)).
Local Notation pub := (pub H).
Local Notation pb_loop := (pb_loop handle).
Local Notation pb_notify := (pb_notify handle).
Implicit Types (p : pub) (tr : list (pobs E)).

Definition subs_of tr : list sid := omap (fun o => match o with OAskSub x => Some x | _ => None end) tr.
Definition unsubs_of tr : list sid := omap (fun o => match o with OAskUnsub x => Some x | _ => None end) tr.
Definition asks tr : Prop := Forall (fun o => match o with OAskSub _ | OAskUnsub _ => True | _ => False end) tr.

(* Requests made while inside a notification. *)
Record deferred p tr p' : Prop := {
  df_subs : pb_subs p' = pb_subs p; df_inside : pb_inside p' = true;
  df_tosub : pb_tosub p' = pb_tosub p ++ subs_of tr; df_tounsub : pb_tounsub p' = pb_tounsub p ++ unsubs_of tr;
  df_cap : pb_cap p' = pb_cap p; df_epoch : pb_epoch p' = pb_epoch p; df_calls : pb_calls p' = pb_calls p }.

Lemma subs_of_app t1 t2 : subs_of (t1 ++ t2) = subs_of t1 ++ subs_of t2.
Proof. apply omap_app. Qed.
Lemma unsubs_of_app t1 t2 : unsubs_of (t1 ++ t2) = unsubs_of t1 ++ unsubs_of t2.
Proof. apply omap_app. Qed.

Lemma deferred_refl p : pb_inside p = true -> deferred p [] p.
Proof. intros. split; try done; cbn; by rewrite app_nil_r. Qed.
Lemma deferred_trans p1 p2 p3 t1 t2 : deferred p1 t1 p2 -> deferred p2 t2 p3 -> deferred p1 (t1 ++ t2) p3.
Proof.
  intros [] []. split; rewrite ?subs_of_app, ?unsubs_of_app, ?app_assoc; congruence.
Qed.

Lemma quiet_act nfy a p : quiet a -> pb_inside p = true ->
  exists p' tr, pact_run nfy a p = (p', tr, Ret tt) /\ deferred p tr p' /\ asks tr.
Proof.
  intros Hq Hi. destruct a as [x|x|b|e| |x|x]; cbn in Hq; try done; cbn.
  - eexists _, _. split; [done|]. rewrite Hi. split; [by split; cbn; rewrite ?app_nil_r|]. by repeat constructor.
  - eexists _, _. split; [done|]. rewrite Hi. split; [by split; cbn; rewrite ?app_nil_r|]. by repeat constructor.
  - eexists _, _. split; [done|]. split; [by split; cbn; rewrite ?app_nil_r|constructor].
  - unfold sb_subscribe. case_bool_decide; cbn; rewrite Hi; cbn; rewrite ?Hi; cbn.
    + eexists _, _. split; [done|]. split; [by split; cbn; rewrite ?app_nil_r|by repeat constructor].
    + eexists _, _. split; [done|]. split; [by split; cbn; rewrite ?app_nil_r|by repeat constructor].
  - unfold sb_unsubscribe. case_bool_decide; cbn; rewrite ?Hi; cbn.
    + eexists _, _. split; [done|]. split; [by split; cbn; rewrite ?app_nil_r|by repeat constructor].
    + eexists _, _. split; [done|]. split; [by apply deferred_refl|constructor].
Qed.

Lemma pseq_ret (m1 m2 : pcall H E) p p1 t1 : m1 p = (p1, t1, Ret tt) ->
  pseq m1 m2 p = (let '(p2, t2, r) := m2 p1 in (p2, t1 ++ t2, r)).
Proof. intros Hm. unfold pseq. by rewrite Hm. Qed.

Lemma quiet_acts nfy l p : Forall quiet l -> pb_inside p = true ->
  exists p' tr, pacts_run nfy l p = (p', tr, Ret tt) /\ deferred p tr p' /\ asks tr.
Proof.
  revert p. induction l as [|a l IH]; intros p Hl Hi; cbn [pacts_run].
  - eexists _, _. split; [done|]. split; [by apply deferred_refl|constructor].
  - inversion Hl as [|? ? Ha Hl']; subst. destruct (quiet_act nfy a p Ha Hi) as (p1 & t1 & E1 & D1 & A1).
    destruct (IH p1 Hl') as (p2 & t2 & E2 & D2 & A2); [apply D1|]. rewrite (pseq_ret _ _ _ _ _ E1), E2.
    eexists _, _. split; [done|]. split; [by eapply deferred_trans|by apply Forall_app].
Qed.

Lemma received_app k t1 t2 : received (E := E) k (t1 ++ t2) = received k t1 ++ received k t2.
Proof. apply omap_app. Qed.
Lemma received_asks k tr : asks tr -> received k tr = [].
Proof. induction tr as [|o tr IH]; [done|]. intros [Ho Ht]%Forall_cons. cbn. destruct o; try done; by apply IH. Qed.

Lemma quiet_loop nfy k e is p : handlers quiet handle -> pb_inside p = true -> Forall (fun i => i < length (pb_subs p)) is ->
  exists p' tr, pb_loop nfy k (pb_epoch p) e is p = (p', tr, Ret tt) /\ deferred p tr p' /\ Forall inner tr /\
    received k tr = (fun x => (x, e)) <$> omap (fun i => pb_subs p !! i) is /\
    (forall j x e', ODeliver j x e' ∈ tr -> j = k).
Proof.
  intros Hh. revert p. induction is as [|i is IH]; intros p Hi Hb; cbn [PublisherModel.pb_loop].
  - eexists _, _. split; [done|]. split; [by apply deferred_refl|]. split; [constructor|]. split; [done|].
    intros j x e' Hin. by apply elem_of_nil in Hin.
  - inversion Hb as [|? ? Hlt Hb']; subst. rewrite Nat.eqb_refl.
    destruct (lookup_lt_is_Some_2 _ _ Hlt) as [x Hx]. rewrite Hx. specialize (Hh (pb_h p) x e).
    destruct (handle (pb_h p) x e) as [h l]. cbn in Hh. cbn [omap list_omap].
    set (p1 := Pub (pb_subs p) (pb_inside p) (pb_tosub p) (pb_tounsub p) (pb_enabled p) (pb_cap p) (pb_epoch p) (pb_ptr p) h (pb_calls p)).
    destruct (quiet_acts nfy l p1 Hh Hi) as (p2 & t2 & E2 & D2 & A2).
    assert (Hsub2 : pb_subs p2 = pb_subs p) by apply D2. assert (Hep2 : pb_epoch p2 = pb_epoch p) by apply D2.
    destruct (IH p2) as (p3 & t3 & E3 & D3 & I3 & R3 & J3); [apply D2|by rewrite Hsub2|].
    rewrite (pseq_ret _ _ p p1 [ODeliver k x e]) by done. rewrite (pseq_ret _ _ _ _ _ E2). rewrite Hep2 in E3. rewrite E3.
    eexists _, _. split; [done|]. split; [|split; [|split]].
    + pose proof (deferred_trans _ _ _ _ _ D2 D3) as D. destruct D. split; done.
    + constructor; [done|]. apply Forall_app. split; [|done]. eapply Forall_impl; [exact A2|]. by intros [].
    + rewrite !received_app, R3, Hsub2, (received_asks k t2) by done. rewrite Hx. cbn. by rewrite decide_True by done.
    + intros j y e' Hin. apply elem_of_cons in Hin as [[= -> -> ->]|Hin]; [done|].
      apply elem_of_app in Hin as [Hin|Hin]; [|by eapply J3]. unfold asks in A2. rewrite Forall_forall in A2. by apply A2 in Hin.
Qed.

Lemma omap_seq {A} (l : list A) : omap (fun i => l !! i) (seq 0 (length l)) = l.
Proof.
  assert (Hgen : forall pre, omap (fun i => (pre ++ l) !! i) (seq (length pre) (length l)) = l).
  { induction l as [|x l IH]; intros pre; [done|]. cbn. rewrite list_lookup_middle by done. cbn. f_equal.
    specialize (IH (pre ++ [x])). rewrite app_length, <- app_assoc in IH. cbn in IH. rewrite Nat.add_comm in IH. exact IH. }
  apply (Hgen []).
Qed.

Lemma settle_push xs p : 
  let p' := foldl (fun q x => pb_push x q) p xs in
  pb_subs p' = pb_subs p ++ xs /\ pb_inside p' = pb_inside p /\ pb_tosub p' = pb_tosub p /\ pb_tounsub p' = pb_tounsub p /\
  pb_enabled p' = pb_enabled p /\ pb_ptr p' = pb_ptr p /\ pb_h p' = pb_h p /\ pb_calls p' = pb_calls p.
Proof.
  cbv zeta. revert p. induction xs as [|x xs IH]; intros p; cbn [foldl]; [by rewrite app_nil_r|].
  specialize (IH (pb_push x p)). cbn in IH. rewrite <- app_assoc in IH. done.
Qed.
Lemma settle_erase xs p : 
  let p' := foldl (fun q x => pb_erase x q) p xs in
  pb_subs p' = foldl (fun l x => without x l) (pb_subs p) xs /\ pb_inside p' = pb_inside p /\ pb_tosub p' = pb_tosub p /\
  pb_tounsub p' = pb_tounsub p /\
  pb_enabled p' = pb_enabled p /\ pb_ptr p' = pb_ptr p /\ pb_h p' = pb_h p /\ pb_calls p' = pb_calls p.
Proof.
  cbv zeta. revert p. induction xs as [|x xs IH]; intros p; cbn [foldl]; [done|].
  specialize (IH (pb_erase x p)). cbn in IH. rewrite erase_without in IH. done.
Qed.
Lemma settle_eq p : let p' := pb_settle p in
  pb_subs p' = foldl (fun l x => without x l) (pb_subs p ++ pb_tosub p) (pb_tounsub p) /\ pb_inside p' = false /\
  pb_tosub p' = [] /\ pb_tounsub p' = pb_tounsub p /\ pb_enabled p' = pb_enabled p /\ pb_ptr p' = pb_ptr p /\ pb_h p' = pb_h p /\
  pb_calls p' = pb_calls p.
Proof.
  cbv zeta. unfold pb_settle. cbn [pb_subs pb_inside pb_tosub pb_tounsub pb_enabled pb_ptr pb_h pb_calls].
  destruct (settle_push (pb_tosub p) p) as (A1 & A2 & A3 & A4 & A5 & A6 & A7 & A8).
  match goal with |- context [foldl (fun q x => pb_erase x q) ?qq ?l] => destruct (settle_erase l qq) as (B1 & B2 & B3 & B4 & B5 & B6 & B7 & B8) end.
  cbn in *. rewrite B1, B3, B4, B5, B6, B7, B8, A1, A4, A5, A6, A7, A8. done.
Qed.

(** C31: one notification *)
Lemma notify_quiet n e p : handlers quiet handle -> pb_enabled p = true ->
  exists p' body, pb_notify (S n) e p = (p', OBegin (pb_calls p) e :: body ++ [OEnd (pb_calls p)], Ret tt) /\
    Forall inner body /\ received (pb_calls p) body = (fun x => (x, e)) <$> pb_subs p /\
    (forall j x e', ODeliver j x e' ∈ body -> j = pb_calls p) /\
    pb_subs p' = foldl (fun l x => without x l) (pb_subs p ++ pb_tosub p ++ subs_of body) (pb_tounsub p ++ unsubs_of body) /\
    pb_inside p' = false /\ pb_tosub p' = [] /\ pb_tounsub p' = pb_tounsub p ++ unsubs_of body /\ pb_calls p' = S (pb_calls p).
Proof.
  intros Hh He. cbn [PublisherModel.pb_notify]. rewrite He. set (k := pb_calls p).
  set (p1 := Pub (pb_subs p) true (pb_tosub p) (pb_tounsub p) (pb_enabled p) (pb_cap p) (pb_epoch p) (pb_ptr p) (pb_h p) (S k)).
  destruct (quiet_loop (pb_notify n) k e (seq 0 (length (pb_subs p1))) p1) as (p2 & body & E2 & D2 & I2 & R2 & J2);
    [done|done|apply Forall_forall; intros i [_ Hi]%elem_of_seq; exact Hi|].
  rewrite (pseq_ret _ _ p p1 [OBegin k e]) by done.
  rewrite (pseq_ret _ _ p1 p2 body) by exact E2. cbn [pstep].
  destruct (settle_eq p2) as (S1 & S2 & S3 & S4 & S5 & S6 & S7 & S8).
  eexists _, body. split; [done|]. split; [done|]. split; [by rewrite R2, omap_seq|]. split; [done|].
  destruct D2 as [F1 F2 F3 F4 F5 F6 F7]. cbn in F1, F3, F4, F7. rewrite S1, S2, S3, S4, S8, F1, F3, F4, F7, <- ?app_assoc. done.
Qed.

Lemma notify_calls_everybody n e p : handlers quiet handle -> pb_enabled p = true ->
  exists p' body, pb_notify (S n) e p = (p', OBegin (pb_calls p) e :: body ++ [OEnd (pb_calls p)], Ret tt) /\
    Forall inner body /\ received (pb_calls p) body = (fun x => (x, e)) <$> pb_subs p /\
    (forall j x e', ODeliver j x e' ∈ body -> j = pb_calls p) /\ pb_inside p' = false.
Proof.
  intros Hh He. destruct (notify_quiet n e p Hh He) as (p' & body & H1 & H2 & H3 & H4 & _ & H5 & _). eauto 10.
Qed.
Lemma notify_disabled n e p : pb_enabled p = false -> pb_notify (S n) e p = (p, [], Ret tt).
Proof. intros He. cbn. by rewrite He. Qed.

(* Requests in order are the same as first all subscriptions and then all unsubscriptions. *)
Lemma after_requests_app l t1 t2 : after_requests (E := E) l (t1 ++ t2) = after_requests (after_requests l t1) t2.
Proof. apply foldl_app. Qed.

Lemma foldl_without_app l ls us : (forall u, u ∈ us -> u ∉ ls) ->
  foldl (fun l x => without x l) (l ++ ls) us = foldl (fun l x => without x l) l us ++ ls.
Proof.
  revert l. induction us as [|u us IH]; intros l Hu; [done|]. cbn. rewrite without_app by (right; set_solver).
  apply IH. set_solver.
Qed.

Lemma elem_not_without x y l : x <> y -> y ∈ l -> y ∈ without x l.
Proof.
  intros Hne Hy. destruct (decide (x ∈ l)) as [Hx|Hx]; [|by rewrite without_not_in].
  destruct (without_in x l Hx) as (l1 & l2 & -> & _ & ->). set_solver.
Qed.

Lemma after_requests_cons l o tr : after_requests (E := E) l (o :: tr) = after_requests (after_request l o) tr.
Proof. done. Qed.
Lemma subs_of_cons o tr : subs_of (o :: tr) = (match o with OAskSub x => [x] | _ => [] end) ++ subs_of tr.
Proof. by destruct o. Qed.
Lemma unsubs_of_cons o tr : unsubs_of (o :: tr) = (match o with OAskUnsub x => [x] | _ => [] end) ++ unsubs_of tr.
Proof. by destruct o. Qed.

Lemma found_reorder tr : forall l, found l tr ->
  foldl (fun l x => without x l) (l ++ subs_of tr) (unsubs_of tr) = after_requests l tr.
Proof.
  induction tr as [|o tr IH]; intros l Hf; [cbn; apply app_nil_r|].
  rewrite after_requests_cons, subs_of_cons, unsubs_of_cons.
  destruct o as [k e|k x e|k|x|x]; cbn [after_request app foldl]; cbn in Hf; try by apply IH.
  - rewrite <- IH by done. by rewrite <- app_assoc.
  - destruct Hf as [Hx Hf]. rewrite <- IH by done. by rewrite without_app by by left.
Qed.

(** C32: one event, no pending requests *)
Lemma notify_requests n e p p' tr : handlers quiet handle -> pb_enabled p = true -> pb_tosub p = [] -> pb_tounsub p = [] ->
  pb_notify (S n) e p = (p', tr, Ret tt) -> found (pb_subs p) tr -> pb_subs p' = after_requests (pb_subs p) tr.
Proof.
  intros Hh He Hs Hu Hn Hf. destruct (notify_quiet n e p Hh He) as (p2 & body & E2 & _ & _ & _ & S2 & _).
  rewrite Hn in E2. injection E2 as -> ->. rewrite S2, Hs, Hu. cbn [app].
  change (OBegin (pb_calls p) e :: body ++ [OEnd (pb_calls p)]) with ([OBegin (pb_calls p) e] ++ body ++ [OEnd (pb_calls p)]) in *.
  rewrite !after_requests_app. cbn. rewrite <- found_reorder; [done|].
  cbn in Hf. clear -Hf. revert Hf. generalize (pb_subs p). induction body as [|o body IH]; intros l Hf; [done|].
  destruct o; cbn in *; try (by apply IH). destruct Hf as [? Hf]. split; [done|]. by apply IH.
Qed.

(** C31/C32: histories *)
Lemma tidy_inner tr2 body : Forall inner body -> forall l gone, NoDup l -> (forall g, g ∈ gone -> g ∉ l) -> tidy l gone true (body ++ tr2) ->
  tidy (after_requests l body) (rev (unsubs_of body) ++ gone) true tr2 /\
  NoDup (after_requests l body) /\ (forall g, g ∈ rev (unsubs_of body) ++ gone -> g ∉ after_requests l body) /\
  (forall pend, (forall u, u ∈ pend -> u ∈ gone) ->
     foldl (fun l x => without x l) (l ++ subs_of body) (pend ++ unsubs_of body) = after_requests l body).
Proof.
  induction body as [|o body IH]; intros Hin l gone Hnd Hg Ht.
  - cbn in *. split; [done|]. split; [done|]. split; [done|]. intros pend Hp. rewrite !app_nil_r.
    clear Ht. induction pend as [|u pend IHp]; [done|]. cbn. rewrite without_not_in by (apply Hg, Hp; set_solver). apply IHp. set_solver.
  - inversion Hin as [|? ? Ho Hin']; subst. rewrite after_requests_cons, subs_of_cons, unsubs_of_cons.
    destruct o as [k e|k x e|k|x|x]; cbn in Ho; try done; cbn in Ht; cbn [after_request app].
    + by apply IH.
    + destruct Ht as (H1 & H2 & Ht). destruct (IH Hin' (l ++ [x]) gone) as (A1 & A2 & A3 & A4).
      { apply NoDup_app. split; [done|]. split; [|apply NoDup_singleton]. intros y Hy ->%elem_of_list_singleton. done. }
      { intros g Hgg [?| ->%elem_of_list_singleton]%elem_of_app; [by apply (Hg g)|done]. } { done. }
      split; [done|]. split; [done|]. split; [done|]. intros pend Hp. specialize (A4 pend Hp). by rewrite <- app_assoc in A4.
    + destruct (IH Hin' (without x l) (x :: gone)) as (A1 & A2 & A3 & A4).
      { by apply without_NoDup. }
      { intros g [->|Hgg]%elem_of_cons; [by apply without_gone|]. intros Hc%without_sub. by apply (Hg g). } { done. }
      cbn [rev]. rewrite <- !app_assoc. cbn [app]. split; [done|]. split; [done|]. split; [done|]. intros pend Hp.
      rewrite <- (A4 pend) by set_solver. rewrite !foldl_app. cbn.
      assert (Hx : x ∉ subs_of body \/ x ∈ subs_of body) by (destruct (decide (x ∈ subs_of body)); auto).
      assert (Hxs : x ∉ subs_of body).
      { intros Hx'. clear -Ht Hx' Hin'. revert Ht Hx' Hin'. 
        assert (Hgn : x ∈ x :: gone) by set_solver. revert Hgn. generalize (x :: gone). generalize (without x l).
        induction body as [|o body IH]; intros l0 g0 Hgn Ht Hx Hin; [by apply elem_of_nil in Hx|].
        inversion Hin as [|? ? Ho Hin']; subst.
        destruct o as [k e|k y e|k|y|y]; cbn in Ho; try done; cbn in Ht, Hx.
        - exact (IH _ _ Hgn Ht Hx Hin').
        - destruct Ht as (_ & Hy & Ht). apply elem_of_cons in Hx as [->|Hx]; [done|]. exact (IH _ _ Hgn Ht Hx Hin').
        - refine (IH _ _ _ Ht Hx Hin'). set_solver. }
      clear Hx. f_equal.
      assert (Hpl : forall u, u ∈ pend -> u ∉ l) by (intros u Hu; apply Hg, Hp, Hu). clear -Hpl Hxs.
      assert (Hcomm : forall u v l', without u (without v l') = without v (without u l')).
      { intros u v l'. induction l' as [|y l' IH]; [done|]. cbn. destruct (decide (y = v)) as [Hv|Hv], (decide (y = u)) as [Hu|Hu]; cbn.
        - subst. congruence.
        - by rewrite decide_True by done.
        - by rewrite decide_True by done.
        - rewrite !decide_False by done. by rewrite IH. }
      rewrite <- without_app by (by right). clear -Hcomm. generalize (l ++ subs_of body). intros l0.
      revert l0. induction pend as [|u pend IH]; intros l0; [done|]. cbn. by rewrite IH, Hcomm.
Qed.

Lemma served_trans l1 t1 l2 t2 l3 : served (E := E) l1 t1 l2 -> served l2 t2 l3 -> served l1 (t1 ++ t2) l3.
Proof.
  intros H1 H2. induction H1; [done| |].
  - cbn. constructor; [done|]. by apply IHserved.
  - cbn. rewrite <- app_assoc. cbn. constructor; [done..|]. by apply IHserved.
Qed.

Lemma tidy_ask l gone o tr : (exists x, o = OAskSub x \/ o = OAskUnsub x) -> NoDup l -> (forall g, g ∈ gone -> g ∉ l) ->
  tidy (E := E) l gone false (o :: tr) -> tidy (after_request l o) gone false tr /\ NoDup (after_request l o) /\
  (forall g, g ∈ gone -> g ∉ after_request l o).
Proof.
  intros [x [->| ->]] Hnd Hg Ht; cbn in *.
  - destruct Ht as (H1 & H2 & Ht). split; [done|]. split.
    + apply NoDup_app. split; [done|]. split; [|apply NoDup_singleton]. intros y Hy ->%elem_of_list_singleton. done.
    + intros g Hgg [?| ->%elem_of_list_singleton]%elem_of_app; [by apply (Hg g)|done].
  - split; [done|]. split; [by apply without_NoDup|]. intros g Hgg Hc%without_sub. by apply (Hg g).
Qed.

Record settled p (l gone : list sid) : Prop := {
  st_subs : pb_subs p = l; st_inside : pb_inside p = false; st_tosub : pb_tosub p = [];
  st_pend : forall u, u ∈ pb_tounsub p -> u ∈ gone; st_nodup : NoDup l; st_gone : forall g, g ∈ gone -> g ∉ l }.

Lemma act_served n a p l gone tr2 : handlers quiet handle -> settled p l gone ->
  forall p' tr r, pact_run (pb_notify (S n)) a p = (p', tr, r) -> tidy l gone false (tr ++ tr2) ->
  (r = Ret tt /\ a <> PThrow \/ r = Throw XRuntime /\ a = PThrow) /\
  exists l' gone', served l tr l' /\ settled p' l' gone' /\ tidy l' gone' false tr2.
Proof.
  intros Hh [S1 S2 S3 S4 S5 S6] p' tr r Hr Ht.
  assert (Hone : forall o (q : pub), (exists x, o = OAskSub x \/ o = OAskUnsub x) -> tidy l gone false (o :: tr2) ->
     pb_subs q = after_request l o -> pb_inside q = false -> pb_tosub q = [] -> pb_tounsub q = pb_tounsub p ->
     exists l' gone', served l [o] l' /\ settled q l' gone' /\ tidy l' gone' false tr2).
  { intros o q Ho Hto Q1 Q2 Q3 Q4. destruct (tidy_ask l gone o tr2 Ho S5 S6 Hto) as (T1 & T2 & T3).
    exists (after_request l o), gone. split; [by repeat constructor|]. split; [|done]. split; try done. by rewrite Q4. }
  destruct a as [x|x|b|e| |x|x]; cbn [pact_run] in Hr.
  - unfold pb_subscribe, pstep in Hr. rewrite S2 in Hr. injection Hr as <- <- <-. split; [left; done|].
    apply Hone; try done; cbn; [eauto|by rewrite S1].
  - unfold pb_unsubscribe, pstep in Hr. rewrite S2 in Hr. injection Hr as <- <- <-. split; [left; done|].
    apply Hone; try done; cbn; [eauto|by rewrite erase_without, S1].
  - injection Hr as <- <- <-. split; [left; done|]. exists l, gone. split; [constructor|]. split; [by split|done].
  - destruct (pb_enabled p) eqn:He.
    + destruct (notify_quiet n e p Hh He) as (q & body & E2 & I2 & R2 & J2 & N1 & N2 & N3 & N4 & N5).
      rewrite E2 in Hr. injection Hr as <- <- <-. split; [left; done|].
      cbn in Ht. rewrite <- app_assoc in Ht. destruct (tidy_inner _ _ I2 l gone S5 S6 Ht) as (T1 & T2 & T3 & T4).
      exists (after_requests l body), (rev (unsubs_of body) ++ gone). split; [|split].
      * apply served_event; [done|by rewrite R2, S1|done|constructor].
      * split; try done.
        -- rewrite N1, S1, S3. cbn [app]. by apply T4.
        -- rewrite N4. intros u [Hu|Hu]%elem_of_app; apply elem_of_app; [right; by apply S4|left].
           apply elem_of_list_In, in_rev. rewrite rev_involutive. by apply elem_of_list_In.
      * done.
    + rewrite notify_disabled in Hr by done. injection Hr as <- <- <-. split; [left; done|]. exists l, gone. split; [constructor|]. split; [by split|done].
  - injection Hr as <- <- <-. split; [right; done|]. exists l, gone. split; [constructor|]. split; [by split|done].
  - unfold sb_subscribe in Hr. case_bool_decide; cbn in Hr; rewrite ?S2 in Hr; cbn in Hr; rewrite ?S2 in Hr; cbn in Hr.
    + injection Hr as <- <- <-. split; [left; done|]. cbn [app] in Ht.
      destruct (tidy_ask l gone (OAskUnsub x) (OAskSub x :: tr2) ltac:(eauto) S5 S6 Ht) as (T1 & T2 & T3).
      destruct (tidy_ask _ gone (OAskSub x) tr2 ltac:(eauto) T2 T3 T1) as (U1 & U2 & U3).
      eexists _, gone. split; [|split; [|exact U1]].
      * constructor; [eauto|]. constructor; [eauto|]. constructor.
      * split; try done; cbn. by rewrite erase_without, S1.
    + injection Hr as <- <- <-. split; [left; done|]. apply Hone; try done; cbn; [eauto|by rewrite S1].
  - unfold sb_unsubscribe in Hr. case_bool_decide; cbn in Hr; rewrite ?S2 in Hr; cbn in Hr.
    + injection Hr as <- <- <-. split; [left; done|]. apply Hone; try done; cbn; [eauto|by rewrite erase_without, S1].
    + injection Hr as <- <- <-. split; [left; done|]. exists l, gone. split; [constructor|]. split; [by split|done].
Qed.

Lemma acts_served n acts : handlers quiet handle -> forall p l gone tr2, settled p l gone ->
  forall p' tr r, pacts_run (pb_notify (S n)) acts p = (p', tr, r) -> tidy l gone false (tr ++ tr2) ->
  (r = Ret tt \/ r = Throw XRuntime /\ PThrow ∈ acts) /\
  exists l' gone', served l tr l' /\ settled p' l' gone' /\ tidy l' gone' false tr2.
Proof.
  intros Hh. induction acts as [|a acts IH]; intros p l gone tr2 Hst p' tr r Hr Ht; cbn [pacts_run] in Hr.
  - injection Hr as <- <- <-. split; [by left|]. exists l, gone. split; [constructor|]. done.
  - unfold pseq in Hr. destruct (pact_run (pb_notify (S n)) a p) as [[p1 t1] r1] eqn:E1.
    destruct r1 as [[]|x| |].
    + destruct (pacts_run (pb_notify (S n)) acts p1) as [[p2 t2] r2] eqn:E2. injection Hr as <- <- <-.
      rewrite <- app_assoc in Ht. destruct (act_served n a p l gone (t2 ++ tr2) Hh Hst _ _ _ E1 Ht) as (_ & l1 & g1 & V1 & D1 & T1).
      destruct (IH p1 l1 g1 tr2 D1 _ _ _ E2 T1) as (R2 & l2 & g2 & V2 & D2 & T2).
      split; [destruct R2 as [->|[-> ?]]; [by left|right; split; [done|by right]]|].
      exists l2, g2. split; [by eapply served_trans|done].
    + injection Hr as <- <- <-. destruct (act_served n a p l gone tr2 Hh Hst _ _ _ E1 Ht) as ([[? _]|[Hr ->]] & l1 & g1 & V1 & D1 & T1); [done|].
      split; [right; split; [done|by left]|]. eauto.
    + injection Hr as <- <- <-. destruct (act_served n a p l gone tr2 Hh Hst _ _ _ E1 Ht) as ([[? _]|[? _]] & _); done.
    + injection Hr as <- <- <-. destruct (act_served n a p l gone tr2 Hh Hst _ _ _ E1 Ht) as ([[? _]|[? _]] & _); done.
Qed.

Lemma history_served n cap h acts p' tr r : handlers quiet handle ->
  pb_run handle (S n) acts (pub_new cap h) = (p', tr, r) -> tidy [] [] false tr ->
  (r = Ret tt \/ r = Throw XRuntime /\ PThrow ∈ acts) /\ served [] tr (pb_subs p').
Proof.
  intros Hh Hr Ht. destruct (acts_served n acts Hh (pub_new cap h) [] [] []) with (p' := p') (tr := tr) (r := r)
    as (R & l & g & V & D & _); [|done|by rewrite app_nil_r|].
  - split; try done; [apply NoDup_nil_2|]. intros g _. apply not_elem_of_nil.
  - split; [done|]. by rewrite (st_subs _ _ _ D).
Qed.

(** C32, refuted part: an unsubscription made inside a handler is repeated after every later event. *)
Lemma foldl_without_notin us l x : x ∉ l -> x ∉ foldl (fun l x => without x l) l us.
Proof.
  revert l. induction us as [|u us IH]; intros l Hl; [done|]. cbn. apply IH. intros Hc%without_sub. done.
Qed.
Lemma without_last x l : x ∉ l -> without x (l ++ [x]) = l.
Proof.
  induction l as [|y l IH]; intros Hx; cbn; [by rewrite decide_True by done|].
  rewrite decide_False by set_solver. f_equal. apply IH. set_solver.
Qed.

Lemma subs_of_in x tr : x ∈ subs_of tr -> OAskSub x ∈ tr.
Proof. intros (o & Ho & Hx)%elem_of_list_omap. destruct o; try done. by injection Hx as ->. Qed.

Lemma foldl_without_last x us l l' : x ∈ us -> x ∉ l -> x ∉ l' -> x ∉ foldl (fun l x => without x l) (l ++ [x] ++ l') us.
Proof.
  revert l l'. induction us as [|u us IH]; intros l l' Hxu Hl Hl'; [by apply elem_of_nil in Hxu|]. cbn [foldl].
  destruct (decide (u = x)) as [->|Hne].
  - apply foldl_without_notin. rewrite app_assoc, without_app, without_last by set_solver. set_solver.
  - destruct (decide (u ∈ l)) as [Hul|Hul].
    + rewrite without_app by by left. apply IH; [set_solver| |done]. intros Hc%without_sub. done.
    + assert (Hw : without u (l ++ [x] ++ l') = l ++ [x] ++ without u l').
      { clear -Hne Hul. induction l as [|y l IHl]; cbn; [by rewrite decide_False by done|].
        rewrite decide_False by set_solver. f_equal. apply IHl. set_solver. }
      rewrite Hw. apply IH; [set_solver|done|]. intros Hc%without_sub. done.
Qed.

Lemma resubscribed_dropped n e x p p1 p2 (t1 : list (pobs E)) tr : handlers quiet handle -> pb_enabled p = true -> pb_inside p = false -> pb_tosub p = [] ->
  x ∈ pb_tounsub p -> x ∉ pb_subs p ->
  pb_subscribe x p = (p1, t1, Ret tt) -> pb_notify (S n) e p1 = (p2, tr, Ret tt) -> OAskSub x ∉ tr ->
  ODeliver (pb_calls p) x e ∈ tr /\ x ∉ pb_subs p2 /\ x ∈ pb_tounsub p2.
Proof.
  intros Hh He Hi Hs Hx Hn Hsub Hnot Hno. unfold pb_subscribe, pstep in Hsub. rewrite Hi in Hsub. injection Hsub as <- <-.
  set (p1 := pb_push x p) in *. assert (S1 : pb_subs p1 = pb_subs p ++ [x]) by done.
  destruct (notify_quiet n e p1 Hh He) as (q & body & E2 & I2 & R2 & J2 & N1 & N2 & N3 & N4 & N5).
  rewrite Hnot in E2. injection E2 as -> ->. split.
  - assert (Hin : (x, e) ∈ received (pb_calls p1) body) by (rewrite R2, S1, fmap_app; set_solver).
    apply elem_of_list_omap in Hin as (o & Ho & Hox). destruct o as [| k y e'| | |]; try done.
    destruct (decide (k = pb_calls p1)) as [->|]; [|done]. injection Hox as -> ->. right. apply elem_of_app. by left.
  - rewrite N1, N4, S1. change (pb_tosub p1) with (pb_tosub p). rewrite Hs. change (pb_tounsub p1) with (pb_tounsub p).
    split; [|set_solver]. cbn [app]. rewrite <- app_assoc. apply foldl_without_last; [set_solver|done|].
    intros Hc%subs_of_in. apply Hno. right. apply elem_of_app. by left.
Qed.

(** C34 *)
Lemma destroy_ptr_free fuel p : (forall x, x ∈ pb_subs p -> x ∉ pb_ptr p) -> length (pb_subs p) <= fuel ->
  exists p', pb_destroy (E := E) fuel p = (p', [], Ret tt) /\ pb_subs p' = [] /\ pb_ptr p' = pb_ptr p.
Proof.
  revert p. induction fuel as [|fuel IH]; intros p Hp Hlen; cbn [pb_destroy].
  - destruct (pb_subs p) eqn:Hs; [|cbn in Hlen; lia]. cbn. eauto.
  - destruct (pb_subs p) as [|x0 l0 _] eqn:Hs using rev_ind; [cbn; eauto|]. rewrite last_snoc.
    unfold pb_destroy_round. unfold pseq. unfold sb_unsubscribe. rewrite bool_decide_false by (apply Hp; set_solver). rewrite Hs.
    destruct (l0 ++ [x0]) as [|y l1] eqn:Hl; [by destruct l0|]. rewrite <- Hl.
    rewrite removelast_last. set (q := Pub l0 (pb_inside p) (pb_tosub p) (pb_tounsub p) (pb_enabled p) (pb_cap p) (pb_epoch p) (pb_ptr p) (pb_h p) (pb_calls p)).
    destruct (IH q) as (p' & E' & H1 & H2).
    + cbn. intros x Hx. apply Hp. rewrite <- Hl. set_solver.
    + cbn. rewrite <- Hl in Hlen. rewrite app_length in Hlen. cbn in Hlen. lia.
    + rewrite E'. eauto.
Qed.

Lemma destroy_step l0 y x p n : pb_inside p = false -> pb_subs p = l0 ++ [y; x] -> x ∉ l0 ++ [y] -> x ∈ pb_ptr p ->
  exists q tr, pb_destroy (S n) p = (let '(p2, t2, r) := pb_destroy n q in (p2, tr ++ t2, r)) /\
    pb_subs q = l0 /\ pb_inside q = false /\ pb_ptr q = pb_ptr p ∖ {[x]}.
Proof.
  intros Hi Hs Hx Hp. change [y; x] with ([y] ++ [x]) in Hs. rewrite app_assoc in Hs.
  eexists _, [OAskUnsub x]. split.
  - cbn [pb_destroy]. rewrite Hs, last_snoc. unfold pseq at 1. unfold pb_destroy_round, sb_unsubscribe, pseq.
    rewrite bool_decide_true by done. cbn -[pb_destroy]. rewrite Hi. cbn -[pb_destroy].
    rewrite erase_without, Hs, without_last by done.
    destruct (l0 ++ [y]) as [|z l1] eqn:Hz; [by destruct l0|]. rewrite <- Hz, removelast_last. reflexivity.
  - done.
Qed.

Lemma destroy_single x p n : pb_inside p = false -> pb_subs p = [x] -> x ∈ pb_ptr p ->
  exists q tr, pb_destroy (E := E) (S n) p = (q, tr, UB).
Proof.
  intros Hi Hs Hp. cbn. rewrite Hs. cbn. unfold pseq at 1. unfold pb_destroy_round, sb_unsubscribe, pseq.
  rewrite bool_decide_true by done. cbn. rewrite Hi. cbn. rewrite erase_without, Hs. cbn. rewrite decide_True by done. eauto.
Qed.

Lemma destroy_pairs n : forall l p fuel, length l = n -> pb_inside p = false -> pb_subs p = l -> NoDup l -> (forall x, x ∈ l -> x ∈ pb_ptr p) ->
  n <= fuel ->
  exists p' tr r, pb_destroy (E := E) fuel p = (p', tr, r) /\
    (Nat.odd n = true -> r = UB) /\
    (Nat.odd n = false -> r = Ret tt /\ pb_subs p' = [] /\ (forall x, x ∉ l -> x ∈ pb_ptr p' <-> x ∈ pb_ptr p) /\
       forall i x, l !! i = Some x -> x ∈ pb_ptr p' <-> Nat.even i = true).
Proof.
  induction n as [n IH] using lt_wf_ind. intros l p fuel Hl Hi Hs Hnd Hp Hf.
  destruct l as [|x l _] using rev_ind.
  - cbn in Hl. subst n. exists p, [], (Ret tt). split; [destruct fuel; cbn; by rewrite Hs|]. split; [done|]. intros _.
    split; [done|]. split; [done|]. split; [done|]. intros i x Hx. by rewrite lookup_nil in Hx.
  - destruct fuel as [|fuel]; [rewrite app_length in Hl; cbn in Hl; lia|].
    destruct l as [|y l _] using rev_ind.
    + cbn in Hl. subst n. destruct (destroy_single x p fuel Hi Hs) as (q & tr & Hq); [apply Hp; set_solver|].
      exists q, tr, UB. split; [done|]. done.
    + rewrite <- app_assoc in *. cbn [app] in *. rewrite app_length in Hl. cbn in Hl.
      assert (Hnd' := Hnd). change [y; x] with ([y] ++ [x]) in Hnd'. rewrite app_assoc in Hnd'.
      apply NoDup_app in Hnd' as (Hndl & Hd & _). assert (Hxn : x ∉ l ++ [y]) by (intros Hc; apply (Hd x Hc); set_solver).
      apply NoDup_app in Hndl as (Hndl & Hyn & _).
      destruct (destroy_step l y x p fuel Hi Hs Hxn) as (q & tr & Hq & Q1 & Q2 & Q3); [apply Hp; set_solver|].
      destruct (IH (length l) ltac:(lia) l q fuel eq_refl Q2 Q1 Hndl) as (p' & t' & r & He & Ho & Hev).
      { intros z Hz. rewrite Q3. apply elem_of_difference. split; [apply Hp; set_solver|]. intros ->%elem_of_singleton. set_solver. }
      { lia. }
      rewrite Hq, He. exists p', (tr ++ t'), r. split; [done|].
      assert (Hpar : Nat.odd n = Nat.odd (length l)).
      { rewrite <- Hl. rewrite Nat.add_comm. cbn [Nat.add]. rewrite !Nat.odd_succ. by rewrite Nat.even_succ. }
      rewrite Hpar. split; [done|]. intros Hodd. destruct (Hev Hodd) as (-> & S1 & S2 & S3).
      split; [done|]. split; [done|]. split.
      * intros z Hz. rewrite S2 by set_solver. rewrite Q3. split; [set_solver|]. intros Hz'. apply elem_of_difference. set_solver.
      * intros i z Hz. destruct (decide (i < length l)) as [Hlt|Hge].
        { rewrite lookup_app_l in Hz by done. by apply S3. }
        rewrite lookup_app_r in Hz by lia. remember (i - length l) as j eqn:Hj. assert (i = length l + j) as -> by lia.
        assert (Hel : Nat.even (length l) = true) by (rewrite <- Nat.negb_odd, Hodd; done).
        destruct j as [|[|j]]; cbn in Hz; [| |done]; injection Hz as <-.
        -- rewrite Nat.add_0_r, Hel. split; [done|]. intros _. apply S2; [intros Hc; apply (Hyn y Hc); set_solver|]. rewrite Q3.
           apply elem_of_difference. split; [apply Hp; set_solver|]. intros ->%elem_of_singleton. set_solver.
        -- rewrite Nat.add_1_r, Nat.even_succ, Hodd. split; [|done]. intros Hc. apply S2 in Hc; [|set_solver]. rewrite Q3 in Hc. set_solver.
Qed.

(** C33, positive part: nested notifications without subscriptions *)
Definition within (lo hi : nat) (o : pobs E) : Prop :=
  match o with OBegin k _ | ODeliver k _ _ | OEnd k => lo <= k < hi | _ => True end.
Record complete (l : list sid) (lo hi : nat) tr : Prop := {
  cp_le : lo <= hi;
  cp_in : Forall (within lo hi) tr;
  cp_all : forall k e, OBegin k e ∈ tr -> received k tr = (fun x => (x, e)) <$> l }.

Lemma received_out k lo hi tr : Forall (within lo hi) tr -> (k < lo \/ hi <= k) -> received (E := E) k tr = [].
Proof.
  induction tr as [|o tr IH]; intros Ht Hk; [done|]. inversion Ht as [|? ? Ho Ht']; subst.
  change (o :: tr) with ([o] ++ tr). rewrite received_app, IH by done.
  destruct o as [|j x e| | |]; try done. cbn in Ho. unfold received. cbn. rewrite decide_False by lia. done.
Qed.

Lemma within_mono lo hi lo' hi' tr : lo' <= lo -> hi <= hi' -> Forall (within lo hi) tr -> Forall (within lo' hi') tr.
Proof. intros H1 H2 Ht. eapply Forall_impl; [exact Ht|]. intros [| | | |]; cbn; lia. Qed.

Lemma complete_nil l k : complete l k k [].
Proof. split; [done|constructor|]. intros ? ? Hc. by apply elem_of_nil in Hc. Qed.
Lemma complete_app l a b c t1 t2 : complete l a b t1 -> complete l b c t2 -> complete l a c (t1 ++ t2).
Proof.
  intros [L1 I1 A1] [L2 I2 A2]. split; [lia| |].
  - apply Forall_app. split; [eapply within_mono; [| |exact I1]; lia|eapply within_mono; [| |exact I2]; lia].
  - intros k e [Hk|Hk]%elem_of_app.
    + assert (k < b). { rewrite Forall_forall in I1. apply I1 in Hk. cbn in Hk. lia. }
      rewrite received_app, (received_out k _ _ _ I2), app_nil_r by lia. by apply A1.
    + assert (b <= k). { rewrite Forall_forall in I2. apply I2 in Hk. cbn in Hk. lia. }
      rewrite received_app, (received_out k _ _ _ I1) by lia. by apply A2.
Qed.

Record still p p' : Prop := {
  sl_subs : pb_subs p' = pb_subs p; sl_tosub : pb_tosub p' = []; sl_tounsub : pb_tounsub p' = [];
  sl_epoch : pb_epoch p' = pb_epoch p; sl_ptr : pb_ptr p' = pb_ptr p }.
Lemma still_trans p1 p2 p3 : still p1 p2 -> still p2 p3 -> still p1 p3.
Proof. intros [] []. split; congruence. Qed.

Definition nested_ok (nfy : E -> pcall H E) : Prop := forall e p p' tr r, pb_tosub p = [] -> pb_tounsub p = [] ->
  nfy e p = (p', tr, r) -> r = Fuel \/ r = Ret tt /\ still p p' /\ complete (pb_subs p) (pb_calls p) (pb_calls p') tr.

Lemma steady_acts nfy l : nested_ok nfy -> Forall steady l -> forall p p' tr r, pb_tosub p = [] -> pb_tounsub p = [] ->
  pacts_run nfy l p = (p', tr, r) -> r = Fuel \/ r = Ret tt /\ still p p' /\ complete (pb_subs p) (pb_calls p) (pb_calls p') tr.
Proof.
  intros Hn. induction l as [|a l IH]; intros Hl p p' tr r Hs Hu Hr; cbn [pacts_run] in Hr.
  - injection Hr as <- <- <-. right. split; [done|]. split; [by split|apply complete_nil].
  - inversion Hl as [|? ? Ha Hl']; subst. unfold pseq in Hr. destruct (pact_run nfy a p) as [[p1 t1] r1] eqn:E1.
    assert (H1 : r1 = Fuel \/ r1 = Ret tt /\ still p p1 /\ complete (pb_subs p) (pb_calls p) (pb_calls p1) t1).
    { destruct a; cbn in Ha; try done; cbn [pact_run] in E1.
      - injection E1 as <- <- <-. right. split; [done|]. split; [by split|apply complete_nil].
      - by eapply Hn. }
    destruct H1 as [->|(-> & St1 & C1)].
    + injection Hr as <- <- <-. by left.
    + destruct (pacts_run nfy l p1) as [[p2 t2] r2] eqn:E2. injection Hr as <- <- <-.
      destruct (IH Hl' p1 p2 t2 r2 (sl_tosub _ _ St1) (sl_tounsub _ _ St1) E2) as [->|(-> & St2 & C2)]; [by left|right].
      split; [done|]. split; [by eapply still_trans|]. rewrite (sl_subs _ _ St1) in C2. by eapply complete_app.
Qed.

Lemma steady_loop nfy k e : nested_ok nfy -> handlers steady handle -> forall is p p' tr r, pb_tosub p = [] -> pb_tounsub p = [] ->
  Forall (fun i => i < length (pb_subs p)) is -> k < pb_calls p ->
  pb_loop nfy k (pb_epoch p) e is p = (p', tr, r) -> r = Fuel \/ r = Ret tt /\ still p p' /\ pb_calls p <= pb_calls p' /\
   Forall (within k (pb_calls p')) tr /\ received k tr = (fun x => (x, e)) <$> omap (fun i => pb_subs p !! i) is /\
   (forall j e', OBegin j e' ∈ tr -> pb_calls p <= j /\ received j tr = (fun x => (x, e')) <$> pb_subs p) /\
   (forall j, j <> k -> j < pb_calls p -> received j tr = []).
Proof.
  intros Hn Hh is. induction is as [|i is IH]; intros p p' tr r Hs Hu Hb Hk Hr; cbn [PublisherModel.pb_loop] in Hr.
  - injection Hr as <- <- <-. right. split; [done|]. split; [by split|]. split; [done|]. split; [constructor|].
    split; [done|]. split; [|done]. intros ? ? Hc. by apply elem_of_nil in Hc.
  - inversion Hb as [|? ? Hlt Hb']; subst. rewrite Nat.eqb_refl in Hr.
    destruct (lookup_lt_is_Some_2 _ _ Hlt) as [x Hx]. rewrite Hx in Hr. specialize (Hh (pb_h p) x e).
    destruct (handle (pb_h p) x e) as [h l]. cbn in Hh. cbn [omap list_omap]. rewrite Hx. cbn [fmap list_fmap].
    set (p1 := Pub (pb_subs p) (pb_inside p) (pb_tosub p) (pb_tounsub p) (pb_enabled p) (pb_cap p) (pb_epoch p) (pb_ptr p) h (pb_calls p)).
    rewrite (pseq_ret _ _ p p1 [ODeliver k x e]) in Hr by done. unfold pseq in Hr.
    destruct (pacts_run nfy l p1) as [[p2 t2] r2] eqn:E2.
    destruct (steady_acts nfy l Hn Hh p1 p2 t2 r2 Hs Hu E2) as [->|(-> & [A1 A2 A3 A4 A5] & C2)].
    { injection Hr as <- <- <-. by left. }
    cbn in A1, A4, A5. rewrite <- A4 in Hr. destruct (pb_loop nfy k (pb_epoch p2) e is p2) as [[p3 t3] r3] eqn:E3. injection Hr as <- <- <-.
    pose proof (cp_le _ _ _ _ C2) as Hle2. cbn in Hle2.
    destruct (IH p2 p3 t3 r3 A2 A3) as [->|(-> & [B1 B2 B3 B4 B5] & Hle & W3 & R3 & Q3 & Z3)]; [by rewrite A1|lia|done|by left|].
    right. split; [done|]. split; [split; congruence|]. split; [lia|]. destruct C2 as [_ W2 Q2]. cbn in W2, Q2.
    split; [|split; [|split]].
    + constructor; [cbn; lia|]. apply Forall_app. split; [|done]. eapply within_mono; [| |exact W2]; lia.
    + change (ODeliver k x e :: t2 ++ t3) with ([ODeliver k x e] ++ t2 ++ t3). rewrite !received_app, R3, A1, (received_out k _ _ _ W2) by lia.
      cbn. by rewrite decide_True by done.
    + intros j e' [Hc|[Hj|Hj]%elem_of_app]%elem_of_cons; [done| |].
      * assert (pb_calls p <= j < pb_calls p2) as Hj'. { rewrite Forall_forall in W2. by apply W2 in Hj. }
        split; [lia|]. change (ODeliver k x e :: t2 ++ t3) with ([ODeliver k x e] ++ t2 ++ t3). rewrite !received_app, (Q2 _ _ Hj).
        cbn. rewrite decide_False by lia. cbn. rewrite Z3 by lia. by rewrite app_nil_r.
      * destruct (Q3 j e' Hj) as [Hj' Hr']. split; [lia|].
        change (ODeliver k x e :: t2 ++ t3) with ([ODeliver k x e] ++ t2 ++ t3). rewrite !received_app, Hr', (received_out j _ _ _ W2), A1 by lia.
        cbn. rewrite decide_False by lia. done.
    + intros j Hjk Hj. change (ODeliver k x e :: t2 ++ t3) with ([ODeliver k x e] ++ t2 ++ t3).
      rewrite !received_app, (received_out j _ _ _ W2), Z3 by lia. cbn. rewrite decide_False by lia. done.
Qed.

Lemma notify_nested n : handlers steady handle -> nested_ok (pb_notify n).
Proof.
  intros Hh. induction n as [|n IH]; intros e p p' tr r Hs Hu Hr; [injection Hr as <- <- <-; by left|].
  cbn [PublisherModel.pb_notify] in Hr. destruct (pb_enabled p).
  2:{ injection Hr as <- <- <-. right. split; [done|]. split; [by split|apply complete_nil]. }
  set (k := pb_calls p) in *.
  set (p1 := Pub (pb_subs p) true (pb_tosub p) (pb_tounsub p) (pb_enabled p) (pb_cap p) (pb_epoch p) (pb_ptr p) (pb_h p) (S k)).
  rewrite (pseq_ret _ _ p p1 [OBegin k e]) in Hr by done. unfold pseq in Hr.
  destruct (pb_loop (pb_notify n) k (pb_epoch p1) e (seq 0 (length (pb_subs p1))) p1) as [[p2 t2] r2] eqn:E2.
  destruct (steady_loop (pb_notify n) k e IH Hh (seq 0 (length (pb_subs p1))) p1 p2 t2 r2) as [->|(-> & [A1 A2 A3 A4 A5] & Hle & W & R & Q & Z)];
    try done.
  { apply Forall_forall. by intros i [_ Hi]%elem_of_seq. } { cbn; lia. }
  { injection Hr as <- <- <-. by left. }
  cbn in Hr. injection Hr as <- <- <-. destruct (settle_eq p2) as (S1 & S2 & S3 & S4 & S5 & S6 & S7 & S8).
  rewrite A2, A3, app_nil_r in S1. cbn [foldl] in S1. cbn in A1, A4, A5, Hle. right. split; [done|]. split.
  - split; [congruence|done|congruence| |congruence]. rewrite <- A4. unfold pb_settle. rewrite A2. cbn [foldl pb_tounsub pb_epoch]. rewrite A3. done.
  - rewrite S8. split; [lia| |].
    + constructor; [cbn; lia|]. apply Forall_app. split; [done|]. constructor; [cbn; lia|constructor].
    + rewrite omap_seq in R. intros j e' [Hc|[Hj|Hc]%elem_of_app]%elem_of_cons.
      * injection Hc as -> ->. change (OBegin k e :: t2 ++ [OEnd k]) with ([OBegin k e] ++ t2 ++ [OEnd k]). rewrite !received_app, R.
        cbn. by rewrite app_nil_r.
      * destruct (Q j e' Hj) as [Hj' Hr'].
        change (OBegin k e :: t2 ++ [OEnd k]) with ([OBegin k e] ++ t2 ++ [OEnd k]). rewrite !received_app, Hr'. cbn. by rewrite app_nil_r.
      * by apply elem_of_list_singleton in Hc.
Qed.

Lemma nested_events n e p p' tr r : handlers steady handle -> pb_tosub p = [] -> pb_tounsub p = [] ->
  pb_notify n e p = (p', tr, r) ->
  r = Fuel \/ r = Ret tt /\ pb_subs p' = pb_subs p /\ pb_tosub p' = [] /\ pb_tounsub p' = [] /\
  forall k e', OBegin k e' ∈ tr -> received k tr = (fun x => (x, e')) <$> pb_subs p.
Proof.
  intros Hh Hs Hu Hr. destruct (notify_nested n Hh e p p' tr r Hs Hu Hr) as [->|(-> & [] & [])]; eauto 10.
Qed.

End thms.
