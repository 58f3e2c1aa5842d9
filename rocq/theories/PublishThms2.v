(** More proofs about event delivery: switching events on and off, subscribers and their pointers, reallocation of
    the list of subscribers during a notification. *)
From stdpp Require Import prelude gmap.
From Verif Require Import Outcome PublisherModel SpecPublish PublishThms.

Section thms.
Context {H E : Type} (handle : H -> sid -> E -> H * list (pact E)).
Implicit Types (p q : pub H) (tr : list (pobs E)).

(** C31: switched off *)
Lemma off_act n a p p' tr r : PEnable true <> a -> pb_enabled p = false ->
  pact_run (pb_notify handle (S n)) a p = (p', tr, r) -> pb_enabled p' = false /\ Forall (fun o => request o) tr.
Proof.
  intros Ha He Hr. destruct a as [x|x|b|e| |x|x]; cbn [pact_run] in Hr.
  - unfold pb_subscribe, pstep in Hr. injection Hr as <- <- <-. split; [by destruct (pb_inside p)|by repeat constructor].
  - unfold pb_unsubscribe, pstep in Hr. injection Hr as <- <- <-. split; [by destruct (pb_inside p)|by repeat constructor].
  - unfold pb_enable, pstep in Hr. injection Hr as <- <- <-. split; [by destruct b|constructor].
  - rewrite (notify_disabled handle n e p He) in Hr. injection Hr as <- <- <-. split; [done|constructor].
  - injection Hr as <- <- <-. split; [done|constructor].
  - unfold sb_subscribe, pseq in Hr. destruct (bool_decide (x ∈ pb_ptr p)); cbn in Hr; injection Hr as <- <- <-;
      (split; [destruct (pb_inside p) eqn:Hi; cbn; by rewrite ?Hi|by repeat constructor]).
  - unfold sb_unsubscribe, pseq in Hr. destruct (bool_decide (x ∈ pb_ptr p)); cbn in Hr; injection Hr as <- <- <-;
      (split; [destruct (pb_inside p) eqn:Hi; cbn; by rewrite ?Hi|by repeat constructor]).
Qed.
Lemma off_acts n acts : PEnable true ∉ acts -> forall p p' tr r, pb_enabled p = false ->
  pb_run handle (S n) acts p = (p', tr, r) -> pb_enabled p' = false /\ Forall (fun o => request o) tr.
Proof.
  unfold pb_run. induction acts as [|a acts IH]; intros Hn p p' tr r He Hr; cbn [pacts_run] in Hr.
  - injection Hr as <- <- <-. split; [done|constructor].
  - apply not_elem_of_cons in Hn as [Ha Hn]. unfold pseq in Hr.
    destruct (pact_run (pb_notify handle (S n)) a p) as [[p1 t1] r1] eqn:E1.
    destruct (off_act n a p p1 t1 r1 Ha He E1) as [He1 Ht1].
    destruct r1 as [[]| | |]; try (by injection Hr as <- <- <-).
    destruct (pacts_run (pb_notify handle (S n)) acts p1) as [[p2 t2] r2] eqn:E2. injection Hr as <- <- <-.
    destruct (IH Hn p1 p2 t2 r2 He1 E2). split; [done|]. by apply Forall_app.
Qed.
Lemma switched_off n acts p p' tr r : PEnable true ∉ acts ->
  pb_run handle (S n) (PEnable false :: acts) p = (p', tr, r) -> Forall (fun o => request o) tr.
Proof.
  intros Hn Hr. unfold pb_run in Hr. cbn [pacts_run pact_run] in Hr.
  set (q := Pub (pb_subs p) (pb_inside p) (pb_tosub p) (pb_tounsub p) false (pb_cap p) (pb_epoch p) (pb_ptr p) (pb_h p) (pb_calls p)).
  rewrite (pseq_ret _ _ p q []) in Hr by done. cbn [app] in Hr.
  destruct (pacts_run (pb_notify handle (S n)) acts q) as [[p2 t2] r2] eqn:E2. injection Hr as <- <- <-.
  by destruct (off_acts n acts Hn q p2 t2 r2 eq_refl E2).
Qed.
Lemma switched_on n e p p' tr r : handlers quiet handle ->
  pb_run handle (S n) [PEnable true; PNotify e] p = (p', tr, r) ->
  r = Ret tt /\ received (pb_calls p) tr = (fun x => (x, e)) <$> pb_subs p.
Proof.
  intros Hh Hr. unfold pb_run in Hr. cbn [pacts_run pact_run] in Hr.
  set (q := Pub (pb_subs p) (pb_inside p) (pb_tosub p) (pb_tounsub p) true (pb_cap p) (pb_epoch p) (pb_ptr p) (pb_h p) (pb_calls p)).
  rewrite (pseq_ret _ _ p q []) in Hr by done. cbn [app] in Hr.
  destruct (notify_calls_everybody handle n e q Hh eq_refl) as (q' & body & E1 & Hin & Hrec & _ & _).
  rewrite (pseq_ret _ _ q q' _ E1) in Hr. unfold pstep in Hr. injection Hr as <- <- <-. split; [done|].
  rewrite app_nil_r. change (OBegin (pb_calls p) e :: body ++ [OEnd (pb_calls p)]) with ([OBegin (pb_calls p) e] ++ body ++ [OEnd (pb_calls p)]).
  rewrite !received_app. cbn in Hrec |- *. rewrite Hrec. by rewrite app_nil_r.
Qed.

(** C34: subscribers and their pointers *)
Lemma notify_inside n e p p' tr : pb_notify handle n e p = (p', tr, Ret tt) -> pb_inside p = false -> pb_inside p' = false.
Proof.
  destruct n as [|n]; intros Hr Hi; [done|]. cbn [pb_notify] in Hr. destruct (pb_enabled p); [|by injection Hr as <- <-].
  unfold pseq at 1 in Hr. unfold pstep at 1 in Hr. unfold pseq in Hr.
  match type of Hr with context [pb_loop ?a ?b ?c ?d ?f ?g ?i] => destruct (pb_loop a b c d f g i) as [[p2 t2] r2] eqn:E2 end.
  destruct r2 as [[]| | |]; try done. injection Hr as <- <-. done.
Qed.

Record paired p (l : list sid) : Prop := {
  pa_subs : pb_subs p = l; pa_inside : pb_inside p = false; pa_tosub : pb_tosub p = []; pa_tounsub : pb_tounsub p = [];
  pa_nodup : NoDup l; pa_ptr : forall x, x ∈ l <-> x ∈ pb_ptr p }.

Lemma without_keep x y l : y ∈ l -> y <> x -> y ∈ without x l.
Proof. intros. by apply elem_not_without. Qed.

Lemma paired_act n a p p' l tr r : handlers steady handle -> by_subscriber a -> paired p l ->
  pact_run (pb_notify handle n) a p = (p', tr, r) -> r = Fuel \/ r = Ret tt /\ paired p' (member_step l a).
Proof.
  intros Hh Ha [P1 P2 P3 P4 P5 P6] Hr. destruct a as [x|x|b|e| |x|x]; try done; cbn [pact_run member_step] in *.
  - injection Hr as <- <- <-. right. split; [done|]. by split.
  - destruct (notify_nested handle n Hh e p p' tr r P3 P4 Hr) as [->|(-> & [] & _)]; [by left|]. right. split; [done|].
    split; try done; [congruence| |].
    + by eapply notify_inside.
    + intros y. rewrite sl_ptr. apply P6.
  - unfold sb_subscribe in Hr. destruct (bool_decide (x ∈ pb_ptr p)) eqn:Hd.
    + apply bool_decide_eq_true in Hd. cbn in Hr. rewrite P2 in Hr. cbn in Hr. rewrite ?P2 in Hr.
      injection Hr as <- <- <-. right. split; [done|]. 
      assert (Hw : pb_subs (pb_erase x p) = without x l) by (cbn; by rewrite erase_without, P1).
      cbn in Hw. split; cbn; [by rewrite Hw|done|done|done| |].
      * apply NoDup_app. split; [by apply without_NoDup|]. split; [|apply NoDup_singleton].
        intros y Hy ->%elem_of_list_singleton. by apply without_gone in Hy.
      * intros y. rewrite elem_of_app, elem_of_list_singleton, elem_of_union, elem_of_singleton, <- P6.
        split; [intros [?%without_sub| ->]; tauto|]. intros [->|Hy]; [by right|].
        destruct (decide (y = x)); [by right|]. left. by apply without_keep.
    + apply bool_decide_eq_false in Hd. cbn in Hr. rewrite ?P2 in Hr.
      injection Hr as <- <- <-. right. split; [done|].
      assert (x ∉ l) by by rewrite P6.
      split; cbn; [by rewrite P1, without_not_in|done|done|done| |].
      * rewrite without_not_in by done. apply NoDup_app. split; [done|]. split; [|apply NoDup_singleton].
        by intros y Hy ->%elem_of_list_singleton.
      * intros y. rewrite without_not_in by done. rewrite elem_of_app, elem_of_list_singleton, elem_of_union, elem_of_singleton, <- P6. tauto.
  - unfold sb_unsubscribe in Hr. destruct (bool_decide (x ∈ pb_ptr p)) eqn:Hd.
    + apply bool_decide_eq_true in Hd. cbn in Hr. rewrite ?P2 in Hr. cbn in Hr.
      injection Hr as <- <- <-. right. split; [done|].
      assert (Hw : pb_subs (pb_erase x p) = without x l) by (cbn; by rewrite erase_without, P1).
      cbn in Hw. split; cbn; [done|done|done|done|by apply without_NoDup|].
      intros y. rewrite elem_of_difference, elem_of_singleton, <- P6.
      split; [intros Hy; split; [by eapply without_sub|intros ->; by apply without_gone in Hy]|].
      intros [??]. by apply without_keep.
    + apply bool_decide_eq_false in Hd. injection Hr as <- <- <-. right. split; [done|].
      rewrite without_not_in by by rewrite P6. by split.
Qed.
Lemma paired_acts n acts : handlers steady handle -> Forall by_subscriber acts -> forall p p' l tr r, paired p l ->
  pb_run handle n acts p = (p', tr, r) -> r = Fuel \/ r = Ret tt /\ paired p' (foldl member_step l acts).
Proof.
  unfold pb_run. intros Hh. induction acts as [|a acts IH]; intros Hf p p' l tr r Hp Hr; cbn [pacts_run] in Hr.
  - injection Hr as <- <- <-. by right.
  - inversion Hf as [|? ? Ha Hf']; subst. unfold pseq in Hr.
    destruct (pact_run (pb_notify handle n) a p) as [[p1 t1] r1] eqn:E1.
    destruct (paired_act n a p p1 l t1 r1 Hh Ha Hp E1) as [->|[-> Hp1]]; [injection Hr as <- <- <-; by left|].
    destruct (pacts_run (pb_notify handle n) acts p1) as [[p2 t2] r2] eqn:E2. injection Hr as <- <- <-.
    by apply (IH Hf' p1 p2 _ t2 r2).
Qed.
Lemma subscribers_point n cap h acts p' tr r : handlers steady handle -> Forall by_subscriber acts ->
  pb_run handle n acts (pub_new cap h) = (p', tr, r) ->
  r = Fuel \/ r = Ret tt /\ pb_subs p' = foldl member_step [] acts /\ pb_inside p' = false /\ NoDup (pb_subs p') /\
    forall x, x ∈ pb_subs p' <-> x ∈ pb_ptr p'.
Proof.
  intros Hh Hf Hr. destruct (paired_acts n acts Hh Hf (pub_new cap h) p' [] tr r) as [->|[-> []]]; [|done|by left|].
  - split; try done; [apply NoDup_nil_2|]. intros x. cbn. set_solver.
  - right. split; [done|]. split; [done|]. split; [done|]. by rewrite pa_subs0.
Qed.

(** C33: reallocation *)
Lemma idle_loop nfy k e is p : (forall h u, handle h u e = (h, [])) -> Forall (fun i => i < length (pb_subs p)) is ->
  exists tr, pb_loop handle nfy k (pb_epoch p) e is p = (p, tr, Ret tt).
Proof.
  intros Hh Hf. induction is as [|i is IH]; cbn [pb_loop]; [by eexists|].
  inversion Hf as [|? ? Hi Hf']; subst. rewrite Nat.eqb_refl. destruct (lookup_lt_is_Some_2 _ _ Hi) as [x ->].
  rewrite Hh. destruct (IH Hf') as [tr Htr].
  rewrite (pseq_ret _ _ p p [ODeliver k x e]) by (unfold pstep; by destruct p). cbn [pacts_run].
  rewrite (pseq_ret _ _ p p []) by done. rewrite Htr. by eexists.
Qed.

Lemma push_epoch_le xs q : pb_epoch q <= pb_epoch (foldl (fun q x => pb_push x q) q xs).
Proof.
  revert q. induction xs as [|x xs IH]; intros q; [done|]. cbn [foldl]. etransitivity; [|apply IH].
  cbn. destruct (Nat.leb _ _); lia.
Qed.
Lemma erase_epoch xs q : pb_epoch (foldl (fun q x => pb_erase x q) q xs) = pb_epoch q.
Proof. revert q. induction xs as [|x xs IH]; intros q; [done|]. cbn [foldl]. by rewrite IH. Qed.

Lemma notify_idle_full n e p z : (forall h u, handle h u e = (h, [])) -> pb_enabled p = true ->
  z ∈ pb_tosub p -> pb_cap p <= length (pb_subs p) ->
  exists p' tr, pb_notify handle (S n) e p = (p', tr, Ret tt) /\ pb_epoch p < pb_epoch p'.
Proof.
  intros Hh He Hz Hc. cbn [pb_notify]. rewrite He.
  set (q := Pub (pb_subs p) true (pb_tosub p) (pb_tounsub p) (pb_enabled p) (pb_cap p) (pb_epoch p) (pb_ptr p) (pb_h p) (S (pb_calls p))).
  rewrite (pseq_ret _ _ p q [OBegin (pb_calls p) e]) by done.
  destruct (idle_loop (pb_notify handle n) (pb_calls p) e (seq 0 (length (pb_subs q))) q Hh) as [tr Htr].
  { apply Forall_forall. by intros i [_ Hi]%elem_of_seq. }
  rewrite (pseq_ret _ _ q q tr) by done. eexists _, _. split; [reflexivity|].
  unfold pb_settle. cbn [pb_epoch]. rewrite erase_epoch. cbn [pb_epoch].
  change (pb_tosub q) with (pb_tosub p). destruct (pb_tosub p) as [|y ys]; [by apply elem_of_nil in Hz|].
  cbn [foldl]. eapply Nat.lt_le_trans; [|apply push_epoch_le]. cbn.
  by rewrite (proj2 (Nat.leb_le _ _) Hc); lia.
Qed.

Lemma pseq_ub (m1 m2 : pcall H E) p p1 t1 : m1 p = (p1, t1, UB) -> pseq m1 m2 p = (p1, t1, UB).
Proof. unfold pseq. by intros ->. Qed.
Lemma reallocation n e e' x y rest z p h : pb_enabled p = true -> pb_subs p = x :: y :: rest ->
  pb_cap p <= length (pb_subs p) ->
  handle (pb_h p) x e = (h, [PSub z; PNotify e']) -> (forall h u, handle h u e' = (h, [])) ->
  exists p' tr, pb_notify handle (S (S n)) e p = (p', tr, UB).
Proof.
  intros He Hs Hc Hx Hh. cbn [pb_notify]. fold (pb_notify handle (S n)). rewrite He.
  set (q := Pub (pb_subs p) true (pb_tosub p) (pb_tounsub p) (pb_enabled p) (pb_cap p) (pb_epoch p) (pb_ptr p) (pb_h p) (S (pb_calls p))).
  rewrite (pseq_ret _ _ p q [OBegin (pb_calls p) e]) by done.
  set (p2 := Pub (pb_subs p) true (pb_tosub p) (pb_tounsub p) (pb_enabled p) (pb_cap p) (pb_epoch p) (pb_ptr p) h (S (pb_calls p))).
  set (p3 := Pub (pb_subs p) true (pb_tosub p ++ [z]) (pb_tounsub p) (pb_enabled p) (pb_cap p) (pb_epoch p) (pb_ptr p) h (S (pb_calls p))).
  destruct (notify_idle_full n e' p3 z Hh He) as (p4 & tr4 & E4 & Hlt); [cbn; set_solver|done|].
  set (nfy := pb_notify handle (S n)) in *.
  assert (Hl : exists p' tr, pb_loop handle nfy (pb_calls p) (pb_epoch q) e (seq 0 (length (pb_subs q))) q = (p', tr, UB)).
  { change (pb_subs q) with (pb_subs p) at 1. rewrite Hs. cbn [length seq pb_loop]. rewrite Nat.eqb_refl. change (pb_subs q) with (pb_subs p). rewrite Hs. cbn [lookup list_lookup].
    change (pb_h q) with (pb_h p). rewrite Hx. cbn beta iota.
    rewrite (pseq_ret _ _ q p2 [ODeliver (pb_calls p) x e]) by done.
    assert (E5 : pacts_run nfy [PSub z; PNotify e'] p2 = (p4, [OAskSub z] ++ tr4 ++ [], Ret tt)).
    { cbn [pacts_run pact_run]. rewrite (pseq_ret _ _ p2 p3 [OAskSub z]) by done. by rewrite (pseq_ret _ _ p3 p4 tr4 E4). }
    rewrite (pseq_ret _ _ p2 p4 _ E5).
    rewrite (proj2 (Nat.eqb_neq _ _)) by (change (pb_epoch q) with (pb_epoch p3); lia). eauto. }
  destruct Hl as (p' & tr & Hl). exists p', (OBegin (pb_calls p) e :: tr). 
  match goal with |- context [pseq ?m1 ?m2 q] => rewrite (pseq_ub m1 m2 q p' tr Hl) end. done.
Qed.
End thms.
