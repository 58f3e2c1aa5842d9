(** Properties of event delivery: C31-C34. *)
From stdpp Require Import prelude gmap.
From Verif Require Import Outcome PublisherModel SpecPublish PublishThms PublishThms2 ExPublish.

(** ** C31: every subscriber gets every event once, in order *)
(* From any state of the publisher: the subscribers are called once each, in order, whatever handlers request. *)
Theorem C31_notify_calls_everybody_once {H E : Type} (handle : H -> sid -> E -> H * list (pact E)) n e (p : pub H) :
  handlers quiet handle -> pb_enabled p = true ->
  exists p' body, pb_notify handle (S n) e p = (p', OBegin (pb_calls p) e :: body ++ [OEnd (pb_calls p)], Ret tt) /\
    Forall inner body /\ received (pb_calls p) body = (fun x => (x, e)) <$> pb_subs p /\
    (forall j x e', ODeliver j x e' ∈ body -> j = pb_calls p) /\ pb_inside p' = false.
Proof. exact (fun Hh He => notify_calls_everybody handle n e p Hh He). Qed.
Print Assumptions C31_notify_calls_everybody_once.

Theorem C31_disabled_delivers_nothing {H E : Type} (handle : H -> sid -> E -> H * list (pact E)) n e (p : pub H) :
  pb_enabled p = false -> pb_notify handle (S n) e p = (p, [], Ret tt).
Proof. exact (notify_disabled handle n e p). Qed.
Print Assumptions C31_disabled_delivers_nothing.

(* Whole histories from a new publisher: the receivers of every event are those subscribed by the requests before
   it, in order of subscription. *)
Theorem C31_histories_served {H E : Type} (handle : H -> sid -> E -> H * list (pact E)) n cap h acts p' tr r :
  handlers quiet handle -> pb_run handle (S n) acts (pub_new cap h) = (p', tr, r) -> tidy [] [] false tr ->
  (r = Ret tt \/ r = Throw XRuntime /\ PThrow ∈ acts) /\ served [] tr (pb_subs p').
Proof. exact (history_served handle n cap h acts p' tr r). Qed.
Print Assumptions C31_histories_served.

(* Switching events off and on, from any state and with any handlers. *)
Theorem C31_switched_off {H E : Type} (handle : H -> sid -> E -> H * list (pact E)) n acts (p p' : pub H) tr r :
  PEnable true ∉ acts -> pb_run handle (S n) (PEnable false :: acts) p = (p', tr, r) -> Forall (fun o => request o) tr.
Proof. exact (switched_off handle n acts p p' tr r). Qed.
Print Assumptions C31_switched_off.

Theorem C31_switched_on {H E : Type} (handle : H -> sid -> E -> H * list (pact E)) n e (p p' : pub H) tr r :
  handlers quiet handle -> pb_run handle (S n) [PEnable true; PNotify e] p = (p', tr, r) ->
  r = Ret tt /\ received (pb_calls p) tr = (fun x => (x, e)) <$> pb_subs p.
Proof. exact (switched_on handle n e p p' tr r). Qed.
Print Assumptions C31_switched_on.

Example C31_case_switched : let '(p, _, _) := prun busy 10 [PSub 1; PSub 2] in
  let '(p', tr, r) := pb_run (script busy) 5 [PEnable false; PNotify 0; PSub 3; PUnsub 1; PNotify 7] p in
  r = Ret tt /\ tr = [OAskSub 3; OAskUnsub 1] /\ pb_subs p' = [2; 3] /\
  let '(_, tr', _) := pb_run (script busy) 5 [PEnable true; PNotify 7] p' in received (pb_calls p') tr' = [(2, 7); (3, 7)].
Proof. by vm_compute. Qed.

Example C31_case : let '(p, tr, r) := prun busy 1 [PSub 1; PSub 2; PSub 3; PNotify 0; PNotify 7; PEnable false; PNotify 8] in
  handlers quiet (script busy) /\ r = Ret tt /\ tidy [] [] false tr /\
  received 0 tr = [(1, 0); (2, 0); (3, 0)] /\ received 1 tr = [(1, 7); (4, 7)] /\ pb_calls p = 2 /\ pb_subs p = [1; 4].
Proof.
  run_it. split; [exact busy_quiet|]. split; [done|]. split.
  - vm_compute. repeat split; intros Hc; repeat (apply elem_of_cons in Hc as [Hc|Hc]; [done|]); by apply elem_of_nil in Hc.
  - by vm_compute.
Qed.

(** ** C32: subscriptions changed inside a handler take effect after the event *)
(* One event on a publisher without pending requests, every request to unsubscribe about a subscriber: the list
   afterwards is that of making the requests after the event.  Missing: pending requests of earlier events
   (C32_subscribe_again_refuted) and requests about non-subscribers (C32_same_event_refuted). *)
Theorem C32_requests_take_effect_partial {H E : Type} (handle : H -> sid -> E -> H * list (pact E)) n e (p p' : pub H) tr :
  handlers quiet handle -> pb_enabled p = true -> pb_tosub p = [] -> pb_tounsub p = [] ->
  pb_notify handle (S n) e p = (p', tr, Ret tt) -> found (pb_subs p) tr -> pb_subs p' = after_requests (pb_subs p) tr.
Proof. exact (notify_requests handle n e p p' tr). Qed.
Print Assumptions C32_requests_take_effect_partial.

Example C32_case : let '(p, _, _) := prun busy 1 [PSub 1; PSub 2; PSub 3] in
  let '(p', tr, r) := pb_notify (script busy) 3 0 p in
  r = Ret tt /\ pb_enabled p = true /\ pb_tosub p = [] /\ pb_tounsub p = [] /\ found (pb_subs p) tr /\
  pb_subs p = [1; 2; 3] /\ pb_subs p' = [1; 4].
Proof. run_it. vm_compute. repeat split; repeat constructor. Qed.

(* Whole histories in which nobody subscribes again after having been unsubscribed inside a handler ([tidy]):
   every request takes effect as if made right after the event.  Missing: the other histories, see below. *)
Theorem C32_histories_partial {H E : Type} (handle : H -> sid -> E -> H * list (pact E)) n cap h acts p' tr r :
  handlers quiet handle -> pb_run handle (S n) acts (pub_new cap h) = (p', tr, r) -> tidy [] [] false tr ->
  served [] tr (pb_subs p').
Proof. exact (fun Hh Hr Ht => proj2 (history_served handle n cap h acts p' tr r Hh Hr Ht)). Qed.
Print Assumptions C32_histories_partial.

(* The full claim is false: whoever was unsubscribed inside a handler and subscribes again later is dropped after
   the next event, without any request, and the same happens ever after. *)
Theorem C32_subscribe_again_refuted {H E : Type} (handle : H -> sid -> E -> H * list (pact E)) n e x (p p1 p2 : pub H) (t1 tr : list (pobs E)) :
  handlers quiet handle -> pb_enabled p = true -> pb_inside p = false -> pb_tosub p = [] ->
  x ∈ pb_tounsub p -> x ∉ pb_subs p ->
  pb_subscribe (E := E) x p = (p1, t1, Ret tt) -> pb_notify handle (S n) e p1 = (p2, tr, Ret tt) -> OAskSub x ∉ tr ->
  ODeliver (pb_calls p) x e ∈ tr /\ x ∉ pb_subs p2 /\ x ∈ pb_tounsub p2.
Proof. exact (resubscribed_dropped handle n e x p p1 p2 t1 tr). Qed.
Print Assumptions C32_subscribe_again_refuted.

Theorem C32_histories_refuted : exists (handle : unit -> sid -> nat -> unit * list (pact nat)) acts p tr,
  handlers quiet handle /\ pb_run handle 5 acts (pub_new 100 tt) = (p, tr, Ret tt) /\
  received 0 tr = [(1, 0); (5, 0)] /\ received 1 tr = [(1, 7); (5, 7)] /\ received 2 tr = [(1, 8)] /\
  after_requests [] tr = [1; 5].
Proof.
  exists (script late), [PSub 1; PSub 5; PNotify 0; PSub 5; PNotify 7; PNotify 8]. eexists _, _.
  split; [exact late_quiet|]. split; [by vm_compute|]. by vm_compute.
Qed.
Print Assumptions C32_histories_refuted.

(* Within one event the order of requests counts only for subscribers: unsubscribing and then subscribing somebody
   who was no subscriber leaves them out. *)
Theorem C32_same_event_refuted : exists (handle : unit -> sid -> nat -> unit * list (pact nat)) p p' tr,
  handlers quiet handle /\ pb_enabled p = true /\ pb_tosub p = [] /\ pb_tounsub p = [] /\ pb_subs p = [1] /\
  pb_notify handle 5 0 p = (p', tr, Ret tt) /\ after_requests [1] tr = [1; 5] /\ pb_subs p' = [1].
Proof.
  exists (script twice), (prun twice 10 [PSub 1]).1.1. eexists _, _. split; [exact twice_quiet|].
  do 4 (split; [by vm_compute|]). split; [by vm_compute|]. by vm_compute.
Qed.
Print Assumptions C32_same_event_refuted.

(** ** C33: graph changes from inside a handler are safe *)
(* Handlers that cause nested events but no subscription changes: no undefined behaviour, and every notification,
   nested or not, calls each subscriber once in order.  Missing: handlers that also change subscriptions. *)
Theorem C33_nested_events_partial {H E : Type} (handle : H -> sid -> E -> H * list (pact E)) n e (p p' : pub H) tr r :
  handlers steady handle -> pb_tosub p = [] -> pb_tounsub p = [] -> pb_notify handle n e p = (p', tr, r) ->
  r = Fuel \/
  r = Ret tt /\ pb_subs p' = pb_subs p /\ pb_tosub p' = [] /\ pb_tounsub p' = [] /\
  forall k e', OBegin k e' ∈ tr -> received k tr = (fun x => (x, e')) <$> pb_subs p.
Proof. exact (fun Hh => nested_events handle n e p p' tr r Hh). Qed.
Print Assumptions C33_nested_events_partial.

Example C33_case : let '(p, _, _) := prun chain 10 [PSub 1; PSub 2; PSub 3] in
  let '(p', tr, r) := pb_notify (script chain) 4 0 p in
  handlers steady (script chain) /\ pb_tosub p = [] /\ pb_tounsub p = [] /\ r = Ret tt /\ pb_calls p' = 3 /\
  received 0 tr = [(1, 0); (2, 0); (3, 0)] /\ received 1 tr = [(1, 1); (2, 1); (3, 1)] /\ received 2 tr = [(1, 2); (2, 2); (3, 2)].
Proof. run_it. split; [exact chain_steady|]. by vm_compute. Qed.

(* The full claim is false: the nested notification carries out the pending requests while the outer loop runs. *)
Theorem C33_undefined_behaviour_refuted : exists (handle : unit -> sid -> nat -> unit * list (pact nat)) acts p p' tr t1,
  pb_run handle 5 acts (pub_new 100 tt) = (p, t1, Ret tt) /\ pb_subs p = [1; 2; 3] /\ pb_notify handle 5 0 p = (p', tr, UB).
Proof.
  exists (script nest_unsub), [PSub 1; PSub 2; PSub 3]. eexists _, _, _, _. split; [by vm_compute|]. by vm_compute.
Qed.
Print Assumptions C33_undefined_behaviour_refuted.

Theorem C33_missed_event_refuted : exists (handle : unit -> sid -> nat -> unit * list (pact nat)) acts p p' tr t1,
  pb_run handle 5 acts (pub_new 100 tt) = (p, t1, Ret tt) /\ pb_subs p = [1; 2; 3] /\
  pb_notify handle 5 0 p = (p', tr, Ret tt) /\ received 0 tr = [(1, 0); (2, 0); (4, 0)] /\ pb_subs p' = [2; 3; 4].
Proof.
  exists (script nest_swap), [PSub 1; PSub 2; PSub 3]. eexists _, _, _, _. split; [by vm_compute|]. split; [by vm_compute|].
  split; [by vm_compute|]. by vm_compute.
Qed.
Print Assumptions C33_missed_event_refuted.

(* For every publisher whose vector is full and whose first subscriber, on an event, adds a subscriber and changes
   the graph: the vector is reallocated while the outer loop runs, and the loop goes on in freed memory. *)
Theorem C33_reallocation_refuted {H E : Type} (handle : H -> sid -> E -> H * list (pact E)) n e e' x y rest z (p : pub H) h :
  pb_enabled p = true -> pb_subs p = x :: y :: rest -> pb_cap p <= length (pb_subs p) ->
  handle (pb_h p) x e = (h, [PSub z; PNotify e']) -> (forall h u, handle h u e' = (h, [])) ->
  exists p' tr, pb_notify handle (S (S n)) e p = (p', tr, UB).
Proof. exact (reallocation handle n e e' x y rest z p h). Qed.
Print Assumptions C33_reallocation_refuted.

Example C33_case_reallocation : let '(p, _, _) := prun nest_sub 2 [PSub 1; PSub 2] in
  pb_enabled p = true /\ pb_subs p = [1; 2] /\ pb_cap p <= length (pb_subs p) /\
  script nest_sub (pb_h p) 1 0 = (tt, [PSub 9; PNotify 1]) /\ (forall h u, script nest_sub h u 1 = (h, [])) /\
  (pb_notify (script nest_sub) 5 0 p).2 = UB /\
  let '(q, _, _) := prun nest_sub 3 [PSub 1; PSub 2] in (pb_notify (script nest_sub) 5 0 q).2 = Ret tt.
Proof.
  run_it. split; [done|]. split; [done|]. split; [cbn; lia|]. split; [done|]. split; [|by vm_compute].
  intros h u. unfold script, nest_sub. by repeat case_match.
Qed.

(** ** C34: destroying a publisher unsubscribes everybody *)
(* Subscribers without a pointer to the publisher (subscribed by calling the publisher, not the subscriber): all
   are removed.  Missing: subscribers that point to the publisher, see below. *)
Theorem C34_destroy_partial {H E : Type} fuel (p : pub H) :
  (forall x, x ∈ pb_subs p -> x ∉ pb_ptr p) -> length (pb_subs p) <= fuel ->
  exists p', pb_destroy (E := E) fuel p = (p', [], Ret tt) /\ pb_subs p' = [] /\ pb_ptr p' = pb_ptr p.
Proof. exact (destroy_ptr_free fuel p). Qed.
Print Assumptions C34_destroy_partial.

Example C34_case_plain : let '(p, _, _) := prun busy 10 [PSub 1; SSub 2; PSub 3; SUnsub 2] in
  pb_subs p = [1; 3] /\ (forall x, x ∈ pb_subs p -> x ∉ pb_ptr p).
Proof. run_it. split; [done|]. intros x _ Hx. apply (bool_decide_pack _) in Hx. by vm_compute in Hx. Qed.

(* The full claim is false for every non-empty list of distinct subscribers that point to the publisher: an odd
   number gives undefined behaviour (pop_back on an empty vector), an even number leaves every second subscriber,
   the first one included, with a pointer to the destroyed publisher. *)
Theorem C34_destroy_refuted {H E : Type} fuel (p : pub H) : pb_inside p = false -> NoDup (pb_subs p) ->
  (forall x, x ∈ pb_subs p -> x ∈ pb_ptr p) -> length (pb_subs p) <= fuel ->
  exists p' tr r, pb_destroy (E := E) fuel p = (p', tr, r) /\
    (Nat.odd (length (pb_subs p)) = true -> r = UB) /\
    (Nat.odd (length (pb_subs p)) = false -> r = Ret tt /\ pb_subs p' = [] /\
       (forall x, x ∉ pb_subs p -> x ∈ pb_ptr p' <-> x ∈ pb_ptr p) /\
       forall i x, pb_subs p !! i = Some x -> x ∈ pb_ptr p' <-> Nat.even i = true).
Proof. exact (fun Hi Hn Hp => destroy_pairs (length (pb_subs p)) (pb_subs p) p fuel eq_refl Hi eq_refl Hn Hp). Qed.
Print Assumptions C34_destroy_refuted.

(* Where the hypotheses come from: if everybody subscribes and unsubscribes by calling the subscriber, nobody is
   subscribed twice, the subscribers are exactly those that point to the publisher, and they stand in order of
   their last subscription; so destroying a publisher with any subscriber left goes wrong as above. *)
Theorem C34_subscribers_point {H E : Type} (handle : H -> sid -> E -> H * list (pact E)) n cap h acts (p' : pub H) tr r :
  handlers steady handle -> Forall by_subscriber acts -> pb_run handle n acts (pub_new cap h) = (p', tr, r) ->
  r = Fuel \/
  r = Ret tt /\ pb_subs p' = foldl member_step [] acts /\ pb_inside p' = false /\ NoDup (pb_subs p') /\
  forall x, x ∈ pb_subs p' <-> x ∈ pb_ptr p'.
Proof. exact (subscribers_point handle n cap h acts p' tr r). Qed.
Print Assumptions C34_subscribers_point.

Example C34_case_point : let '(p, _, r) := prun chain 10 [SSub 1; SSub 2; PNotify 0; SSub 3; SSub 1; SUnsub 2; SUnsub 7] in
  handlers steady (script chain) /\ r = Ret tt /\ pb_subs p = [3; 1].
Proof. run_it. split; [exact chain_steady|]. by vm_compute. Qed.

Example C34_case : let '(p, _, _) := prun busy 10 [SSub 1; SSub 2; SSub 3; SSub 4] in
  pb_inside p = false /\ NoDup (pb_subs p) /\ (forall x, x ∈ pb_subs p -> x ∈ pb_ptr p) /\ pb_subs p = [1; 2; 3; 4] /\
  let '(p', _, r) := pb_destroy (E := nat) 4 p in r = Ret tt /\ pb_ptr p' = {[1; 3]}.
Proof.
  run_it. split; [done|]. split; [apply (bool_decide_unpack _); by vm_compute|].
  split; [apply Forall_forall; apply (bool_decide_unpack _); by vm_compute|]. split; [done|].
  split; [by vm_compute|]. apply (bool_decide_unpack _). by vm_compute.
Qed.
