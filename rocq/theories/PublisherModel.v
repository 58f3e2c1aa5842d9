(** Model of GraphEventPublisher and GraphEventSubscriber (/repo/src/events/GraphEventPublisher.cpp,
    /repo/src/events/GraphEventSubscriber.cpp) with re-entrant handlers.  Executable definitions only. *)
From stdpp Require Import prelude gmap.
From Verif Require Import Outcome.

(* Address of a GraphEventSubscriber, /repo/src/events/GraphEventPublisher.hpp:51. *)
Definition sid := nat.

(* What a handler (notifyGraphEvent of some subscriber) or a client may do to one publisher:
   call the public functions subscribe/unsubscribe/enableEvents (/repo/src/events/GraphEventPublisher.hpp:62-68),
   cause an event (protected notify, called by every mutator of the graph), throw, or call subscribe/unsubscribe
   of a subscriber (/repo/src/events/GraphEventSubscriber.hpp:47-50). *)
Inductive pact (E : Type) :=
| PSub (x : sid)
| PUnsub (x : sid)
| PEnable (b : bool)
| PNotify (e : E)
| PThrow
| SSub (x : sid)
| SUnsub (x : sid).
Global Arguments PSub {_} _.
Global Arguments PUnsub {_} _.
Global Arguments PEnable {_} _.
Global Arguments PNotify {_} _.
Global Arguments PThrow {_}.
Global Arguments SSub {_} _.
Global Arguments SUnsub {_} _.

(* What can be observed: the n-th notify begins or ends, it calls a subscriber, the publisher is asked to
   subscribe or unsubscribe.  Observation of /repo/src/events/GraphEventPublisher.cpp:47-103. *)
Inductive pobs (E : Type) :=
| OBegin (k : nat) (e : E)
| ODeliver (k : nat) (x : sid) (e : E)
| OEnd (k : nat)
| OAskSub (x : sid)
| OAskUnsub (x : sid).
Global Arguments OBegin {_} _ _.
Global Arguments ODeliver {_} _ _ _.
Global Arguments OEnd {_} _.
Global Arguments OAskSub {_} _.
Global Arguments OAskUnsub {_} _.

Section publisher.
(* [H] is the state of all handlers together and [handle] what the handler of a subscriber does with an event;
   [E] are the events.  /repo/src/events/GraphEventSubscriber.hpp:52. *)
Context {H E : Type} (handle : H -> sid -> E -> H * list (pact E)).

(* Data members of GraphEventPublisher; capacity of the vector [subscribers] and the number of its
   reallocations; the set of subscribers whose pPublisher points here; state of the handlers and number of
   notify calls so far.  /repo/src/events/GraphEventPublisher.hpp:50-59, 97; GraphEventSubscriber.hpp:55. *)
Record pub := Pub {
  pb_subs : list sid;
  pb_inside : bool;
  pb_tosub : list sid;
  pb_tounsub : list sid;
  pb_enabled : bool;
  pb_cap : nat;
  pb_epoch : nat;
  pb_ptr : gset sid;
  pb_h : H;
  pb_calls : nat }.

(* GraphEventPublisher::GraphEventPublisher, /repo/src/events/GraphEventPublisher.cpp:42-45 (the capacity is 10000
   there and a parameter here). *)
Definition pub_new (cap : nat) (h : H) : pub := Pub [] false [] [] true cap 0 ∅ h 0.

(* Calls on the publisher: new state, observations, outcome.  /repo/src/events/GraphEventPublisher.cpp:47-129. *)
Definition pcall := pub -> pub * list (pobs E) * outcome unit.
(* Sequential composition of calls; an exception or undefined behaviour ends the sequence. *)
Definition pseq (m1 m2 : pcall) : pcall := fun s =>
  match m1 s with
  | (s1, t1, Ret _) => match m2 s1 with (s2, t2, r) => (s2, t1 ++ t2, r) end
  | r => r
  end.
(* A call that changes the state and observes something, no function of the source. *)
Definition pstep (f : pub -> pub) (t : list (pobs E)) : pcall := fun s => (f s, t, Ret tt).

(* std::vector::push_back on [subscribers]: reallocation when the capacity is exhausted.
   /repo/src/events/GraphEventPublisher.cpp:56, 92. *)
Definition pb_push (x : sid) (p : pub) : pub :=
  let full := Nat.leb (pb_cap p) (length (pb_subs p)) in
  Pub (pb_subs p ++ [x]) (pb_inside p) (pb_tosub p) (pb_tounsub p) (pb_enabled p)
      (if full then S (2 * pb_cap p) else pb_cap p) (if full then S (pb_epoch p) else pb_epoch p)
      (pb_ptr p) (pb_h p) (pb_calls p).

(* std::find and erase of the first occurrence, nothing if absent.
   GraphEventPublisher::unsubscribeInternal, /repo/src/events/GraphEventPublisher.cpp:122-129. *)
Definition pb_erase (x : sid) (p : pub) : pub :=
  Pub (match list_find (fun y => y = x) (pb_subs p) with Some (i, _) => delete i (pb_subs p) | None => pb_subs p end)
      (pb_inside p) (pb_tosub p) (pb_tounsub p) (pb_enabled p) (pb_cap p) (pb_epoch p) (pb_ptr p) (pb_h p) (pb_calls p).

(* GraphEventPublisher::subscribe, /repo/src/events/GraphEventPublisher.cpp:47-57 (publishCurrentState is modelled in
   GraphModel). *)
Definition pb_subscribe (x : sid) : pcall :=
  pstep (fun p =>
    if pb_inside p then
      Pub (pb_subs p) (pb_inside p) (pb_tosub p ++ [x]) (pb_tounsub p) (pb_enabled p) (pb_cap p) (pb_epoch p)
          (pb_ptr p) (pb_h p) (pb_calls p)
    else pb_push x p) [OAskSub x].

(* GraphEventPublisher::unsubscribe, /repo/src/events/GraphEventPublisher.cpp:59-74. *)
Definition pb_unsubscribe (x : sid) : pcall :=
  pstep (fun p =>
    if pb_inside p then
      Pub (pb_subs p) (pb_inside p) (pb_tosub p) (pb_tounsub p ++ [x]) (pb_enabled p) (pb_cap p) (pb_epoch p)
          (pb_ptr p) (pb_h p) (pb_calls p)
    else pb_erase x p) [OAskUnsub x].

(* GraphEventPublisher::enableEvents, /repo/src/events/GraphEventPublisher.hpp:66-68. *)
Definition pb_enable (b : bool) : pcall :=
  pstep (fun p => Pub (pb_subs p) (pb_inside p) (pb_tosub p) (pb_tounsub p) b (pb_cap p) (pb_epoch p)
                      (pb_ptr p) (pb_h p) (pb_calls p)) [].

(* Assignment of the member pPublisher of a subscriber, /repo/src/events/GraphEventSubscriber.cpp:50, 59. *)
Definition pb_set_ptr (f : gset sid -> gset sid) : pcall :=
  pstep (fun p => Pub (pb_subs p) (pb_inside p) (pb_tosub p) (pb_tounsub p) (pb_enabled p) (pb_cap p) (pb_epoch p)
                      (f (pb_ptr p)) (pb_h p) (pb_calls p)) [].

(* GraphEventSubscriber::subscribe(this publisher), /repo/src/events/GraphEventSubscriber.cpp:43-52; a subscriber of
   another publisher is not modelled. *)
Definition sb_subscribe (x : sid) : pcall := fun p =>
  pseq (if bool_decide (x ∈ pb_ptr p) then pb_unsubscribe x else pstep id [])
       (pseq (pb_set_ptr (fun q => {[x]} ∪ q)) (pb_subscribe x)) p.

(* GraphEventSubscriber::unsubscribe, /repo/src/events/GraphEventSubscriber.cpp:54-61. *)
Definition sb_unsubscribe (x : sid) : pcall := fun p =>
  if bool_decide (x ∈ pb_ptr p) then pseq (pb_unsubscribe x) (pb_set_ptr (fun q => q ∖ {[x]})) p
  else (p, [], Ret tt).

(* One action of a handler or client; [nfy] is the function notify, see there.
   /repo/src/events/GraphEventPublisher.hpp:62-72, GraphEventSubscriber.hpp:47-50. *)
Definition pact_run (nfy : E -> pcall) (a : pact E) : pcall :=
  match a with
  | PSub x => pb_subscribe x
  | PUnsub x => pb_unsubscribe x
  | PEnable b => pb_enable b
  | PNotify e => nfy e
  | PThrow => fun p => (p, [], Throw XRuntime)
  | SSub x => sb_subscribe x
  | SUnsub x => sb_unsubscribe x
  end.

(* The actions of one handler call or client, in order.  Same lines. *)
Fixpoint pacts_run (nfy : E -> pcall) (l : list (pact E)) : pcall :=
  match l with
  | [] => pstep id []
  | a :: l => pseq (pact_run nfy a) (pacts_run nfy l)
  end.

(* The range-for loop of notify.  begin() and end() are taken once, so the loop reads the elements with the
   indices [is] = 0, 1, ..., size-1 of the size at the beginning; reading an index that no longer exists, or
   after a reallocation, is undefined.  /repo/src/events/GraphEventPublisher.cpp:81-84. *)
Fixpoint pb_loop (nfy : E -> pcall) (k epoch : nat) (e : E) (is : list nat) : pcall :=
  match is with
  | [] => pstep id []
  | i :: is => fun p =>
      if Nat.eqb (pb_epoch p) epoch then
        match pb_subs p !! i with
        | None => (p, [], UB)
        | Some x =>
            let '(h, l) := handle (pb_h p) x e in
            pseq (pstep (fun p => Pub (pb_subs p) (pb_inside p) (pb_tosub p) (pb_tounsub p) (pb_enabled p) (pb_cap p)
                                      (pb_epoch p) (pb_ptr p) h (pb_calls p)) [ODeliver k x e])
              (pseq (pacts_run nfy l) (pb_loop nfy k epoch e is)) p
        end
      else (p, [], UB)
  end.

(* The part of notify after the loop: subscriptions, then toBeSubscribed.clear(), then unsubscriptions (the list
   toBeUnsubscribed is not cleared), insideNotify = false.  /repo/src/events/GraphEventPublisher.cpp:90-101. *)
Definition pb_settle (p : pub) : pub :=
  let p1 := foldl (fun q x => pb_push x q) p (pb_tosub p) in
  let p2 := Pub (pb_subs p1) (pb_inside p1) [] (pb_tounsub p1) (pb_enabled p1) (pb_cap p1) (pb_epoch p1)
                (pb_ptr p1) (pb_h p1) (pb_calls p1) in
  let p3 := foldl (fun q x => pb_erase x q) p2 (pb_tounsub p2) in
  Pub (pb_subs p3) false (pb_tosub p3) (pb_tounsub p3) (pb_enabled p3) (pb_cap p3) (pb_epoch p3)
      (pb_ptr p3) (pb_h p3) (pb_calls p3).

(* GraphEventPublisher::notify, /repo/src/events/GraphEventPublisher.cpp:76-103; [fuel] bounds the depth of nested
   notifications. *)
Fixpoint pb_notify (fuel : nat) (e : E) : pcall := fun p =>
  match fuel with
  | O => (p, [], Fuel)
  | S n =>
      if pb_enabled p then
        let k := pb_calls p in
        pseq (pstep (fun p => Pub (pb_subs p) true (pb_tosub p) (pb_tounsub p) (pb_enabled p) (pb_cap p) (pb_epoch p)
                                  (pb_ptr p) (pb_h p) (S (pb_calls p))) [OBegin k e])
          (pseq (fun p => pb_loop (pb_notify n) k (pb_epoch p) e (seq 0 (length (pb_subs p))) p)
                (pstep pb_settle [OEnd k])) p
      else (p, [], Ret tt)
  end.

(* A client program: a sequence of actions on the publisher.  /repo/src/events/GraphEventPublisher.hpp:62-72. *)
Definition pb_run (fuel : nat) (l : list (pact E)) : pcall := pacts_run (pb_notify fuel) l.

(* One round of the loop of the destructor: back()->unsubscribe() and pop_back(), which is undefined on an empty
   vector.  /repo/src/events/GraphEventPublisher.cpp:117-118. *)
Definition pb_destroy_round (x : sid) : pcall :=
  pseq (sb_unsubscribe x) (fun p =>
    match pb_subs p with
    | [] => (p, [], UB)
    | _ :: _ => (Pub (removelast (pb_subs p)) (pb_inside p) (pb_tosub p) (pb_tounsub p) (pb_enabled p) (pb_cap p)
                    (pb_epoch p) (pb_ptr p) (pb_h p) (pb_calls p), [], Ret tt)
    end).

(* GraphEventPublisher::~GraphEventPublisher, /repo/src/events/GraphEventPublisher.cpp:112-120; every round removes at
   least one element, so the number of subscribers is enough fuel. *)
Fixpoint pb_destroy (fuel : nat) : pcall := fun p =>
  match last (pb_subs p) with
  | None => (p, [], Ret tt)
  | Some x =>
      match fuel with
      | O => (p, [], Fuel)
      | S n => pseq (pb_destroy_round x) (pb_destroy n) p
      end
  end.

End publisher.
Global Arguments pub _ : clear implicits.
Global Arguments pcall _ _ : clear implicits.
