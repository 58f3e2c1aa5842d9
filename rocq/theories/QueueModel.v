(** Model of GraphEventQueue (/repo/src/events/GraphEventQueue.cpp).  Executable definitions only. *)
From stdpp Require Import prelude strings.
From Verif Require Import Outcome.

(* EdgeEvent::operator==, /repo/src/events/EdgeEvents.hpp:66-70. *)
Definition same_edge (o t o' t' : frameid) : bool :=
  (String.eqb o o' && String.eqb t t') || (String.eqb o t' && String.eqb t o').

(* EdgeEvent::mergeable, /repo/src/events/EdgeEvents.hpp:40-54, FrameEvent::mergeable, FrameEvents.hpp:39-48, and
   GraphEvent::mergeable for item events, GraphEvent.hpp:57-61.  [old] is the event in the queue. *)
Definition mergeable (old new : event) : bool :=
  match old, new with
  | EvEdgeModified o t _ _, EvEdgeModified o' t' _ _ => same_edge o t o' t'
  | EvEdgeAdded o t _, EvEdgeRemoved o' t' => same_edge o t o' t'
  | EvEdgeModified o t _ _, EvEdgeRemoved o' t' => same_edge o t o' t'
  | EvEdgeRemoved o t, EvEdgeRemoved o' t' => same_edge o t o' t'
  | EvFrameAdded f, EvFrameRemoved f' => String.eqb f f'
  | _, _ => false
  end.

(* The condition under which a merged event is not published, /repo/src/events/GraphEventQueue.cpp:54-57. *)
Definition cancels (old new : event) : bool :=
  match old, new with
  | EvEdgeAdded _ _ _, EvEdgeRemoved _ _ => true
  | EvFrameAdded _, EvFrameRemoved _ => true
  | EvItemAdded _ _, EvItemRemoved _ _ => true
  | _, _ => false
  end.

(* The loop of GraphEventQueue::notifyGraphEvent, /repo/src/events/GraphEventQueue.cpp:46-68: the flag skip_event and the
   remaining queue. *)
Fixpoint q_scan (new : event) (q : list event) : bool * list event :=
  match q with
  | [] => (false, [])
  | old :: q =>
      let '(skip, q') := q_scan new q in
      if mergeable old new then (cancels old new || skip, q') else (skip, old :: q')
  end.

(* GraphEventQueue::notifyGraphEvent, /repo/src/events/GraphEventQueue.cpp:44-74; every event class defines clone, so
   the call does not throw. *)
Definition q_notify (q : list event) (new : event) : list event :=
  let '(skip, q') := q_scan new q in if skip then q' else q' ++ [new].

(* Events received one after the other, beginning with an empty queue (as constructed or as flush leaves it).
   /repo/src/events/GraphEventQueue.cpp:31-33, 44-74. *)
Definition q_receive (evs : list event) : list event := foldl q_notify [] evs.

(* GraphEventQueue::flush, /repo/src/events/GraphEventQueue.cpp:76-88, with a [process] that itself receives further
   events: [react h e] gives the new state of the receiver and the events that arrive while [e] is processed.  Queue
   elements carry a number, since the iterator points to an element: it is undefined behaviour to erase an element
   that notifyGraphEvent has erased meanwhile.  [n] numbers the elements; [fuel] bounds the number of rounds. *)
Section flush.
Context {H : Type} (react : H -> event -> H * list event).

(* Same loop as [q_scan] on numbered elements, /repo/src/events/GraphEventQueue.cpp:46-68. *)
Fixpoint nq_scan (new : event) (q : list (nat * event)) : bool * list (nat * event) :=
  match q with
  | [] => (false, [])
  | old :: q =>
      let '(skip, q') := nq_scan new q in
      if mergeable old.2 new then (cancels old.2 new || skip, q') else (skip, old :: q')
  end.
(* notifyGraphEvent on numbered elements, /repo/src/events/GraphEventQueue.cpp:44-74. *)
Definition nq_notify (nq : nat * list (nat * event)) (new : event) : nat * list (nat * event) :=
  let '(skip, q') := nq_scan new nq.2 in if skip then (nq.1, q') else (S nq.1, q' ++ [(nq.1, new)]).

(* flush, see above: final state of the receiver, processed events, remaining queue, outcome. *)
Fixpoint nq_flush (fuel : nat) (h : H) (nq : nat * list (nat * event)) : H * list event * (nat * list (nat * event)) * outcome unit :=
  match fuel with
  | O => (h, [], nq, Fuel)
  | S fuel =>
      match nq.2 with
      | [] => (h, [], nq, Ret tt)
      | (id, e) :: _ =>
          let '(h1, evs) := react h e in
          let '(n1, q1) := foldl nq_notify nq evs in
          if existsb (fun x => Nat.eqb x.1 id) q1 then
            let '(h2, done, nq2, r) := nq_flush fuel h1 (n1, filter (fun x => x.1 <> id) q1) in
            (h2, e :: done, nq2, r)
          else (h1, [e], (n1, q1), UB)
      end
  end.
End flush.
(* Numbers for the elements of a queue, see nq_flush. *)
Definition nq_of (q : list event) : nat * list (nat * event) := (length q, zip (seq 0 (length q)) q).
