(** GraphEventDispatcher and GraphItemEventDispatcher. *)
From stdpp Require Import prelude strings.
From Verif Require Import Outcome ItemClass.

(** GraphEvent::Type (/repo/src/events/GraphEvent.hpp:39-48). *)
Inductive ekind := KEdgeAdded | KEdgeModified | KEdgeRemoved | KFrameAdded | KFrameRemoved | KItemAdded | KItemRemoved.
Global Instance ekind_eq_dec : EqDecision ekind.
Proof. solve_decision. Defined.

(** GraphEvent::getType (/repo/src/events/GraphEvent.hpp:66). *)
Definition kind_of (ev : event) : ekind :=
  match ev with
  | EvEdgeAdded _ _ _ => KEdgeAdded | EvEdgeModified _ _ _ _ => KEdgeModified | EvEdgeRemoved _ _ => KEdgeRemoved
  | EvFrameAdded _ => KFrameAdded | EvFrameRemoved _ => KFrameRemoved
  | EvItemAdded _ _ => KItemAdded | EvItemRemoved _ _ => KItemRemoved
  end.

(** Members of GraphEventDispatcher (/repo/src/events/GraphEventDispatcher.hpp:105-116); the seven callback lists are one function.
    [d_waiting] is [None] while isWaitingForFrame is uninitialised.  A callback is a number. *)
Record dispatcher := Disp { d_enabled : bool; d_waiting : option bool; d_frames : list frameid; d_cbs : ekind -> list nat }.

(** Constructor with publisher, /repo/src/events/GraphEventDispatcher.cpp:38-39. *)
Definition disp_new : dispatcher := Disp true (Some false) [] (fun _ => []).
(** Default constructor, /repo/src/events/GraphEventDispatcher.cpp:41-42: does not initialise isWaitingForFrame. *)
Definition disp_default : dispatcher := Disp true None [] (fun _ => []).

(** enable, /repo/src/events/GraphEventDispatcher.hpp:66-68. *)
Definition disp_enable (b : bool) (d : dispatcher) : dispatcher := Disp b (d_waiting d) (d_frames d) (d_cbs d).
(** waitForFrame, /repo/src/events/GraphEventDispatcher.cpp:100-105. *)
Definition disp_wait (f : frameid) (d : dispatcher) : dispatcher :=
  let d := disp_enable false d in Disp (d_enabled d) (Some true) (d_frames d ++ [f]) (d_cbs d).
(** add...EventCallback, /repo/src/events/GraphEventDispatcher.cpp:107-127. *)
Definition disp_add (k : ekind) (cb : nat) (d : dispatcher) : dispatcher :=
  Disp (d_enabled d) (d_waiting d) (d_frames d) (fun k' => if bool_decide (k' = k) then d_cbs d k' ++ [cb] else d_cbs d k').

(** The loop of checkWaitingForFrames, /repo/src/events/GraphEventDispatcher.cpp:169-174: erases the first entry that matches. *)
Fixpoint erase_first (f : frameid) (l : list frameid) : list frameid :=
  match l with [] => [] | x :: l => if bool_decide (x = f) then l else x :: erase_first f l end.
(** checkWaitingForFrames, /repo/src/events/GraphEventDispatcher.cpp:166-182. *)
Definition check_waiting (f : frameid) (d : dispatcher) : dispatcher * bool :=
  let fs := erase_first f (d_frames d) in
  if bool_decide (length fs = 0) then (Disp (d_enabled d) (Some false) fs (d_cbs d), true)
  else (Disp (d_enabled d) (d_waiting d) fs (d_cbs d), false).

(** Public calls a callback may make on its dispatcher (/repo/src/events/GraphEventDispatcher.hpp:66-93). *)
Inductive dcall := DEnable (b : bool) | DWait (f : frameid) | DAdd (k : ekind) (cb : nat).
(** Effect of such a call, /repo/src/events/GraphEventDispatcher.hpp:66-93. *)
Definition disp_call (d : dispatcher) (c : dcall) : dispatcher :=
  match c with DEnable b => disp_enable b d | DWait f => disp_wait f d | DAdd k cb => disp_add k cb d end.

Section dispatch.
  (** Callbacks with some state [H]: what one does when it is called with an event; the calls it makes on the dispatcher.
      A callback that changes the graph and so causes nested events is part of the publisher model. *)
  Context {H : Type} (react : H -> nat -> event -> H * list dcall).

  (** edgeAdded ... itemRemoved, /repo/src/events/GraphEventDispatcher.cpp:130-164: range-for over a std::list to which callbacks may
      append; [i] is the position of the iterator. *)
  Fixpoint call_back (fuel : nat) (ev : event) (i : nat) (h : H) (d : dispatcher) : H * dispatcher * list (nat * event) * outcome unit :=
    match fuel with
    | 0 => (h, d, [], Fuel)
    | S fuel =>
        match d_cbs d (kind_of ev) !! i with
        | None => (h, d, [], Ret tt)
        | Some cb =>
            let '(h, calls) := react h cb ev in
            let '(h, d, tr, r) := call_back fuel ev (S i) h (foldl disp_call d calls) in
            (h, d, (cb, ev) :: tr, r)
        end
    end.

  (** notifyGraphEvent, /repo/src/events/GraphEventDispatcher.cpp:44-98. *)
  Definition disp_notify (fuel : nat) (ev : event) (h : H) (d : dispatcher) : H * dispatcher * list (nat * event) * outcome unit :=
    if d_enabled d then call_back fuel ev 0 h d
    else match d_waiting d with
         | None => (h, d, [], UB)
         | Some true =>
             match ev with
             | EvFrameAdded f => let '(d, done) := check_waiting f d in (h, if done then disp_enable true d else d, [], Ret tt)
             | _ => (h, d, [], Ret tt)
             end
         | Some false => (h, d, [], Ret tt)
         end.

  (** A history of public calls and events, as the user of /repo/src/events/GraphEventDispatcher.hpp:59-93 makes them. *)
  Inductive dstep := DCall (c : dcall) | DEvent (ev : event).
  (** Runs the history (/repo/src/events/GraphEventDispatcher.hpp:59-93). *)
  Fixpoint disp_run (fuel : nat) (steps : list dstep) (h : H) (d : dispatcher) : H * dispatcher * list (nat * event) * outcome unit :=
    match steps with
    | [] => (h, d, [], Ret tt)
    | DCall c :: steps => disp_run fuel steps h (disp_call d c)
    | DEvent ev :: steps =>
        let '(h, d, tr, r) := disp_notify fuel ev h d in
        match r with
        | Ret _ => let '(h, d, tr', r) := disp_run fuel steps h d in (h, d, tr ++ tr', r)
        | _ => (h, d, tr, r)
        end
    end.
End dispatch.

(** GraphItemEventDispatcher<T>::notifyGraphEvent, /repo/src/events/GraphItemEventDispatcher.hpp:60-86: calls of itemAdded and itemRemoved.
    [cls] gives the class of an item.  The flag says whether the pointer passed on, boost::dynamic_pointer_cast<T>, is not null. *)
Definition item_notify (cls : iptr -> iclass) (T : iclass) (ev : event) : list (event * bool) :=
  match ev with
  | EvItemAdded _ i | EvItemRemoved _ i => if bool_decide (type_index (cls i) = T) then [(ev, is_a (cls i) T)] else []
  | _ => []
  end.
(** All calls for a stream of events, /repo/src/events/GraphItemEventDispatcher.hpp:60-86. *)
Definition item_run (cls : iptr -> iclass) (T : iclass) (evs : list event) : list (event * bool) := evs ≫= item_notify cls T.
