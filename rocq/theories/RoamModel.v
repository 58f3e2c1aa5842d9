(** Model of one subscriber in a program with several graphs: GraphEventSubscriber::subscribe and unsubscribe together with the
    publisher side of every graph (/repo/src/events/GraphEventSubscriber.cpp, /repo/src/events/GraphEventPublisher.cpp).
    Executable definitions only. *)
From stdpp Require Import prelude strings gmap.
From Verif Require Import Outcome ItemClass Digraph Bfs TreeView GraphModel ItemsModel.

Section roam.
Context {E : Type} (einv : E -> E).

(* The graphs of the program; the graphs whose member [enabled] is false; how often the subscriber is in the vector
   [subscribers] of each graph; its member pPublisher.  /repo/src/events/GraphEventPublisher.hpp:51, 97,
   GraphEventSubscriber.hpp:55.  Simplified: the other subscribers are left out and this one only records the events, so
   [insideNotify] is false whenever the program calls. *)
Record roam := Roam { ro_w : world E; ro_off : gset nat; ro_subs : gmap nat nat; ro_at : option nat }.

(* The program before it constructs its first graph; pPublisher is null: /repo/src/events/GraphEventSubscriber.cpp:39-41. *)
Definition roam_new : roam := Roam (World ∅ ∅) ∅ ∅ None.

(* What the program does: a step on its graphs, subscribe and unsubscribe of the subscriber
   (/repo/src/events/GraphEventSubscriber.hpp:48, 50), subscribe, unsubscribe and enableEvents of a graph
   (/repo/src/events/GraphEventPublisher.hpp:63-68). *)
Inductive rop :=
| RStep (op : wop E)
| RSub (g : nat) (publish : bool)
| RUnsub
| RPubSub (g : nat) (publish : bool)
| RPubUnsub (g : nat) (unpublish : bool)
| REnable (g : nat) (b : bool).

(* Entries of the subscriber in the vector of a graph, /repo/src/events/GraphEventPublisher.hpp:51. *)
Definition ro_count (s : roam) (g : nat) : nat := default 0 (ro_subs s !! g).
Definition ro_set (s : roam) (g n : nat) : roam := Roam (ro_w s) (ro_off s) (<[g := n]> (ro_subs s)) (ro_at s).
(* The graph at an address with the item objects; see [world]. *)
Definition ro_graph (s : roam) (g : nat) : outcome (est E) :=
  match w_graphs (ro_w s) !! g with Some G => Ret (ESt G (w_heap (ro_w s))) | None => UB end.

(* GraphEventPublisher::notify for every event of a call: each entry of the vector gets it, unless events are switched off.
   /repo/src/events/GraphEventPublisher.cpp:76-84. *)
Definition ro_notify (s : roam) (g : nat) (ev : list event) : list event :=
  if bool_decide (g ∈ ro_off s) then [] else concat ((fun e => replicate (ro_count s g) e) <$> ev).
(* notifySubscriber for every event of publishCurrentState and unpublishCurrentState.
   /repo/src/events/GraphEventPublisher.cpp:105-110. *)
Definition ro_tell (s : roam) (g : nat) (ev : list event) : list event :=
  if bool_decide (g ∈ ro_off s) then [] else ev.

(* GraphEventPublisher::subscribe, /repo/src/events/GraphEventPublisher.cpp:47-57; publishCurrentState is EnvireGraph's. *)
Definition ro_subscribe (io : iorder) (g : nat) (publish : bool) : call roam unit := fun s =>
  match ro_graph s g with
  | Ret G =>
      let '(ev, r) := if publish then eg_publish io G else ([], Ret tt) in
      match r with
      | Ret _ => (ro_set s g (S (ro_count s g)), ro_tell s g ev, Ret tt)
      | _ => (s, ro_tell s g ev, r)
      end
  | _ => (s, [], UB)
  end.

(* GraphEventPublisher::unsubscribe, /repo/src/events/GraphEventPublisher.cpp:59-74, and unsubscribeInternal (122-129), which
   erases one entry if there is any. *)
Definition ro_unsubscribe (io : iorder) (g : nat) (unpublish : bool) : call roam unit := fun s =>
  match ro_graph s g with
  | Ret G =>
      let '(ev, r) := if unpublish then eg_unpublish io G else ([], Ret tt) in
      match r with
      | Ret _ => (ro_set s g (pred (ro_count s g)), ro_tell s g ev, Ret tt)
      | _ => (s, ro_tell s g ev, r)
      end
  | _ => (s, [], UB)
  end.

(* Assignment of pPublisher, /repo/src/events/GraphEventSubscriber.cpp:50, 59. *)
Definition ro_set_at (x : option nat) : call roam unit := cmodify (fun s => Roam (ro_w s) (ro_off s) (ro_subs s) x).

(* GraphEventSubscriber::subscribe, /repo/src/events/GraphEventSubscriber.cpp:43-52. *)
Definition sub_subscribe (io : iorder) (g : nat) (publish : bool) : call roam unit := fun s =>
  (match ro_at s with Some g0 => ro_unsubscribe io g0 publish | None => cret tt end ;;;
   ro_set_at (Some g) ;;; ro_subscribe io g publish) s.

(* GraphEventSubscriber::unsubscribe, /repo/src/events/GraphEventSubscriber.cpp:54-61. *)
Definition sub_unsubscribe (io : iorder) : call roam unit := fun s =>
  match ro_at s with
  | Some g0 => (ro_unsubscribe io g0 false ;;; ro_set_at None) s
  | None => (s, [], Ret tt)
  end.

(* One step; the events are those the subscriber gets.  Client code of the headers named at [rop]. *)
Definition rstep (ord : viewid -> order) (io : iorder) (op : rop) : call roam unit := fun s =>
  match op with
  | RStep op =>
      let '(w, ev, r) := wstep einv ord io op (ro_w s) in
      let g := match op with WNew g | WCall g _ | WCopy _ g | WFilterCopy _ _ _ g => g end in
      (Roam w (ro_off s) (ro_subs s) (ro_at s), ro_notify s g ev, r)
  | RSub g b => sub_subscribe io g b s
  | RUnsub => sub_unsubscribe io s
  | RPubSub g b => ro_subscribe io g b s
  | RPubUnsub g b => ro_unsubscribe io g b s
  | REnable g b => (Roam (ro_w s) (if b then ro_off s ∖ {[g]} else {[g]} ∪ ro_off s) (ro_subs s) (ro_at s), [], Ret tt)
  end.

(* A program; exceptions are caught, undefined behaviour ends it.  Same client code. *)
Fixpoint rrun (h : list ((viewid -> order) * iorder * rop)) : call roam unit := fun s =>
  match h with
  | [] => (s, [], Ret tt)
  | (ord, io, op) :: h' =>
      let '(s1, ev1, r1) := rstep ord io op s in
      match r1 with
      | Ret _ | Throw _ => let '(s2, ev2, r2) := rrun h' s1 in (s2, ev1 ++ ev2, r2)
      | _ => (s1, ev1, r1)
      end
  end.

End roam.
Global Arguments roam : clear implicits.
Global Arguments rop : clear implicits.
