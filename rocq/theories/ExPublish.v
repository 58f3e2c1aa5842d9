(** Concrete handlers used by the examples beside the theorems about event delivery. *)
From stdpp Require Import prelude gmap.
From Verif Require Import Outcome PublisherModel SpecPublish.

(* Example of notifyGraphEvent (/repo/src/events/GraphEventSubscriber.hpp:52): what a subscriber does is read off a
   table; the handlers have no state. *)
Definition script (f : sid -> nat -> list (pact nat)) : unit -> sid -> nat -> unit * list (pact nat) :=
  fun h x e => (h, f x e).

(* Same example: on event 0, subscriber 2 unsubscribes subscriber 3 and itself and subscribes 4. *)
Definition busy : sid -> nat -> list (pact nat) := fun x e =>
  match x, e with 2, 0 => [PUnsub 3; PUnsub 2; PSub 4] | _, _ => [] end.

(* Same example: on event 0, subscriber 1 unsubscribes 5. *)
Definition late : sid -> nat -> list (pact nat) := fun x e =>
  match x, e with 1, 0 => [PUnsub 5] | _, _ => [] end.

(* Same example: on event 0, subscriber 1 unsubscribes 5 and subscribes it again. *)
Definition twice : sid -> nat -> list (pact nat) := fun x e =>
  match x, e with 1, 0 => [PUnsub 5; PSub 5] | _, _ => [] end.

(* Same example: on event 0, subscriber 1 unsubscribes 3 and changes the graph, which gives event 1. *)
Definition nest_unsub : sid -> nat -> list (pact nat) := fun x e =>
  match x, e with 1, 0 => [PUnsub 3; PNotify 1] | _, _ => [] end.

(* Same example: on event 0, subscriber 1 subscribes 9 and changes the graph. *)
Definition nest_sub : sid -> nat -> list (pact nat) := fun x e =>
  match x, e with 1, 0 => [PSub 9; PNotify 1] | _, _ => [] end.

(* Same example: on event 0, subscriber 2 unsubscribes 1, subscribes 4 and changes the graph. *)
Definition nest_swap : sid -> nat -> list (pact nat) := fun x e =>
  match x, e with 2, 0 => [PUnsub 1; PSub 4; PNotify 1] | _, _ => [] end.

(* Same example: subscriber 2 answers event 0 with event 1 and event 1 with event 2. *)
Definition chain : sid -> nat -> list (pact nat) := fun x e =>
  match x, e with 2, 0 => [PNotify 1] | 2, 1 => [PNotify 2] | _, _ => [] end.

Lemma busy_quiet : handlers quiet (script busy).
Proof. intros h x e. unfold script, busy. cbn. repeat case_match; repeat constructor. Qed.
Lemma late_quiet : handlers quiet (script late).
Proof. intros h x e. unfold script, late. cbn. repeat case_match; repeat constructor. Qed.
Lemma twice_quiet : handlers quiet (script twice).
Proof. intros h x e. unfold script, twice. cbn. repeat case_match; repeat constructor. Qed.
Lemma chain_steady : handlers steady (script chain).
Proof. intros h x e. unfold script, chain. cbn. repeat case_match; repeat constructor. Qed.

(* Same example: the state and trace after a client program that subscribes the given ones, with room for [cap]. *)
Definition prun (f : sid -> nat -> list (pact nat)) (cap : nat) (acts : list (pact nat)) :
    pub unit * list (pobs nat) * outcome unit :=
  pb_run (script f) 5 acts (pub_new cap tt).

(* Replaces calls by their results. *)
Ltac run_it :=
  repeat match goal with
  | |- context [prun ?f ?c ?a] =>
    let v := eval vm_compute in (prun f c a) in replace (prun f c a) with v by (by vm_compute); cbn beta iota
  | |- context [pb_notify ?f ?n ?e ?p] =>
    let v := eval vm_compute in (pb_notify f n e p) in replace (pb_notify f n e p) with v by (by vm_compute); cbn beta iota
  | |- context [pb_destroy (E := ?E) ?n ?p] =>
    let v := eval vm_compute in (pb_destroy (E := E) n p) in replace (pb_destroy (E := E) n p) with v by (by vm_compute); cbn beta iota
  end.
