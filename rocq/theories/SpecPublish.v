(** Specification of event delivery, in terms of what can be observed from outside. *)
From stdpp Require Import prelude gmap.
From Verif Require Import Outcome PublisherModel.

(** The list without the first occurrence of [x]. *)
Fixpoint without (x : sid) (l : list sid) : list sid :=
  match l with
  | [] => []
  | y :: l => if decide (y = x) then l else y :: without x l
  end.

Section spec.
Context {E : Type}.
Implicit Types (tr : list (pobs E)) (l : list sid).

(** Effect of a request on the list of subscribers. *)
Definition after_request (l : list sid) (o : pobs E) : list sid :=
  match o with OAskSub x => l ++ [x] | OAskUnsub x => without x l | _ => l end.
(** All requests of a trace, in order. *)
Definition after_requests l tr : list sid := foldl after_request l tr.

(** Calls of subscribers made by the [k]-th notification, in order. *)
Definition received (k : nat) tr : list (sid * E) :=
  omap (fun o => match o with ODeliver j x e => if decide (j = k) then Some (x, e) else None | _ => None end) tr.

(** [o] is neither the beginning nor the end of a notification. *)
Definition inner (o : pobs E) : Prop := match o with OBegin _ _ | OEnd _ => False | _ => True end.

(** Beginning with subscribers [l], every notification calls each subscriber once, in order of subscription and
    nobody else; requests count from the next event on, in the order in which they were made. *)
Inductive served : list sid -> list (pobs E) -> list sid -> Prop :=
| served_nil l : served l [] l
| served_request l o tr l' : (exists x, o = OAskSub x \/ o = OAskUnsub x) ->
    served (after_request l o) tr l' -> served l (o :: tr) l'
| served_event l k e body tr l' :
    Forall inner body -> received k body = (fun x => (x, e)) <$> l ->
    (forall j x e', ODeliver j x e' ∈ body -> j = k) ->
    served (after_requests l body) tr l' -> served l (OBegin k e :: body ++ OEnd k :: tr) l'.

(** Nobody is subscribed twice at a time ([l]: current subscribers), nobody subscribes again after having been
    unsubscribed inside a handler ([gone]). *)
Fixpoint tidy (l gone : list sid) (inside : bool) (tr : list (pobs E)) : Prop :=
  match tr with
  | [] => True
  | OBegin _ _ :: tr => tidy l gone true tr
  | OEnd _ :: tr => tidy l gone false tr
  | ODeliver _ _ _ :: tr => tidy l gone inside tr
  | OAskSub x :: tr => x ∉ l /\ x ∉ gone /\ tidy (l ++ [x]) gone inside tr
  | OAskUnsub x :: tr => tidy (without x l) (if inside then x :: gone else gone) inside tr
  end.

(** Every request to unsubscribe is about a subscriber at that moment ([l]: current subscribers). *)
Fixpoint found (l : list sid) (tr : list (pobs E)) : Prop :=
  match tr with
  | [] => True
  | OAskUnsub x :: tr => x ∈ l /\ found (without x l) tr
  | o :: tr => found (after_request l o) tr
  end.

(** [o] is a request to subscribe or unsubscribe. *)
Definition request (o : pobs E) : Prop := match o with OAskSub _ | OAskUnsub _ => True | _ => False end.

(** A client of the publisher that subscribes and unsubscribes only by calling the subscribers. *)
Definition by_subscriber (a : pact E) : Prop :=
  match a with SSub _ | SUnsub _ | PEnable _ | PNotify _ => True | PSub _ | PUnsub _ | PThrow => False end.
(** The subscribers after one such action: whoever subscribes comes last. *)
Definition member_step (l : list sid) (a : pact E) : list sid :=
  match a with SSub x => without x l ++ [x] | SUnsub x => without x l | _ => l end.

(** Handlers that neither cause events nor throw. *)
Definition quiet (a : pact E) : Prop := match a with PNotify _ | PThrow => False | _ => True end.
(** Handlers that neither subscribe, unsubscribe nor throw. *)
Definition steady (a : pact E) : Prop := match a with PNotify _ | PEnable _ => True | _ => False end.
(** All handlers keep to [P]. *)
Definition handlers {H} (P : pact E -> Prop) (handle : H -> sid -> E -> H * list (pact E)) : Prop :=
  forall h x e, Forall P (snd (handle h x e)).
End spec.
