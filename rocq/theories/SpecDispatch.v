(** Vocabulary for the properties of dispatchers. *)
From stdpp Require Import prelude strings.
From Verif Require Import Outcome ItemClass DispatcherModel.

(** How often a frame occurs in a list of names and how often its addition occurs in a stream. *)
Definition occurrences (f : frameid) (fs : list frameid) : nat := length (filter (fun x => x = f) fs).
Definition additions (f : frameid) (evs : list event) : nat := length (filter (fun x => x = EvFrameAdded f) evs).

(** Every awaited entry has got its own addition event. *)
Definition all_arrived (fs : list frameid) (evs : list event) : Prop := forall f, occurrences f fs <= additions f evs.

(** Callbacks that make no calls on their dispatcher. *)
Definition quiet {H} (react : H -> nat -> event -> H * list dcall) : Prop := forall h cb ev, (react h cb ev).2 = [].

(** The callbacks a history has registered for a kind of event, in order. *)
Fixpoint registered (k : ekind) (steps : list dstep) : list nat :=
  match steps with
  | [] => []
  | DCall (DAdd k' cb) :: steps => if bool_decide (k' = k) then cb :: registered k steps else registered k steps
  | _ :: steps => registered k steps
  end.

(** A history in which nobody waits for frames, and one that consists of events and registrations only. *)
Definition never_waits (steps : list dstep) : Prop := forall f, DCall (DWait f) ∉ steps.
Definition events_only (steps : list dstep) : Prop := forall b f, DCall (DEnable b) ∉ steps /\ DCall (DWait f) ∉ steps.

(** The event is of the kind. *)
Definition of_kind (k : ekind) (ev : event) : bool :=
  match k, ev with
  | KFrameAdded, EvFrameAdded _ | KFrameRemoved, EvFrameRemoved _ | KItemAdded, EvItemAdded _ _ | KItemRemoved, EvItemRemoved _ _
  | KEdgeAdded, EvEdgeAdded _ _ _ | KEdgeModified, EvEdgeModified _ _ _ _ | KEdgeRemoved, EvEdgeRemoved _ _ => true
  | _, _ => false
  end.

(** Calling for every event the callbacks [cbs k] of its kind. *)
Definition fan_out (cbs : ekind -> list nat) (evs : list event) : list (nat * event) :=
  evs ≫= fun ev => [KFrameAdded; KFrameRemoved; KItemAdded; KItemRemoved; KEdgeAdded; KEdgeModified; KEdgeRemoved] ≫=
    fun k => if of_kind k ev then (fun cb => (cb, ev)) <$> cbs k else [].

(** An event about an item of class [T] or a class derived from it. *)
Definition about_item (cls : iptr -> iclass) (T : iclass) (ev : event) : Prop :=
  match ev with EvItemAdded _ i | EvItemRemoved _ i => is_a (cls i) T | _ => False end.
Global Instance about_item_dec cls T ev : Decision (about_item cls T ev).
Proof. destruct ev; apply _. Defined.
