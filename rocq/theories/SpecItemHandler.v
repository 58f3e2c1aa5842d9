(** Vocabulary for event handlers that run inside the item functions of a graph. *)
From stdpp Require Import prelude strings gmap.
From Verif Require Import Outcome ItemClass Digraph TreeView GraphModel ItemsModel SpecItems.

Section spec.
Context {E : Type}.
Implicit Types s : est E.

(** A call that ended with one event, followed by what the handlers do about this event; other calls are left alone. *)
Definition then_handled (h : event -> call (est E) unit) (x : est E * list event * outcome unit) : est E * list event * outcome unit :=
  match x with
  | (s1, [e], Ret _) => let '(s2, ev, r) := h e s1 in (s2, e :: ev, r)
  | _ => x
  end.

(** All items of a vertex, in some order. *)
Definition holds s (v : vid) (l : list iptr) : Prop := exists m, items_at s v = Ret m /\ concat (map_to_list m).*2 ≡ₚ l.

(** [I] survives what the graph does to the items of the vertex between two notifications. *)
Definition kept (I : est E -> Prop) (v : vid) : Prop :=
  forall s, I s -> (forall m, I (write_items v m s).1.1) /\ (forall i f, I (set_item_frame i f s).1.1).

(** Told about [e] in a state with [I] while [later] are the items of the vertex, the handlers may do and throw anything as long as
    they keep [I] and do not write the items of the vertex. *)
Definition respects (h : event -> call (est E) unit) (touched : event -> est E -> gset vid) (I : est E -> Prop) (v : vid) (e : event)
    (later : list iptr) : Prop :=
  forall s m, I s -> items_at s v = Ret m -> holds s v later ->
    v ∉ touched e s /\ items_at (h e s).1.1 v = Ret m /\ I (h e s).1.1 /\ (h e s).2 <> UB /\ (h e s).2 <> Fuel.

(** The events of a loop over items, each followed by the events of the handlers. *)
Fixpoint interleaved (f : frameid) (l : list iptr) (evs : list (list event)) : list event :=
  match l, evs with
  | i :: l, ev :: evs => EvItemRemoved f i :: ev ++ interleaved f l evs
  | _, _ => []
  end.

End spec.
