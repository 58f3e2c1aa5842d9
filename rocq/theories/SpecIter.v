(** Vocabulary for iterators over items. *)
From stdpp Require Import prelude strings gmap.
From Verif Require Import Outcome ItemClass Digraph TreeView GraphModel GraphOps ItemsModel SpecItems.

(** An event that tells of an item of type [T] put into or taken out of frame [f]; [s] knows the types. *)
Definition item_event_of {E} (s : est E) (f : frameid) (T : tyid) (e : event) : Prop :=
  exists i x, (e = EvItemAdded f i \/ e = EvItemRemoved f i) /\ deref s i = Ret x /\ it_type x = T.

(** No call passes item->getFrame() itself to the removal by iterator. *)
Definition no_alias {E} (h : list ((viewid -> order) * iorder * eop E)) : Prop :=
  Forall (fun c => match c.2 with ERemoveItemIt _ alias _ _ _ => alias = false | _ => True end) h.

(** What is left if the items [removed] are taken out of the list of type [T] of frame [f]: that list is [rest], all
    other lists are as before, the removed items name no frame, all other items are untouched, and so is the graph. *)
Definition erased {E} (s s' : est E) (f : frameid) (T : iclass) (removed rest : list iptr) : Prop :=
  items_in s' f T = rest /\ (forall f' T', (f', T') <> (f, T) -> items_in s' f' T' = items_in s f' T') /\
  (forall i x, i ∈ removed -> deref s i = Ret x -> deref s' i = Ret (ItemV (it_class x) "")) /\
  (forall j, j ∉ removed -> deref s' j = deref s j) /\ same_graph s s'.
