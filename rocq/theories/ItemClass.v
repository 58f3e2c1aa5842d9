(** C++ classes of items and the type they report. *)
From stdpp Require Import prelude countable.

(** Dynamic class of an item object: [CItem d] is Item<D> (/repo/src/items/Item.hpp:46-47), [CDerived n d] the [n]-th class that
    derives from Item<D> without overriding getTypeInfo; [CDerived 0 d] is SpatialItem<D> (/repo/src/items/SpatialItem.hpp:42-43).
    Embedded data types are numbers. *)
Inductive iclass := CItem (d : nat) | CDerived (n d : nat).

Global Instance iclass_eq_dec : EqDecision iclass.
Proof. solve_decision. Defined.
Global Instance iclass_countable : Countable iclass.
Proof.
  refine (inj_countable' (fun c => match c with CItem d => inl d | CDerived n d => inr (n, d) end)
    (fun s => match s with inl d => CItem d | inr (n, d) => CDerived n d end) _). by intros [].
Defined.

(** Item::getTypeInfo (/repo/src/items/Item.hpp:200-203) through ItemBase::getTypeIndex (/repo/src/items/ItemBase.hpp:120-123): typeid of
    Item<D>; the derived classes in /repo/src do not override it.  A std::type_index is the class itself. *)
Definition type_index (c : iclass) : iclass := match c with CItem d | CDerived _ d => CItem d end.

(** The class is [T] or derives from it: what boost::dynamic_pointer_cast<T> (/repo/src/items/ItemBase.hpp:190-194) checks. *)
Definition is_a (c T : iclass) : bool := bool_decide (c = T) || bool_decide (type_index c = T).
