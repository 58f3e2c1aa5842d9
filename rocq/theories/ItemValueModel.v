(** Item objects copied, moved, cloned and assigned while a graph holds some of them.  Executable definitions only. *)
From stdpp Require Import prelude strings gmap.
From Verif Require Import Outcome ItemClass Digraph TreeView GraphModel GraphOps ItemsModel MiscModel.

(* What an item object holds beside its class and its frame name (those are in ItemsModel.v): time, uuid and data
   (/repo/src/items/SpatioTemporal.hpp:58-68) and the signal (/repo/src/items/ItemBase.hpp:180).  Times, identifiers and data are numbers; the
   boundary of SpatialItem is left out (MiscModel.v). *)
Record ival := IVal { vl_time : nat; vl_uuid : nat; vl_data : nat; vl_signal : signal }.

Section values.
Context {E : Type} (einv : E -> E).

(* The graph with all item objects, and the rest of the objects.  /repo/src/items/Item.hpp:46-54. *)
Record vst := VSt { vs_est : est E; vs_vals : gmap iptr ival }.

(* What a moved-from string and moved-from data hold: valid but unspecified, so any functions.  /repo/src/items/Item.hpp:82-83, 113-114. *)
Context (mv_frame : frameid -> frameid) (mv_data : nat -> nat).

(* The class has a move constructor and a move assignment: Item does (/repo/src/items/Item.hpp:78-84, 108-116).  A derived class that declares
   its destructor, as SpatialItem (/repo/src/items/SpatialItem.hpp:59), has none, and std::move selects its copy operations.
   Simplification: all derived classes do. *)
Definition moves (c : iclass) : bool := match c with CItem _ => true | CDerived _ _ => false end.

(* Writing an item object: its frame name and the rest.  /repo/src/items/Item.hpp:101-104. *)
Definition put_object (i : iptr) (x : item) (v : ival) (s : vst) : vst :=
  VSt (ESt (es_g (vs_est s)) (<[i := x]> (es_heap (vs_est s)))) (<[i := v]> (vs_vals s)).

(* Reading an object, UB if there is none.  /repo/src/items/Item.hpp:70-76. *)
Definition object (s : vst) (i : iptr) : outcome (item * ival) :=
  match es_heap (vs_est s) !! i, vs_vals s !! i with Some x, Some v => Ret (x, v) | _, _ => UB end.

(* A new object at the unused address [q]; an address in use is UB.  /repo/src/items/Item.hpp:70-94. *)
Definition fresh_at (s : vst) (q : iptr) : outcome unit :=
  match es_heap (vs_est s) !! q with Some _ => UB | None => Ret tt end.

(* The source after its members were moved from: time and uuid have no move operations of their own and keep their values, the signal is not
   touched (/repo/src/items/ItemBase.cpp:41-43, 50-53).  /repo/src/items/Item.hpp:80-83, 111-114. *)
Definition leave_behind (p : iptr) (x : item) (v : ival) (s : vst) : vst :=
  if moves (it_class x)
  then put_object p (ItemV (it_class x) (mv_frame (it_frame x))) (IVal (vl_time v) (vl_uuid v) (mv_data (vl_data v)) (vl_signal v)) s
  else s.

(* Calls of a program: calls of the graph; the constructors, clone and assignments of items; changes of an item.
   /repo/src/items/Item.hpp:58-116, 118-166, /repo/src/items/ItemBase.hpp:156-167. *)
Inductive vop :=
| VCall (ord : viewid -> order) (io : iorder) (op : eop E)
| VCopy (p q : iptr) | VClone (p q : iptr) | VMove (p q : iptr) | VAssign (p q : iptr) | VMoveAssign (p q : iptr)
| VSet (p : iptr) (t u d : nat) | VSignal (p : iptr) (c : scall).

(* The objects after a call of the graph: constructors give new items a value of their own (here 0 for time, uuid and data,
   /repo/src/items/Item.hpp:58-62; VSet gives others); no call of the graph reads or writes the values of the others
   (/repo/src/graph/EnvireGraph.cpp:113-157, 216-273). *)
Definition vals_after (op : eop E) (s : vst) : gmap iptr ival :=
  match op with ENewItem i _ _ => <[i := IVal 0 0 0 sig_new]> (vs_vals s) | _ => vs_vals s end.

(* Dispatch; the lines are those of /repo/src/items/Item.hpp.  [q] is the target, as in *q = *p. *)
Definition vstep (op : vop) : call vst unit := fun s =>
  match op with
  | VCall ord io op =>
      let '(t, ev, r) := estep einv ord io op (vs_est s) in
      (VSt t (match r with Ret _ => vals_after op s | _ => vs_vals s end), ev, r)
  (* Item(const Item&), /repo/src/items/Item.hpp:70-76; the signal of the new object has no slots. *)
  | VCopy p q =>
      match fresh_at s q, object s p with
      | Ret _, Ret (x, v) => (put_object q (ItemV (it_class x) (it_frame x)) (IVal (vl_time v) (vl_uuid v) (vl_data v) sig_new) s, [], Ret tt)
      | _, _ => (s, [], UB)
      end
  (* clone, /repo/src/items/Item.hpp:87-94: an Item<D> also for derived classes. *)
  | VClone p q =>
      match fresh_at s q, object s p with
      | Ret _, Ret (x, v) => (put_object q (ItemV (type_index (it_class x)) (it_frame x)) (IVal (vl_time v) (vl_uuid v) (vl_data v) sig_new) s, [], Ret tt)
      | _, _ => (s, [], UB)
      end
  (* Item(Item&&), /repo/src/items/Item.hpp:78-84. *)
  | VMove p q =>
      match fresh_at s q, object s p with
      | Ret _, Ret (x, v) =>
          (leave_behind p x v (put_object q (ItemV (it_class x) (it_frame x)) (IVal (vl_time v) (vl_uuid v) (vl_data v) sig_new) s), [], Ret tt)
      | _, _ => (s, [], UB)
      end
  (* operator=(const Item&), /repo/src/items/Item.hpp:98-106: ItemBase::operator= does nothing, so the signal of the target stays.  Both are
     objects of one class (otherwise the call does not compile or slices; not modelled). *)
  | VAssign p q =>
      match object s p, object s q with
      | Ret (x, v), Ret (y, w) =>
          if bool_decide (it_class x = it_class y)
          then (put_object q (ItemV (it_class y) (it_frame x)) (IVal (vl_time v) (vl_uuid v) (vl_data v) (vl_signal w)) s, [], Ret tt)
          else (s, [], UB)
      | _, _ => (s, [], UB)
      end
  (* operator=(Item&&), /repo/src/items/Item.hpp:108-116. *)
  | VMoveAssign p q =>
      match object s p, object s q with
      | Ret (x, v), Ret (y, w) =>
          if bool_decide (it_class x = it_class y)
          then (leave_behind p x v (put_object q (ItemV (it_class y) (it_frame x)) (IVal (vl_time v) (vl_uuid v) (vl_data v) (vl_signal w)) s), [], Ret tt)
          else (s, [], UB)
      | _, _ => (s, [], UB)
      end
  (* setTime, setID, setData, /repo/src/items/Item.hpp:118-171. *)
  | VSet p t u d =>
      match object s p with Ret (x, v) => (put_object p x (IVal t u d (vl_signal v)) s, [], Ret tt) | _ => (s, [], UB) end
  (* connectContentsChangedCallback, disconnectContentsChangedCallback, /repo/src/items/ItemBase.hpp:156-167. *)
  | VSignal p c =>
      match object s p with
      | Ret (x, v) => (put_object p x (IVal (vl_time v) (vl_uuid v) (vl_data v) (sig_call (vl_signal v) c)) s, [], Ret tt)
      | _ => (s, [], UB)
      end
  end.

(* A program; exceptions are caught, undefined behaviour ends it.  Client code of /repo/src/items/Item.hpp:58-116. *)
Fixpoint vrun (l : list vop) : call vst unit := fun s =>
  match l with
  | [] => (s, [], Ret tt)
  | op :: l' =>
      let '(s1, ev1, r) := vstep op s in
      match r with
      | Ret _ | Throw _ => let '(s2, ev2, r2) := vrun l' s1 in (s2, ev1 ++ ev2, r2)
      | UB => (s1, ev1, UB)
      | Fuel => (s1, ev1, Fuel)
      end
  end.
(* The start of a program: an empty graph and no items, /repo/src/graph/EnvireGraph.cpp:35-37. *)
Definition vst_new : vst := VSt (est_new ∅) ∅.
End values.
Global Arguments vst : clear implicits.
Global Arguments vop : clear implicits.
Global Arguments VCall {E} _ _ _.
Global Arguments VCopy {E} _ _.
Global Arguments VClone {E} _ _.
Global Arguments VMove {E} _ _.
Global Arguments VAssign {E} _ _.
Global Arguments VMoveAssign {E} _ _.
Global Arguments VSet {E} _ _ _ _.
Global Arguments VSignal {E} _ _.
