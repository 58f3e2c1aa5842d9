(** Model of the iterators over the items of one type in a frame.  Executable definitions only. *)
From stdpp Require Import prelude strings gmap.
From Verif Require Import Outcome ItemClass Digraph TreeView GraphModel GraphOps ItemsModel.

(* ItemIteratorPair<T>, /repo/src/graph/EnvireGraph.hpp:56-69: positions of the two iterators in the vector of the type; [ir_gone]
   says that the vector was destroyed since.  Two default-constructed iterators (lines 322-323) are two equal positions.
   The frame and the type the vector belongs to are arguments of the functions below. *)
Record irange := IRange { ir_pos : nat; ir_end : nat; ir_gone : bool }.

Section iter.
Context {E : Type}.
Local Notation est := (est E).

(* getItems<T>(frame), /repo/src/graph/EnvireGraph.hpp:283-295, 313-335. *)
Definition items_range (f : frameid) (T : iclass) (s : est) : outcome irange :=
  obind (get_items_t s f T) (fun l => Ret (IRange 0 (length l) false)).

(* *it for the iterator at position [k], /repo/src/items/ItemBase.hpp:187-195; a position outside of the vector and a
   failed cast are UB. *)
Definition range_item (f : frameid) (T : iclass) (k : nat) (s : est) : outcome iptr :=
  match get_items s f T with
  | Ret l => match l !! k with Some i => obind (cast_all s T [i]) (fun _ => Ret i) | None => UB end
  | _ => UB
  end.

(* removeItemFromFrame<T>(frame, iterator) with the iterators it returns: the position of the erased item and the new
   end; if they are equal the vector is destroyed.  /repo/src/graph/EnvireGraph.hpp:370-410, the iterators lines
   393, 397-409. *)
Definition remove_range (f : frameid) (T : iclass) (k : nat) : call est irange :=
  n <-- cread (fun s => Ret (match get_items s f T with Ret l => length l | _ => 0 end)) ;;
  remove_item_it f false T f k ;;;
  cret (IRange k (pred n) (Nat.eqb k (pred n))).

(* it != end.  The standard leaves it open whether iterators into a destroyed vector can be compared: with [strict]
   this is UB, without they compare by position, as the comment at /repo/src/graph/EnvireGraph.hpp:403-405
   expects. *)
Definition range_more (strict : bool) (r : irange) : outcome bool :=
  if strict && ir_gone r then UB else Ret (negb (Nat.eqb (ir_pos r) (ir_end r))).

(* A client's loop that removes the items [p] selects:
   for(; it != end;) if(p( *it)) tie(it, end) = removeItemFromFrame(frame, it); else ++it;
   with [p] constantly true this is the loop of /repo/test/test_envire_graph.cpp:291-294.  Calls
   /repo/src/graph/EnvireGraph.hpp:370-410.  [fuel] bounds the rounds. *)
Fixpoint erase_loop (strict : bool) (p : iptr -> bool) (f : frameid) (T : iclass) (fuel : nat) (r : irange) : call est unit :=
  match fuel with
  | O => fun s => (s, [], Fuel)
  | S fuel =>
      b <-- cread (fun _ => range_more strict r) ;;
      if (b : bool) then
        i <-- cread (range_item f T (ir_pos r)) ;;
        (if p i then r' <-- remove_range f T (ir_pos r) ;; erase_loop strict p f T fuel r'
         else erase_loop strict p f T fuel (IRange (S (ir_pos r)) (ir_end r) (ir_gone r)))
      else cret tt
  end.
(* Same client: the range and the loop. *)
Definition erase_items (strict : bool) (p : iptr -> bool) (f : frameid) (T : iclass) (fuel : nat) : call est unit :=
  r <-- cread (items_range f T) ;; erase_loop strict p f T fuel r.
End iter.
