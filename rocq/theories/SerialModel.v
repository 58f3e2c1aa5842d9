(** Model of class Serialization (/repo/src/serialization/Serialization.hpp, Serialization.cpp), of saving and loading the items of a
    frame (/repo/src/items/Frame.hpp) and of saving and loading graphs.  Executable definitions only. *)
From stdpp Require Import prelude strings gmap.
From Verif Require Import ItemClass Outcome Digraph TreeView GraphModel.

(** ** Items *)

(* What a read from an archive gives: a value, a std::runtime_error, or any other exception such as
   boost::archive::archive_exception.  /repo/src/serialization/Serialization.hpp:98-133. *)
Inductive reading (S A B : Type) : Type :=
| RGot (b : B) (s : S) (rest : list A)
| RRuntime (s : S) (rest : list A)
| RAbort.
Arguments RGot {S A B} b s rest.
Arguments RRuntime {S A B} s rest.
Arguments RAbort {S A B}.

(* What writing an item gives, same three outcomes.  /repo/src/serialization/Serialization.hpp:63-87. *)
Inductive writing (O A : Type) : Type :=
| WGot (o : O) (w : list A)
| WRuntime (o : O) (w : list A)
| WAbort.
Arguments WGot {O A} o w.
Arguments WRuntime {O A} o w.
Arguments WAbort {O A}.

(* Everything outside /repo/src that the code calls.
   [P]: what the process has loaded: metadata (Item::getClassName, /repo/src/items/Item.hpp:180-188), handles
   (Serialization::hasHandle, /repo/src/serialization/Serialization.cpp:110-114) and plugin libraries
   (/repo/src/serialization/Serialization.cpp:128-150).
   [O], [S]: what the output and the input archive remember (boost's object tracking and class versions).
   Sizes: version 0 writes a size_t, version 1 calls saveSizeValue (/repo/src/items/Frame.hpp:176-182); both are without memory.
   Simplification: registered handles are never null. *)
Record env (P O S A I : Type) := Env {
  class_name : P -> iclass -> option string;
  has_handle : P -> string -> bool;
  load_all : P -> P;
  load_lib : P -> string -> P * bool;
  enc_size : bool -> nat -> list A;
  dec_size : bool -> list A -> option (nat * list A);
  enc_header : O -> string -> O * list A;
  dec_header : S -> list A -> reading S A string;
  enc_item : O -> string -> I -> writing O A;
  dec_item : S -> string -> list A -> reading S A I }.
Arguments Env {P O S A I}.
Arguments class_name {P O S A I}.
Arguments has_handle {P O S A I}.
Arguments load_all {P O S A I}.
Arguments load_lib {P O S A I}.
Arguments enc_size {P O S A I}.
Arguments dec_size {P O S A I}.
Arguments enc_header {P O S A I}.
Arguments dec_header {P O S A I}.
Arguments enc_item {P O S A I}.
Arguments dec_item {P O S A I}.

Section serial.
Context {P O S A I : Type} (e : env P O S A I) (cls : I -> iclass).

(* Serialization::isSerializable; the class name depends on Item::getTypeInfo only.
   /repo/src/serialization/Serialization.cpp:58-96, /repo/src/items/Item.hpp:180-188. *)
Definition is_serializable (p : P) (T : iclass) : P * bool :=
  let p1 := match class_name e p T with Some _ => p | None => load_all e p end in
  match class_name e p1 T with
  | None => (p1, false)
  | Some c =>
      if has_handle e p1 c then (p1, true)
      else let '(p2, ok) := load_lib e p1 c in
           if (ok : bool) then (p2, has_handle e p2 c) else (p2, false)
  end.

(* getTypeIndex of an item, /repo/src/items/ItemBase.hpp:120-123. *)
Definition ity (i : I) : iclass := type_index (cls i).

(* Outcome of Serialization::save: true, false (also after a std::runtime_error), or another exception.
   /repo/src/serialization/Serialization.hpp:61-87. *)
Definition ser_save (p : P) (o : O) (i : I) : P * O * list A * outcome bool :=
  let '(p1, b) := is_serializable p (ity i) in
  if (b : bool) then
    match class_name e p1 (ity i) with
    | Some c =>
        if has_handle e p1 c then
          let '(o1, w1) := enc_header e o c in
          match enc_item e o1 c i with
          | WGot o2 w2 => (p1, o2, w1 ++ w2, Ret true)
          | WRuntime o2 w2 => (p1, o2, w1 ++ w2, Ret false)
          | WAbort => (p1, o1, w1, Throw XRuntime)
          end
        else (p1, o, [], Ret false)
    | None => (p1, o, [], Ret false)
    end
  else (p1, o, [], Ret false).

(* Serialization::load: the item if it returns true; false without reading on if there is no handle.
   /repo/src/serialization/Serialization.hpp:96-134. *)
Definition ser_load (p : P) (s : S) (w : list A) : P * S * list A * outcome (option I) :=
  match dec_header e s w with
  | RGot c s1 w1 =>
      let '(p1, b) :=
        if has_handle e p c then (p, true)
        else let '(p1, ok) := load_lib e p c in
             if (ok : bool) then (p1, has_handle e p1 c) else (p1, false) in
      if (b : bool) then
        match dec_item e s1 c w1 with
        | RGot i s2 w2 => (p1, s2, w2, Ret (Some i))
        | RRuntime s2 w2 => (p1, s2, w2, Ret None)
        | RAbort => (p1, s1, w1, Throw XRuntime)
        end
      else (p1, s1, w1, Ret None)
  | RRuntime s1 w1 => (p, s1, w1, Ret None)
  | RAbort => (p, s, w, Throw XRuntime)
  end.

(* The typed load: what it returns and the pointer after dynamic_pointer_cast<T>.
   /repo/src/serialization/Serialization.hpp:143-150. *)
Definition ser_load_typed (T : iclass) (p : P) (s : S) (w : list A) : P * S * list A * outcome (bool * option I) :=
  let '(p1, s1, w1, r) := ser_load p s w in
  (p1, s1, w1, obind r (fun x => Ret (bool_decide (is_Some x),
    match x with Some i => if is_a (cls i) T then Some i else None | None => None end))).

(* First loop of save(ItemMap): which lists are saved.  /repo/src/items/Frame.hpp:164-173. *)
Fixpoint mark_lists (p : P) (l : list (iclass * list I)) : P * list (list I * bool) :=
  match l with
  | [] => (p, [])
  | (T, is) :: l' =>
      let '(p1, b) := match is with [] => (p, false) | i :: _ => is_serializable p (ity i) end in
      let '(p2, r) := mark_lists p1 l' in (p2, (is, b) :: r)
  end.

(* Inner loop of save(ItemMap).  /repo/src/items/Frame.hpp:197-210. *)
Fixpoint save_list (p : P) (o : O) (is : list I) : P * O * list A * outcome unit :=
  match is with
  | [] => (p, o, [], Ret tt)
  | i :: is' =>
      let '(p1, o1, w1, r) := ser_save p o i in
      match r with
      | Ret true => let '(p2, o2, w2, r2) := save_list p1 o1 is' in (p2, o2, w1 ++ w2, r2)
      | Ret false => (p1, o1, w1, Throw XRuntime)
      | Throw x => (p1, o1, w1, Throw x)
      | UB => (p1, o1, w1, UB)
      | Fuel => (p1, o1, w1, Fuel)
      end
  end.

(* Second loop of save(ItemMap).  /repo/src/items/Frame.hpp:183-212. *)
Fixpoint save_lists (v : bool) (p : P) (o : O) (l : list (list I * bool)) : P * O * list A * outcome unit :=
  match l with
  | [] => (p, o, [], Ret tt)
  | (is, false) :: l' => save_lists v p o l'
  | (is, true) :: l' =>
      let '(p1, o1, w1, r) := save_list p o is in
      match r with
      | Ret _ => let '(p2, o2, w2, r2) := save_lists v p1 o1 l' in (p2, o2, enc_size e v (length is) ++ w1 ++ w2, r2)
      | _ => (p1, o1, enc_size e v (length is) ++ w1, r)
      end
  end.

(* save(ItemMap): [v] is true for version 1; [l] are the entries of the map in the order of its iterators.
   /repo/src/items/Frame.hpp:159-213. *)
Definition save_items (v : bool) (p : P) (o : O) (l : list (iclass * list I)) : P * O * list A * outcome unit :=
  let '(p1, marks) := mark_lists p l in
  let '(p2, o2, w2, r) := save_lists v p1 o marks in
  (p2, o2, enc_size e v (length (filter (fun m => m.2 = true) marks)) ++ w2, r).

(* Inner loop of load(ItemMap).  /repo/src/items/Frame.hpp:250-256.
   Simplification: item_list.reserve always succeeds. *)
Fixpoint load_list (n : nat) (p : P) (s : S) (w : list A) : P * S * list A * outcome (list I) :=
  match n with
  | 0 => (p, s, w, Ret [])
  | Datatypes.S n' =>
      let '(p1, s1, w1, r) := ser_load p s w in
      match r with
      | Ret x =>
          let '(p2, s2, w2, r2) := load_list n' p1 s1 w1 in
          (p2, s2, w2, obind r2 (fun is => Ret (match x with Some i => i :: is | None => is end)))
      | Throw y => (p1, s1, w1, Throw y)
      | UB => (p1, s1, w1, UB)
      | Fuel => (p1, s1, w1, Fuel)
      end
  end.

(* item_map.insert: an entry that is already there stays.  /repo/src/items/Frame.hpp:259-264. *)
Definition insert_list (is : list I) (m : gmap iclass (list I)) : gmap iclass (list I) :=
  match is with
  | [] => m
  | i :: _ => match m !! ity i with Some _ => m | None => <[ity i := is]> m end
  end.

(* Outer loop of load(ItemMap); reading a size may throw.  /repo/src/items/Frame.hpp:234-265. *)
Fixpoint load_lists (v : bool) (n : nat) (p : P) (s : S) (w : list A) (m : gmap iclass (list I)) :
    P * S * list A * outcome (gmap iclass (list I)) :=
  match n with
  | 0 => (p, s, w, Ret m)
  | Datatypes.S n' =>
      match dec_size e v w with
      | Some (k, w1) =>
          let '(p2, s2, w2, r) := load_list k p s w1 in
          match r with
          | Ret is => load_lists v n' p2 s2 w2 (insert_list is m)
          | Throw y => (p2, s2, w2, Throw y)
          | UB => (p2, s2, w2, UB)
          | Fuel => (p2, s2, w2, Fuel)
          end
      | None => (p, s, w, Throw XRuntime)
      end
  end.

(* load(ItemMap); the map is cleared first.  /repo/src/items/Frame.hpp:218-269. *)
Definition load_items (v : bool) (p : P) (s : S) (w : list A) : P * S * list A * outcome (gmap iclass (list I)) :=
  match dec_size e v w with
  | Some (k, w1) => load_lists v k p s w1 ∅
  | None => (p, s, w, Throw XRuntime)
  end.
End serial.

(** ** Graphs *)
Section graph.
Context {D E : Type}.
Implicit Types g : digraph D E.

(* What is saved of a graph: the frame properties in order and the edges with the positions of their ends.
   `ar << graph()` at /repo/src/graph/Graph.hpp:1003-1006; the code is in the library boost_serialization. *)
Record saved := Saved { sv_frames : list (frameid * D); sv_edges : list (nat * nat * E) }.

(* Graph::save, /repo/src/graph/Graph.hpp:1001-1006. *)
Definition save_graph g : saved :=
  Saved ((fun r => (v_name r, v_data r)) <$> dg_verts g)
        ((fun x => (position (e_src x) (dg_verts g), position (e_tgt x) (dg_verts g), e_prop x)) <$> dg_edges g).

(* add_vertex of the directed_graph, which does not know the labels; called for every saved frame.
   `ar >> graph()` at /repo/src/graph/Graph.hpp:995. *)
Definition dg_new_vertex g (x : frameid * D) : digraph D E :=
  Digraph (dg_verts g ++ [VRec (dg_nextv g) (dg_maxvi g) x.1 x.2]) (dg_edges g) (dg_map g) (S (dg_nextv g)) (dg_nexte g)
    (S (dg_maxvi g)) (S (dg_nv g)) (dg_ne g).

(* add_edge of the directed_graph for a saved edge; a position that was not saved is undefined behaviour.
   Same call, /repo/src/graph/Graph.hpp:995. *)
Fixpoint load_edges (vs : list vid) (l : list (nat * nat * E)) g : option (digraph D E) :=
  match l with
  | [] => Some g
  | (i, j, x) :: l' =>
      match vs !! i, vs !! j with
      | Some u, Some v => load_edges vs l' (fst (bg_add_edge u v x g))
      | _, _ => None
      end
  end.

(* `ar >> graph()`: the library either empties the directed_graph first or adds to it, [keep]; the label map is a member of
   labeled_graph, which it does not touch.  [ld] is what a frame property becomes by saving and loading it.
   /repo/src/graph/Graph.hpp:995. *)
Definition load_directed (keep : bool) (ld : D -> D) (x : saved) g : option (digraph D E) :=
  let g0 := if keep then g else Digraph [] [] (dg_map g) (dg_nextv g) (dg_nexte g) 0 0 0 in
  let g1 := foldl dg_new_vertex g0 (prod_map id ld <$> sv_frames x) in
  load_edges (drop (length (dg_verts g0)) (v_id <$> dg_verts g1)) (sv_edges x) g1.

(* Graph::load, /repo/src/graph/Graph.hpp:991-999.  Nothing is published, views are not told. *)
Definition load_saved (keep : bool) (ld : D -> D) (x : saved) : call (gst D E) unit := fun s =>
  match load_directed keep ld x (gs_dg s) with
  | Some g =>
      (gs_set_dg (Digraph (dg_verts g) (dg_edges g) (regenerate_label_map (dg_map g) (dg_verts g)) (dg_nextv g) (dg_nexte g)
                    (dg_maxvi g) (dg_nv g) (dg_ne g)) s, [], Ret tt)
  | None => (s, [], UB)
  end.
End graph.
Global Arguments saved : clear implicits.
