(** envire::core::EnvireGraph (/repo/src/graph/EnvireGraph.hpp, .cpp): a graph whose frames hold items.
    Executable definitions only. *)
From stdpp Require Import prelude strings gmap.
From Verif Require Import Outcome ItemClass Digraph Bfs TreeView GraphModel GraphOps.

(* What EnvireGraph uses of an item object: its dynamic class and its frame name
   (/repo/src/items/ItemBase.hpp:96-123).  Simplification: time, uuid, data and signal are left out here
   (they are in MiscModel.v); EnvireGraph only reads the uuid, for an exception message. *)
Record item := ItemV { it_class : iclass; it_frame : frameid }.

(* ItemBase::getTypeIndex of an item, /repo/src/items/ItemBase.hpp:120-123. *)
Definition it_type (x : item) : tyid := type_index (it_class x).

(* Frame::ItemMap, the content of a frame besides its name: /repo/src/items/Frame.hpp:57-60. *)
Notation imap := (gmap iclass (list iptr)).

(* Iteration order of the unordered_map of the frame with the given vertex; arbitrary.
   /repo/src/items/Frame.hpp:58. *)
Definition iorder := vid -> imap -> list iclass.

Section items.
Context {E : Type} (einv : E -> E).

(* The graph object and the item objects that exist (owned by shared pointers);
   /repo/src/graph/EnvireGraph.hpp:49-52. *)
Record est := ESt { es_g : gst imap E; es_heap : gmap iptr item }.

(* EnvireGraph::EnvireGraph, /repo/src/graph/EnvireGraph.cpp:35-37, in a program with items [h]. *)
Definition est_new (h : gmap iptr item) : est := ESt gst0 h.

(* A call of an inherited member function, e.g. Base::removeFrame at /repo/src/graph/EnvireGraph.cpp:213. *)
Definition lift {A} (m : call (gst imap E) A) : call est A := fun s =>
  let '(g, ev, r) := m (es_g s) in (ESt g (es_heap s), ev, r).

(* graph()[v].items; a dangling descriptor is UB.  /repo/src/graph/EnvireGraph.cpp:147, 193. *)
Definition items_at (s : est) (v : vid) : outcome imap :=
  match bg_vrec (gs_dg (es_g s)) v with Some r => Ret (v_data r) | None => UB end.

(* Dereferencing an item pointer; null or destroyed is UB.  /repo/src/graph/EnvireGraph.cpp:115. *)
Definition deref (s : est) (i : iptr) : outcome item :=
  match es_heap s !! i with Some x => Ret x | None => UB end.

(* item->setFrame(f), /repo/src/items/Item.hpp:151 called at /repo/src/graph/EnvireGraph.cpp:123. *)
Definition set_item_frame (i : iptr) (f : frameid) : call est unit := fun s =>
  match es_heap s !! i with
  | Some x => (ESt (es_g s) (<[i := ItemV (it_class x) f]> (es_heap s)), [], Ret tt)
  | None => (s, [], UB)
  end.

(* A write to graph()[v].items, e.g. /repo/src/graph/EnvireGraph.cpp:122, 141, 267. *)
Definition write_items (v : vid) (m : imap) : call est unit := lift (set_frame_data v m).

(* EnvireGraph::checkFrameValid, /repo/src/graph/EnvireGraph.cpp:159-165. *)
Definition check_frame_valid (s : est) (f : frameid) : outcome unit :=
  if Nat.eqb (bg_vertex (gs_dg (es_g s)) f) null_vertex then Throw (XUnknownFrame f) else Ret tt.

(* ---- queries ---- *)

(* containsItems(vertex, type), /repo/src/graph/EnvireGraph.cpp:145-151; containsItems<T>(vertex) is the same with
   typeid(T), /repo/src/graph/EnvireGraph.hpp:420-426. *)
Definition contains_items_v (s : est) (v : vid) (T : tyid) : outcome bool :=
  obind (items_at s v) (fun m => Ret (bool_decide (is_Some (m !! T)))).

(* containsItems(frame, type), /repo/src/graph/EnvireGraph.cpp:153-157; containsItems<T>(frame),
   /repo/src/graph/EnvireGraph.hpp:412-418. *)
Definition contains_items (s : est) (f : frameid) (T : tyid) : outcome bool :=
  obind (get_vertex (es_g s) f) (fun v => contains_items_v s v T).

(* getItemCount<T>(vertex), /repo/src/graph/EnvireGraph.hpp:436-451. *)
Definition get_item_count_v (s : est) (v : vid) (T : tyid) : outcome nat :=
  obind (items_at s v) (fun m => Ret (match m !! T with Some l => length l | None => 0 end)).

(* getItemCount<T>(frame), /repo/src/graph/EnvireGraph.hpp:428-434. *)
Definition get_item_count (s : est) (f : frameid) (T : tyid) : outcome nat :=
  obind (get_vertex (es_g s) f) (fun v => get_item_count_v s v T).

(* The lists of a map in iteration order.  /repo/src/items/Frame.hpp:86-89, 126-133. *)
Definition lists_of (io : iorder) (v : vid) (m : imap) : list (list iptr) :=
  (fun k => default [] (m !! k)) <$> io v m.

(* getTotalItemCount(frame), /repo/src/graph/EnvireGraph.cpp:167-176, Frame::calculateTotalItemCount,
   /repo/src/items/Frame.hpp:82-91. *)
Definition get_total_item_count (io : iorder) (s : est) (f : frameid) : outcome nat :=
  obind (get_vertex (es_g s) f) (fun v =>
  obind (items_at s v) (fun m => Ret (foldl (fun c l => c + length l) 0 (lists_of io v m)))).

(* getItemTypes(frame), /repo/src/graph/EnvireGraph.cpp:178-188, Frame::getItemTypes,
   /repo/src/items/Frame.hpp:110-119. *)
Definition get_item_types (io : iorder) (s : est) (f : frameid) : outcome (list tyid) :=
  obind (get_vertex (es_g s) f) (fun v => obind (items_at s v) (fun m => Ret (io v m))).

(* getItems(vertex, type), /repo/src/graph/EnvireGraph.cpp:190-200. *)
Definition get_items_v (s : est) (v : vid) (T : tyid) : outcome (list iptr) :=
  obind (items_at s v) (fun m =>
    match m !! T with
    | Some l => Ret l
    | None => obind (get_frame_id (es_g s) v) (fun f => Throw (XNoItemsOfType f T))
    end).

(* getItems(frame, type), /repo/src/graph/EnvireGraph.cpp:202-207. *)
Definition get_items (s : est) (f : frameid) (T : tyid) : outcome (list iptr) :=
  obind (get_vertex (es_g s) f) (fun v => get_items_v s v T).

(* The items an ItemIterator<T> pair yields: every element is cast to T and dereferenced, a failed cast is UB.
   /repo/src/items/ItemBase.hpp:187-195. *)
Definition cast_all (s : est) (T : iclass) (l : list iptr) : outcome (list iptr) :=
  if forallb (fun i => match es_heap s !! i with Some x => is_a (it_class x) T | None => false end) l
  then Ret l else UB.

(* getItems<T>(frame) and walking the returned range, /repo/src/graph/EnvireGraph.hpp:283-295, 313-335; no entry
   gives an empty range, an entry with an empty list violates the assert at line 330. *)
Definition get_items_t (s : est) (f : frameid) (T : iclass) : outcome (list iptr) :=
  obind (get_vertex (es_g s) f) (fun v =>
  obind (items_at s v) (fun m =>
    match m !! T with
    | None => Ret []
    | Some [] => UB
    | Some l => cast_all s T l
    end)).

(* visitItems(frame, func): the items [func] is called with.  /repo/src/graph/EnvireGraph.hpp:297-303,
   /repo/src/items/Frame.hpp:121-134. *)
Definition visit_items (io : iorder) (s : est) (f : frameid) : outcome (list iptr) :=
  obind (check_frame_valid s f) (fun _ =>
  obind (items_at s (bg_vertex (gs_dg (es_g s)) f)) (fun m =>
    Ret (concat (lists_of io (bg_vertex (gs_dg (es_g s)) f) m)))).

(* getItem<T>(vertex, i), /repo/src/graph/EnvireGraph.hpp:346-368; the result is the item the iterator points to,
   [begin() + i] beyond the end is UB, so is a violated assert (line 362). *)
Definition get_item_v (s : est) (v : vid) (T : iclass) (i : Z) : outcome iptr :=
  if Z.ltb i 0 then Throw XOutOfRange
  else
    obind (items_at s v) (fun m =>
      match m !! T with
      | None => obind (get_frame_id (es_g s) v) (fun f => Throw (XNoItemsOfType f T))
      | Some l =>
          if Nat.eqb (length l) 0 then UB
          else if Z.geb i (Z.of_nat (length l)) then Throw XOutOfRange
          else match l !! Z.to_nat i with Some p => Ret p | None => UB end
      end).

(* getItem<T>(frame, i), /repo/src/graph/EnvireGraph.hpp:337-344. *)
Definition get_item (s : est) (f : frameid) (T : iclass) (i : Z) : outcome iptr :=
  obind (get_vertex (es_g s) f) (fun v => get_item_v s v T i).

(* ---- adding and removing items ---- *)

(* addItemToFrame(frame, item), /repo/src/graph/EnvireGraph.cpp:118-125. *)
Definition add_item_to_frame (f : frameid) (i : iptr) : call est unit :=
  cread (fun s => check_frame_valid s f) ;;;
  x <-- cread (fun s => deref s i) ;;
  v <-- cread (fun s => Ret (bg_vertex (gs_dg (es_g s)) f)) ;;
  m <-- cread (fun s => items_at s v) ;;
  write_items v (<[it_type x := default [] (m !! it_type x) ++ [i]]> m) ;;;
  set_item_frame i f ;;;
  cnotify (EvItemAdded f i).

(* addItem(item), /repo/src/graph/EnvireGraph.cpp:113-116. *)
Definition add_item (i : iptr) : call est unit :=
  x <-- cread (fun s => deref s i) ;; add_item_to_frame (it_frame x) i.

(* The inner loop of clearFrame over the list of one type, /repo/src/graph/EnvireGraph.cpp:134-140. *)
Fixpoint clear_list (f : frameid) (v : vid) (k : tyid) (l : list iptr) : call est unit :=
  match l with
  | [] => cret tt
  | i :: l' =>
      m <-- cread (fun s => items_at s v) ;;
      write_items v (<[k := l']> m) ;;;
      cnotify (EvItemRemoved f i) ;;;
      clear_list f v k l'
  end.

(* The outer loop of clearFrame over the types in iteration order, /repo/src/graph/EnvireGraph.cpp:132-142. *)
Fixpoint clear_types (f : frameid) (v : vid) (ks : list tyid) : call est unit :=
  match ks with
  | [] => cret tt
  | k :: ks' =>
      m <-- cread (fun s => items_at s v) ;;
      clear_list f v k (default [] (m !! k)) ;;;
      m' <-- cread (fun s => items_at s v) ;;
      write_items v (delete k m') ;;;
      clear_types f v ks'
  end.

(* clearFrame(frame), /repo/src/graph/EnvireGraph.cpp:127-143. *)
Definition clear_frame (io : iorder) (f : frameid) : call est unit :=
  cread (fun s => check_frame_valid s f) ;;;
  v <-- cread (fun s => Ret (bg_vertex (gs_dg (es_g s)) f)) ;;
  m <-- cread (fun s => items_at s v) ;;
  clear_types f v (io v m).

(* The part of a list before and after the first occurrence of an item: std::find,
   /repo/src/graph/EnvireGraph.cpp:253-258. *)
Fixpoint erase_first (i : iptr) (l : list iptr) : option (list iptr) :=
  match l with
  | [] => None
  | j :: l' => if Nat.eqb j i then Some l' else (j ::.) <$> erase_first i l'
  end.

(* removeItemFromFrame(item), /repo/src/graph/EnvireGraph.cpp:244-271. *)
Definition remove_item (i : iptr) : call est unit :=
  x <-- cread (fun s => deref s i) ;;
  v <-- cread (fun s => get_vertex (es_g s) (it_frame x)) ;;
  l <-- cread (fun s => get_items_v s v (it_type x)) ;;
  match erase_first i l with
  | None => cread (fun _ => Throw (XUnknownItem (it_frame x) i))
  | Some l' =>
      m <-- cread (fun s => items_at s v) ;;
      write_items v (<[it_type x := l']> m) ;;;
      set_item_frame i "" ;;;
      (if Nat.eqb (length l') 0
       then m' <-- cread (fun s => items_at s v) ;; write_items v (delete (it_type x) m')
       else cret tt) ;;;
      cnotify (EvItemRemoved (it_frame x) i)
  end.

(* removeItemFromFrame<T>(frame, iterator), /repo/src/graph/EnvireGraph.hpp:370-410.  The iterator is a position
   [k] in the list of type T of the frame [itf]; a position outside of the list, an iterator into another
   frame's list and a violated assert (line 376) are UB.  Simplification: iterators are not invalidated by other
   changes of the list.  The frame is passed by reference: with [alias] the caller passes item->getFrame() of
   the removed item itself, which line 394 sets to the empty string before the event is created.
   The returned iterators are modelled in IterModel.v. *)
Definition remove_item_it (f : frameid) (alias : bool) (T : iclass) (itf : frameid) (k : nat) : call est unit :=
  cread (fun s => check_frame_valid s f) ;;;
  i <-- cread (fun s =>
          match get_items s itf T with
          | Ret l => match l !! k with Some i => obind (cast_all s T [i]) (fun _ => Ret i) | None => UB end
          | _ => UB
          end) ;;
  x <-- cread (fun s => deref s i) ;;
  cread (fun s => if bool_decide (it_frame x = f) then Ret tt else UB) ;;;
  v <-- cread (fun s => Ret (bg_vertex (gs_dg (es_g s)) f)) ;;
  m <-- cread (fun s => items_at s v) ;;
  match m !! T with
  | None => cread (fun _ => Throw (XNoItemsOfType f T))
  | Some l =>
      cread (fun _ => if bool_decide (itf = f) then Ret tt else UB) ;;;
      let l' := take k l ++ drop (S k) l in
      write_items v (<[T := l']> m) ;;;
      set_item_frame i "" ;;;
      cnotify (EvItemRemoved (if alias then "" else f) i) ;;;
      (if Nat.eqb k (length l')
       then m' <-- cread (fun s => items_at s v) ;; write_items v (delete T m')
       else cret tt)
  end.

(* EnvireGraph::removeFrame, /repo/src/graph/EnvireGraph.cpp:209-214. *)
Definition eg_remove_frame (io : iorder) (f : frameid) : call est unit :=
  clear_frame io f ;;; lift (remove_frame f).

(* A call for every frame name in a list; the range-for loops at /repo/src/graph/EnvireGraph.cpp:230-240. *)
Fixpoint for_frames (m : frameid -> call est unit) (fs : list frameid) : call est unit :=
  match fs with
  | [] => cret tt
  | f :: fs' => m f ;;; for_frames m fs'
  end.

(* EnvireGraph::clear, /repo/src/graph/EnvireGraph.cpp:216-241. *)
Definition clear (ord : viewid -> order) (io : iorder) : call est unit :=
  fs <-- cread (fun s => Ret (v_name <$> dg_verts (gs_dg (es_g s)))) ;;
  for_frames (fun f => lift (disconnect_frame ord f)) fs ;;;
  for_frames (eg_remove_frame io) fs.

(* ---- publishing ---- *)

(* The item events of all frames, /repo/src/graph/EnvireGraph.cpp:278-290, 295-307. *)
Definition item_events (mk : frameid -> iptr -> event) (io : iorder) (s : est) : list event :=
  concat ((fun r => mk (v_name r) <$> concat (lists_of io (v_id r) (v_data r))) <$> dg_verts (gs_dg (es_g s))).

(* EnvireGraph::publishCurrentState, /repo/src/graph/EnvireGraph.cpp:273-291. *)
Definition eg_publish (io : iorder) (s : est) : list event * outcome unit :=
  let '(ev, r) := publish_current_state (es_g s) in
  match r with
  | Ret _ => (ev ++ item_events EvItemAdded io s, Ret tt)
  | _ => (ev, r)
  end.

(* EnvireGraph::unpublishCurrentState, /repo/src/graph/EnvireGraph.cpp:293-311. *)
Definition eg_unpublish (io : iorder) (s : est) : list event * outcome unit :=
  let '(ev, r) := unpublish_current_state (es_g s) in
  (item_events EvItemRemoved io s ++ ev, r).

(* ---- histories ---- *)

(* Public calls on an EnvireGraph and its items: the inherited ones (/repo/src/graph/Graph.hpp:95-330; removeFrame
   is virtual and overridden), creating an item object and ItemBase::setFrame (/repo/src/items/ItemBase.hpp:101),
   /repo/src/graph/EnvireGraph.hpp:85-215. *)
Inductive eop : Type :=
| EGraph (op : gop imap E)
| ENewItem (i : iptr) (c : iclass) (f : frameid)
| ESetFrame (i : iptr) (f : frameid)
| EAddItem (i : iptr)
| EAddItemTo (f : frameid) (i : iptr)
| ERemoveItem (i : iptr)
| ERemoveItemIt (f : frameid) (alias : bool) (T : iclass) (itf : frameid) (k : nat)
| EClearFrame (f : frameid)
| EClear.

(* A new item object at an unused address, /repo/src/items/Item.hpp:58-68. *)
Definition new_item (i : iptr) (c : iclass) (f : frameid) : call est unit := fun s =>
  match es_heap s !! i with
  | Some _ => (s, [], UB)
  | None => (ESt (es_g s) (<[i := ItemV c f]> (es_heap s)), [], Ret tt)
  end.

(* Dispatch of one call; each branch is the function cited above (/repo/src/graph/EnvireGraph.hpp:85-215). *)
Definition estep (ord : viewid -> order) (io : iorder) (op : eop) : call est unit :=
  match op with
  | EGraph (ORemoveFrame f) => eg_remove_frame io f
  | EGraph op => lift (gstep ∅ einv ord op)
  | ENewItem i c f => new_item i c f
  | ESetFrame i f => set_item_frame i f
  | EAddItem i => add_item i
  | EAddItemTo f i => add_item_to_frame f i
  | ERemoveItem i => remove_item i
  | ERemoveItemIt f alias T itf k => remove_item_it f alias T itf k
  | EClearFrame f => clear_frame io f
  | EClear => clear ord io
  end.

(* A history: the caller catches exceptions and goes on, undefined behaviour ends it.  Client code of
   /repo/src/graph/EnvireGraph.hpp:85-215. *)
Fixpoint erun (h : list ((viewid -> order) * iorder * eop)) : call est unit := fun s =>
  match h with
  | [] => (s, [], Ret tt)
  | (ord, io, op) :: h' =>
      let '(s1, ev1, r) := estep ord io op s in
      match r with
      | Ret _ | Throw _ => let '(s2, ev2, r2) := erun h' s1 in (s2, ev1 ++ ev2, r2)
      | UB => (s1, ev1, UB)
      | Fuel => (s1, ev1, Fuel)
      end
  end.

(* ---- copies ---- *)

(* EnvireGraph(const EnvireGraph& ): the frames with their item lists are copied, the items are shared.
   /repo/src/graph/EnvireGraph.cpp:39-54. *)
Definition eg_copy (s : est) : outcome est :=
  obind (copy_graph (es_g s)) (fun g => Ret (ESt g (es_heap s))).

(* The loop that erases the entries of one frame, in iteration order.  /repo/src/graph/EnvireGraph.cpp:84-107. *)
Fixpoint filter_types (fl : list tyid) (inclusive : bool) (ks : list tyid) (m : imap) : imap :=
  match ks with
  | [] => m
  | k :: ks' =>
      let found := bool_decide (k ∈ fl) in
      filter_types fl inclusive ks'
        (if inclusive then (if found then m else delete k m) else (if found then delete k m else m))
  end.

(* EnvireGraph(const EnvireGraph&, filter_list, inclusive), /repo/src/graph/EnvireGraph.cpp:57-110;
   [None] is a null filter_list. *)
Definition eg_filter_copy (io : iorder) (fl : option (list tyid)) (inclusive : bool) (s : est) : outcome est :=
  obind (copy_graph (es_g s)) (fun g =>
    match fl with
    | None => Ret (ESt g (es_heap s))
    | Some fl =>
        let d := gs_dg g in
        let vs := (fun r => VRec (v_id r) (v_index r) (v_name r)
                              (filter_types fl inclusive (io (v_id r) (v_data r)) (v_data r))) <$> dg_verts d in
        Ret (ESt (gs_set_dg (Digraph vs (dg_edges d) (dg_map d) (dg_nextv d) (dg_nexte d) (dg_maxvi d)
                               (dg_nv d) (dg_ne d)) g) (es_heap s))
    end).

(* ---- programs with several graphs ---- *)

(* The EnvireGraph objects of a program, by address, and the item objects they share;
   /repo/src/graph/EnvireGraph.hpp:49-82. *)
Record world := World { w_graphs : gmap nat (gst imap E); w_heap : gmap iptr item }.

(* What a program can do with its graphs: construct one, call one, copy one, copy one with a filter;
   /repo/src/graph/EnvireGraph.hpp:71-82. *)
Inductive wop : Type :=
| WNew (g : nat)
| WCall (g : nat) (op : eop)
| WCopy (src dst : nat)
| WFilterCopy (fl : option (list tyid)) (inclusive : bool) (src dst : nat).

(* A constructed graph is put at an unused address; /repo/src/graph/EnvireGraph.cpp:35-110. *)
Definition w_construct (g : nat) (x : outcome est) (w : world) : world * list event * outcome unit :=
  match x, w_graphs w !! g with
  | Ret s, None => (World (<[g := es_g s]> (w_graphs w)) (w_heap w), [], Ret tt)
  | Throw e, None => (w, [], Throw e)
  | Fuel, None => (w, [], Fuel)
  | _, _ => (w, [], UB)
  end.

(* One step of such a program; the events are those of the called graph.
   /repo/src/graph/EnvireGraph.cpp:35-110 and the calls of [estep]. *)
Definition wstep (ord : viewid -> order) (io : iorder) (op : wop) : call world unit := fun w =>
  match op with
  | WNew g => w_construct g (Ret (est_new (w_heap w))) w
  | WCall g op =>
      match w_graphs w !! g with
      | None => (w, [], UB)
      | Some G =>
          let '(s, ev, r) := estep ord io op (ESt G (w_heap w)) in
          (World (<[g := es_g s]> (w_graphs w)) (es_heap s), ev, r)
      end
  | WCopy src dst =>
      match w_graphs w !! src with
      | None => (w, [], UB)
      | Some G => w_construct dst (eg_copy (ESt G (w_heap w))) w
      end
  | WFilterCopy fl inclusive src dst =>
      match w_graphs w !! src with
      | None => (w, [], UB)
      | Some G => w_construct dst (eg_filter_copy io fl inclusive (ESt G (w_heap w))) w
      end
  end.

(* Such a program; exceptions are caught, undefined behaviour ends it.
   Client code of /repo/src/graph/EnvireGraph.hpp:71-215. *)
Fixpoint wrun (h : list ((viewid -> order) * iorder * wop)) (w : world) : world * outcome unit :=
  match h with
  | [] => (w, Ret tt)
  | (ord, io, op) :: h' =>
      let '(w1, _, r) := wstep ord io op w in
      match r with
      | Ret _ | Throw _ => wrun h' w1
      | UB => (w1, UB)
      | Fuel => (w1, Fuel)
      end
  end.

End items.
Global Arguments est : clear implicits.
Global Arguments eop : clear implicits.
Global Arguments wop : clear implicits.
Global Arguments world : clear implicits.
