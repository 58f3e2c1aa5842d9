(** The item functions of EnvireGraph with event handlers that run inside notify.  Executable definitions only. *)
From stdpp Require Import prelude strings gmap.
From Verif Require Import Outcome ItemClass Digraph Bfs TreeView GraphModel GraphOps ItemsModel.

Section handlers.
Context {E : Type}.

(* What all subscribers together do when they are told about an event: any calls, state changes, exceptions.
   GraphEventSubscriber::notifyGraphEvent, called at /repo/src/events/GraphEventPublisher.cpp:81-84. *)
Context (h : event -> call (est E) unit).

(* The vertices whose item lists or item map they write meanwhile, or which they remove: references and iterators into these are
   invalid afterwards.  Simplified: some writes leave some iterators valid (erasing behind them, appending without
   reallocation).  Used for /repo/src/graph/EnvireGraph.cpp:130-141, EnvireGraph.hpp:387-407. *)
Context (touched : event -> est E -> gset vid).

(* notify(event) with the handlers, /repo/src/events/GraphEventPublisher.cpp:76-103. *)
Definition ihnotify (e : event) : call (est E) unit := cnotify e ;;; h e.

(* notify(event) by a function that afterwards goes on using references into the items of vertex [v].
   /repo/src/graph/EnvireGraph.cpp:139-141, EnvireGraph.hpp:395-405. *)
Definition ihnotify_using (v : vid) (e : event) : call (est E) unit := fun s =>
  match ihnotify e s with
  | (s1, ev, Ret _) => (s1, ev, if bool_decide (v ∈ touched e s) then UB else Ret tt)
  | x => x
  end.

(* addItemToFrame(frame, item), /repo/src/graph/EnvireGraph.cpp:118-125. *)
Definition add_item_to_frame_h (f : frameid) (i : iptr) : call (est E) unit :=
  cread (fun s => check_frame_valid s f) ;;;
  x <-- cread (fun s => deref s i) ;;
  v <-- cread (fun s => Ret (bg_vertex (gs_dg (es_g s)) f)) ;;
  m <-- cread (fun s => items_at s v) ;;
  write_items v (<[it_type x := default [] (m !! it_type x) ++ [i]]> m) ;;;
  set_item_frame i f ;;;
  ihnotify (EvItemAdded f i).

(* addItem(item), /repo/src/graph/EnvireGraph.cpp:113-116. *)
Definition add_item_h (i : iptr) : call (est E) unit :=
  x <-- cread (fun s => deref s i) ;; add_item_to_frame_h (it_frame x) i.

(* The inner loop of clearFrame, /repo/src/graph/EnvireGraph.cpp:134-140. *)
Fixpoint clear_list_h (f : frameid) (v : vid) (k : tyid) (l : list iptr) : call (est E) unit :=
  match l with
  | [] => cret tt
  | i :: l' =>
      m <-- cread (fun s => items_at s v) ;;
      write_items v (<[k := l']> m) ;;;
      ihnotify_using v (EvItemRemoved f i) ;;;
      clear_list_h f v k l'
  end.

(* The outer loop of clearFrame, /repo/src/graph/EnvireGraph.cpp:132-142. *)
Fixpoint clear_types_h (f : frameid) (v : vid) (ks : list tyid) : call (est E) unit :=
  match ks with
  | [] => cret tt
  | k :: ks' =>
      m <-- cread (fun s => items_at s v) ;;
      clear_list_h f v k (default [] (m !! k)) ;;;
      m' <-- cread (fun s => items_at s v) ;;
      write_items v (delete k m') ;;;
      clear_types_h f v ks'
  end.

(* clearFrame(frame), /repo/src/graph/EnvireGraph.cpp:127-143. *)
Definition clear_frame_h (io : iorder) (f : frameid) : call (est E) unit :=
  cread (fun s => check_frame_valid s f) ;;;
  v <-- cread (fun s => Ret (bg_vertex (gs_dg (es_g s)) f)) ;;
  m <-- cread (fun s => items_at s v) ;;
  clear_types_h f v (io v m).

(* removeItemFromFrame(item), /repo/src/graph/EnvireGraph.cpp:244-271. *)
Definition remove_item_h (i : iptr) : call (est E) unit :=
  x <-- cread (fun s => deref s i) ;;
  v <-- cread (fun s => get_vertex (es_g s) (it_frame x)) ;;
  l <-- cread (fun s => get_items_v s v (it_type x)) ;;
  match erase_first i l with
  | None => cread (fun _ => Throw (XUnknownItem (it_frame x) i))
  | Some l' =>
      m <-- cread (fun s => items_at s v) ;;
      write_items v (<[it_type x := l']> m) ;;;
      set_item_frame i "" ;;;
      (if Nat.eqb (length l') 0
       then m' <-- cread (fun s => items_at s v) ;; write_items v (delete (it_type x) m')
       else cret tt) ;;;
      ihnotify (EvItemRemoved (it_frame x) i)
  end.

(* removeItemFromFrame<T>(frame, iterator), /repo/src/graph/EnvireGraph.hpp:370-410; simplified as [remove_item_it]. *)
Definition remove_item_it_h (f : frameid) (alias : bool) (T : iclass) (itf : frameid) (k : nat) : call (est E) unit :=
  cread (fun s => check_frame_valid s f) ;;;
  i <-- cread (fun s =>
          match get_items s itf T with
          | Ret l => match l !! k with Some i => obind (cast_all s T [i]) (fun _ => Ret i) | None => UB end
          | _ => UB
          end) ;;
  x <-- cread (fun s => deref s i) ;;
  cread (fun s => if bool_decide (it_frame x = f) then Ret tt else UB) ;;;
  v <-- cread (fun s => Ret (bg_vertex (gs_dg (es_g s)) f)) ;;
  m <-- cread (fun s => items_at s v) ;;
  match m !! T with
  | None => cread (fun _ => Throw (XNoItemsOfType f T))
  | Some l =>
      cread (fun _ => if bool_decide (itf = f) then Ret tt else UB) ;;;
      let l' := take k l ++ drop (S k) l in
      write_items v (<[T := l']> m) ;;;
      set_item_frame i "" ;;;
      ihnotify_using v (EvItemRemoved (if alias then "" else f) i) ;;;
      (if Nat.eqb k (length l')
       then m' <-- cread (fun s => items_at s v) ;; write_items v (delete T m')
       else cret tt)
  end.

(* Graph::removeFrame, /repo/src/graph/Graph.hpp:506-524, called at /repo/src/graph/EnvireGraph.cpp:213. *)
Definition base_remove_frame_h (f : frameid) : call (est E) unit :=
  v <-- cread (fun s => get_vertex (es_g s) f) ;;
  cread (fun s =>
    if bg_alive (gs_dg (es_g s)) v then
      if bool_decide (0 < bg_degree (gs_dg (es_g s)) v) then Throw (XFrameStillConnected f) else Ret tt
    else UB) ;;;
  lift (cmodify (fun s => gs_set_dg (bg_remove_vertex v f (gs_dg s)) s)) ;;;
  ihnotify (EvFrameRemoved f).

(* EnvireGraph::removeFrame, /repo/src/graph/EnvireGraph.cpp:209-214. *)
Definition eg_remove_frame_h (io : iorder) (f : frameid) : call (est E) unit :=
  clear_frame_h io f ;;; base_remove_frame_h f.

End handlers.
