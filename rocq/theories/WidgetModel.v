(** Model of class EnvireGraph2DStructurWidget (/repo/viz/EnvireGraph2DStructureVisualization/EnvireGraph2DStructurWidget.hpp and .cpp):
    the thread of the user interface and the thread that lays graphs out.  Executable definitions only. *)
From stdpp Require Import prelude strings gmap.

(* The two threads, /repo/viz/EnvireGraph2DStructureVisualization/EnvireGraph2DStructurWidget.hpp:69-71 and 89. *)
Inductive actor := AGui | ALayout.

(* Where layoutGraph stands, /repo/viz/EnvireGraph2DStructureVisualization/EnvireGraph2DStructurWidget.cpp:80-122: [LWhile] at the
   condition of the loop (85), [LSleep] before the sleep (87), [LBreak] at the second test of the flag (89), [LNeed] at
   !needRedraw and [LPause] at pauseRedraw (92), [LLock] before the guard (98), [LCopy] before dotStr = currentGraph (99), [LClear]
   before needRedraw = false (100), [LUnlock] before the end of the guard (101), [LDraw] before agmemread, gvLayout, gvRenderData and
   load (103-112), [LPost] before invokeMethod (113-118), [LEnd] after the loop. *)
Inductive lpc := LWhile | LSleep | LBreak | LNeed | LPause | LLock | LCopy | LClear | LUnlock | LDraw | LPost | LEnd.

(* Where the thread of the user interface stands: [GIdle] in the event loop; inside displayGraph
   (/repo/viz/EnvireGraph2DStructureVisualization/EnvireGraph2DStructurWidget.cpp:141-147) before the guard (144), before
   currentGraph = dotStr (145), before needRedraw = true (146), before the end of the guard (147); [GJoin] inside the destructor
   before join (77); [GGone] after the destructor. *)
Inductive gpc := GIdle | GLock (d : string) | GCopy (d : string) | GNeed (d : string) | GUnlock | GJoin | GGone.

(* What the event loop of the user interface does next: a call of displayGraph, a click on the box "Pause 2D Update"
   (/repo/viz/EnvireGraph2DStructureVisualization/EnvireGraph2DStructurWidget.cpp:58 and 68), the call of displaySvg at the head of the
   queue (113), painting the scene (66), and the destructor (74). *)
Inductive action := ADisplay (d : string) | AClick | ADeliver | APaint | ADestroy.

(* One step of an execution: the idle event loop starts an action, the thread of the user interface goes on with what it is in, or
   the layout thread takes its next step.  The list of turns of an execution is the order in which the processor runs the threads.
   Simplification: memory is sequentially consistent; an access to a member takes effect at once.
   /repo/viz/EnvireGraph2DStructureVisualization/EnvireGraph2DStructurWidget.cpp:47 (two threads). *)
Inductive turn := TStart (a : action) | TGui | TLayout.

(* What an execution makes visible: displayGraph was called with a text (145), the layout thread took a text (99), a drawing came on
   the screen (132); /repo/viz/EnvireGraph2DStructureVisualization/EnvireGraph2DStructurWidget.cpp. *)
Inductive wevent := VAsked (d : string) | VTaken (d : string) | VShown (d : string).

Section widget.
(* agmemread: can Graphviz read the text?  /repo/viz/EnvireGraph2DStructureVisualization/EnvireGraph2DStructurWidget.cpp:103.  The
   drawing is represented by the text that was drawn. *)
Variable readable : string -> bool.

(* The members, /repo/viz/EnvireGraph2DStructureVisualization/EnvireGraph2DStructurWidget.hpp:74-89, with the local variables of
   layoutGraph (dotStr and r), the state of the check box, the queue of calls of displaySvg and the renderers that exist.
   [w_alive] maps the numbers of the renderers that exist to the text they draw; [w_next] is the number of the next renderer.
   Simplification: the number of a deleted renderer is not used again, the sleep takes any time. *)
Record widget := Widget {
  w_current : string; w_need : bool; w_pause : bool; w_run : bool; w_mutex : option actor;
  w_lpc : lpc; w_dot : string; w_r : nat;
  w_gpc : gpc; w_box : bool; w_queue : list nat; w_item : option nat; w_shared : option nat;
  w_alive : gmap nat string; w_next : nat }.

(* The constructor, /repo/viz/EnvireGraph2DStructureVisualization/EnvireGraph2DStructurWidget.cpp:43-72: layoutThread is the last member
   (/repo/viz/EnvireGraph2DStructureVisualization/EnvireGraph2DStructurWidget.hpp:89), so the others exist when the thread starts; the
   box is set to pauseRedraw (59).  [w_item] is the shared renderer of the item, none at first (64). *)
Definition new_widget : widget := Widget "" false true true None LWhile "" 0 GIdle true [] None None ∅ 0.

(* Assignments to members by one statement of the layout thread, /repo/viz/EnvireGraph2DStructureVisualization/EnvireGraph2DStructurWidget.cpp:80-122. *)
Definition lgoto (w : widget) (p : lpc) : widget :=
  Widget (w_current w) (w_need w) (w_pause w) (w_run w) (w_mutex w) p (w_dot w) (w_r w) (w_gpc w) (w_box w) (w_queue w) (w_item w)
    (w_shared w) (w_alive w) (w_next w).

(* The same for the thread of the user interface, /repo/viz/EnvireGraph2DStructureVisualization/EnvireGraph2DStructurWidget.cpp:141-147. *)
Definition ggoto (w : widget) (p : gpc) : widget :=
  Widget (w_current w) (w_need w) (w_pause w) (w_run w) (w_mutex w) (w_lpc w) (w_dot w) (w_r w) p (w_box w) (w_queue w) (w_item w)
    (w_shared w) (w_alive w) (w_next w).

(* lock and unlock of currentGraphMutex, /repo/viz/EnvireGraph2DStructureVisualization/EnvireGraph2DStructurWidget.cpp:98 and 144. *)
Definition set_mutex (w : widget) (m : option actor) : widget :=
  Widget (w_current w) (w_need w) (w_pause w) (w_run w) m (w_lpc w) (w_dot w) (w_r w) (w_gpc w) (w_box w) (w_queue w) (w_item w)
    (w_shared w) (w_alive w) (w_next w).

(* needRedraw = b, /repo/viz/EnvireGraph2DStructureVisualization/EnvireGraph2DStructurWidget.cpp:100 and 146. *)
Definition set_need (w : widget) (b : bool) : widget :=
  Widget (w_current w) b (w_pause w) (w_run w) (w_mutex w) (w_lpc w) (w_dot w) (w_r w) (w_gpc w) (w_box w) (w_queue w) (w_item w)
    (w_shared w) (w_alive w) (w_next w).

(* currentGraph = d, /repo/viz/EnvireGraph2DStructureVisualization/EnvireGraph2DStructurWidget.cpp:145. *)
Definition set_current (w : widget) (d : string) : widget :=
  Widget d (w_need w) (w_pause w) (w_run w) (w_mutex w) (w_lpc w) (w_dot w) (w_r w) (w_gpc w) (w_box w) (w_queue w) (w_item w)
    (w_shared w) (w_alive w) (w_next w).

(* dotStr = currentGraph, /repo/viz/EnvireGraph2DStructureVisualization/EnvireGraph2DStructurWidget.cpp:99. *)
Definition copy_current (w : widget) : widget :=
  Widget (w_current w) (w_need w) (w_pause w) (w_run w) (w_mutex w) (w_lpc w) (w_current w) (w_r w) (w_gpc w) (w_box w) (w_queue w)
    (w_item w) (w_shared w) (w_alive w) (w_next w).

(* r = new QSvgRenderer; r->load(qSvg), /repo/viz/EnvireGraph2DStructureVisualization/EnvireGraph2DStructurWidget.cpp:110-112. *)
Definition new_renderer (w : widget) : widget :=
  Widget (w_current w) (w_need w) (w_pause w) (w_run w) (w_mutex w) (w_lpc w) (w_dot w) (w_next w) (w_gpc w) (w_box w) (w_queue w)
    (w_item w) (w_shared w) (<[w_next w := w_dot w]> (w_alive w)) (S (w_next w)).

(* invokeMethod(this, "displaySvg", QueuedConnection, r), /repo/viz/EnvireGraph2DStructureVisualization/EnvireGraph2DStructurWidget.cpp:113-114. *)
Definition post (w : widget) : widget :=
  Widget (w_current w) (w_need w) (w_pause w) (w_run w) (w_mutex w) (w_lpc w) (w_dot w) (w_r w) (w_gpc w) (w_box w)
    (w_queue w ++ [w_r w]) (w_item w) (w_shared w) (w_alive w) (w_next w).

(* A click changes the box, which calls pauseToggled (68); that flips pauseRedraw whatever its argument (127);
   /repo/viz/EnvireGraph2DStructureVisualization/EnvireGraph2DStructurWidget.cpp. *)
Definition click (w : widget) : widget :=
  Widget (w_current w) (w_need w) (negb (w_pause w)) (w_run w) (w_mutex w) (w_lpc w) (w_dot w) (w_r w) (w_gpc w) (negb (w_box w))
    (w_queue w) (w_item w) (w_shared w) (w_alive w) (w_next w).

(* runLayoutThread = false, /repo/viz/EnvireGraph2DStructureVisualization/EnvireGraph2DStructurWidget.cpp:76. *)
Definition stop (w : widget) : widget :=
  Widget (w_current w) (w_need w) (w_pause w) false (w_mutex w) (w_lpc w) (w_dot w) (w_r w) (w_gpc w) (w_box w) (w_queue w)
    (w_item w) (w_shared w) (w_alive w) (w_next w).

(* The text a renderer draws, None if the renderer was deleted,
   /repo/viz/EnvireGraph2DStructureVisualization/EnvireGraph2DStructurWidget.cpp:110-111 and 134. *)
Definition drawing (w : widget) (r : nat) : option string := w_alive w !! r.

(* displaySvg(r) for the call at the head of the queue, /repo/viz/EnvireGraph2DStructureVisualization/EnvireGraph2DStructurWidget.cpp:130-137.
   None: undefined behaviour, the renderer shown was deleted or the one to be deleted was. *)
Definition display_svg (w : widget) (r : nat) (q : list nat) : option (widget * list wevent) :=
  match drawing w r with
  | None => None
  | Some d =>
    let show alive := Widget (w_current w) (w_need w) (w_pause w) (w_run w) (w_mutex w) (w_lpc w) (w_dot w) (w_r w) (w_gpc w) (w_box w)
                        q (Some r) (Some r) alive (w_next w) in
    match w_shared w with
    | None => Some (show (w_alive w), [VShown d])
    | Some o => match drawing w o with
                | None => None
                | Some _ => Some (show (delete o (w_alive w)), [VShown d])
                end
    end
  end.

(* One step of layoutGraph, /repo/viz/EnvireGraph2DStructureVisualization/EnvireGraph2DStructurWidget.cpp:80-122.  A locked mutex leaves
   the thread waiting.  None: undefined behaviour, agmemread gave a null graph, which gvLayout uses (103-104). *)
Definition layout_step (w : widget) : option (widget * list wevent) :=
  match w_lpc w with
  | LWhile => Some (lgoto w (if w_run w then LSleep else LEnd), [])
  | LSleep => Some (lgoto w LBreak, [])
  | LBreak => Some (lgoto w (if w_run w then LNeed else LEnd), [])
  | LNeed => Some (lgoto w (if w_need w then LPause else LWhile), [])
  | LPause => Some (lgoto w (if w_pause w then LWhile else LLock), [])
  | LLock => Some (match w_mutex w with None => lgoto (set_mutex w (Some ALayout)) LCopy | Some _ => w end, [])
  | LCopy => Some (lgoto (copy_current w) LClear, [VTaken (w_current w)])
  | LClear => Some (lgoto (set_need w false) LUnlock, [])
  | LUnlock => Some (lgoto (set_mutex w None) LDraw, [])
  | LDraw => if readable (w_dot w) then Some (lgoto (new_renderer w) LPost, []) else None
  | LPost => Some (lgoto (post w) LWhile, [])
  | LEnd => Some (w, [])
  end.

(* One step of the thread of the user interface inside displayGraph or the destructor,
   /repo/viz/EnvireGraph2DStructureVisualization/EnvireGraph2DStructurWidget.cpp:74-78 and 141-147. *)
Definition gui_step (w : widget) : option (widget * list wevent) :=
  match w_gpc w with
  | GIdle | GGone => Some (w, [])
  | GLock d => Some (match w_mutex w with None => ggoto (set_mutex w (Some AGui)) (GCopy d) | Some _ => w end, [])
  | GCopy d => Some (ggoto (set_current w d) (GNeed d), [VAsked d])
  | GNeed d => Some (ggoto (set_need w true) GUnlock, [])
  | GUnlock => Some (ggoto (set_mutex w None) GIdle, [])
  | GJoin => Some (match w_lpc w with LEnd => ggoto w GGone | _ => w end, [])
  end.

(* The idle event loop starts an action, /repo/viz/EnvireGraph2DStructureVisualization/EnvireGraph2DStructurWidget.cpp:74-78, 125-147.
   Painting uses the shared renderer of the item.  None: undefined behaviour, that renderer was deleted. *)
Definition start (w : widget) (a : action) : option (widget * list wevent) :=
  match w_gpc w with
  | GIdle =>
    match a with
    | ADisplay d => Some (ggoto w (GLock d), [])
    | AClick => Some (click w, [])
    | ADeliver => match w_queue w with [] => Some (w, []) | r :: q => display_svg w r q end
    | APaint => match w_item w with
                | None => Some (w, [])
                | Some r => match drawing w r with None => None | Some _ => Some (w, []) end
                end
    | ADestroy => Some (ggoto (stop w) GJoin, [])
    end
  | _ => Some (w, [])
  end.

(* One turn, see [turn]; /repo/viz/EnvireGraph2DStructureVisualization/EnvireGraph2DStructurWidget.cpp:80-147. *)
Definition wstep (w : widget) (t : turn) : option (widget * list wevent) :=
  match t with TStart a => start w a | TGui => gui_step w | TLayout => layout_step w end.

(* An execution: None if it is undefined, else the widget and what became visible.
   /repo/viz/EnvireGraph2DStructureVisualization/EnvireGraph2DStructurWidget.cpp:80-147. *)
Fixpoint wturns (w : widget) (l : list turn) : option (widget * list wevent) :=
  match l with
  | [] => Some (w, [])
  | t :: l => match wstep w t with
              | None => None
              | Some (w', e) => match wturns w' l with None => None | Some (w'', e') => Some (w'', e ++ e') end
              end
  end.

End widget.

(* The members that are used by both threads, /repo/viz/EnvireGraph2DStructureVisualization/EnvireGraph2DStructurWidget.hpp:83-88. *)
Inductive member := MCurrent | MNeed | MPause | MRun.

(* The member that the next step of the layout thread reads (false) or writes (true),
   /repo/viz/EnvireGraph2DStructureVisualization/EnvireGraph2DStructurWidget.cpp:85, 89, 92, 99 and 100. *)
Definition layout_access (w : widget) : option (member * bool) :=
  match w_lpc w with
  | LWhile | LBreak => Some (MRun, false)
  | LNeed => Some (MNeed, false)
  | LPause => Some (MPause, false)
  | LCopy => Some (MCurrent, false)
  | LClear => Some (MNeed, true)
  | LSleep | LLock | LUnlock | LDraw | LPost | LEnd => None
  end.

(* The member that the next step of the thread of the user interface writes, when an idle event loop starts [a] next:
   /repo/viz/EnvireGraph2DStructureVisualization/EnvireGraph2DStructurWidget.cpp:76, 127, 145 and 146.  pauseToggled also reads. *)
Definition gui_access (w : widget) (a : action) : option (member * bool) :=
  match w_gpc w with
  | GIdle => match a with AClick => Some (MPause, true) | ADestroy => Some (MRun, true) | ADisplay _ | ADeliver | APaint => None end
  | GCopy _ => Some (MCurrent, true)
  | GNeed _ => Some (MNeed, true)
  | GLock _ | GUnlock | GJoin | GGone => None
  end.
