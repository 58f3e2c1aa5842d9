(** What is said about the 2D structure widget.  Independent of how its two threads work: what became visible in an execution, when
    there is nothing left to do, and what a data race is.  No proofs in this file. *)
From stdpp Require Import prelude strings gmap.
From Verif Require Import SpecDraw WidgetModel.

Global Instance lpc_eq_dec : EqDecision lpc.
Proof. solve_decision. Defined.

(* The texts given to displayGraph, those the layout thread took and those on the screen, in order. *)
Definition asked (l : list wevent) : list string := omap (fun e => match e with VAsked d => Some d | _ => None end) l.
Definition taken (l : list wevent) : list string := omap (fun e => match e with VTaken d => Some d | _ => None end) l.
Definition shown (l : list wevent) : list string := omap (fun e => match e with VShown d => Some d | _ => None end) l.

(* Is a text a dot file?  See SpecDraw. *)
Definition is_dot (d : string) : bool := match read_dot d with Some _ => true | None => false end.

(* Executions of a new widget. *)
Definition run_of (readable : string -> bool) (l : list turn) (w : widget) (ev : list wevent) : Prop :=
  wturns readable new_widget l = Some (w, ev).

(* The text whose drawing is on the screen. *)
Definition on_screen (w : widget) : option string := match w_item w with Some r => drawing w r | None => None end.

(* Is the layout thread waiting for something to draw, i.e. has it nothing in its hands? *)
Definition waiting (p : lpc) : bool := match p with LWhile | LSleep | LBreak | LNeed | LEnd => true | _ => false end.

(* Nothing left to do: the event loop is idle, its queue is empty, nothing is to be redrawn, the layout thread waits. *)
Definition at_rest (w : widget) : Prop :=
  w_gpc w = GIdle /\ w_queue w = [] /\ w_need w = false /\ waiting (w_lpc w) = true.

(* A turn of the layout thread; a click in a turn. *)
Definition is_layout (t : turn) : bool := match t with TLayout => true | TStart _ | TGui => false end.
Definition is_click (t : turn) : bool := match t with TStart AClick => true | _ => false end.
(* How many turns of the layout thread are in an execution? *)
Definition layout_turns (l : list turn) : nat := length (filter (fun t => is_layout t = true) l).

Definition is_destroy (t : turn) : bool := match t with TStart ADestroy => true | _ => false end.

(* How many turns of the layout thread are not spent waiting for the mutex? *)
Fixpoint working_turns (readable : string -> bool) (w : widget) (l : list turn) : nat :=
  match l with
  | [] => 0
  | t :: l =>
    match wstep readable w t with
    | None => 0
    | Some (w', _) => (if is_layout t && negb (bool_decide (w_lpc w = w_lpc w')) then 1 else 0) + working_turns readable w' l
    end
  end.

(* A call of displayGraph from start to end, nothing else running. *)
Definition display (d : string) : list turn := TStart (ADisplay d) :: replicate 4 TGui.

(* The layout thread alone, then the event loop emptying its queue. *)
Definition settle (n m : nat) : list turn := replicate n TLayout ++ replicate m (TStart ADeliver).

(* A data race: each thread's next step uses the same member and one of them writes it. *)
Definition race (w : widget) (m : member) : Prop :=
  exists a b1 b2, gui_access w a = Some (m, b1) /\ layout_access w = Some (m, b2) /\ b1 || b2 = true.

(* The two widgets differ in the member [m] at most. *)
Definition same_but (m : member) (w w' : widget) : Prop :=
  (m <> MCurrent -> w_current w = w_current w') /\ (m <> MNeed -> w_need w = w_need w') /\ (m <> MPause -> w_pause w = w_pause w') /\
  (m <> MRun -> w_run w = w_run w') /\
  (w_mutex w, w_lpc w, w_dot w, w_r w, w_gpc w, w_box w, w_queue w, w_item w, w_shared w, w_alive w, w_next w) =
  (w_mutex w', w_lpc w', w_dot w', w_r w', w_gpc w', w_box w', w_queue w', w_item w', w_shared w', w_alive w', w_next w').
(* The value of the member [m] is the same. *)
Definition same_member (m : member) (w w' : widget) : Prop :=
  match m with MCurrent => w_current w = w_current w' | MNeed => w_need w = w_need w' | MPause => w_pause w = w_pause w' | MRun => w_run w = w_run w' end.
(* The next step of a thread, when an idle event loop starts [a] next, and the member it uses. *)
Definition next_step (readable : string -> bool) (layout : bool) (a : action) (w : widget) : option (widget * list wevent) :=
  if layout then layout_step readable w else match w_gpc w with GIdle => start w a | _ => gui_step w end.
Definition next_access (layout : bool) (a : action) (w : widget) : option (member * bool) :=
  if layout then layout_access w else gui_access w a.
