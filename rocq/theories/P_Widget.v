(** Properties of the 2D structure widget: C93. *)
From stdpp Require Import prelude strings gmap.
From Verif Require Import Outcome ItemClass Digraph Bfs TreeView GraphModel GraphOps SpecStore SpecObs GraphWf ItemsModel SpecItems
  ItemsThms DrawModel SpecDraw ExGraph ExItems ExDraw WidgetModel SpecWidget WidgetThms WidgetDraw ExWidget.

(** ** C93: the 2D structure widget shows the graph displayed last
    Full statement: in every execution of the two threads, whatever texts are displayed, the behaviour is defined, no member is used by
    both threads at once, and when nothing is left to do the screen shows the drawing of the text given to displayGraph last.  Undefined
    behaviour is excluded only for texts that Graphviz reads, and data races only for the text: see the refutations.  [readable]: the
    texts Graphviz reads; [l]: any order of the threads' steps.  Memory is sequentially consistent. *)
Theorem C93_last_shown_partial (readable : string -> bool) l w ev :
  run_of readable l w ev -> at_rest w -> on_screen w = last (asked ev).
Proof. exact (rest_last readable l w ev). Qed.
Print Assumptions C93_last_shown_partial.

Example C93_case : run_of rd1 wl2 (wfinal rd1 wl2) (wseen rd1 wl2) /\ at_rest (wfinal rd1 wl2) /\
  asked (wseen rd1 wl2) = ["g1"; "g2"; "g3"] /\ shown (wseen rd1 wl2) = ["g1"; "g3"] /\ on_screen (wfinal rd1 wl2) = Some "g3".
Proof. split; [apply wlook_run; by vm_compute|by vm_compute]. Qed.

(** What is drawn comes in the order in which it was displayed, nothing twice; texts can be left out. *)
Theorem C93_in_order (readable : string -> bool) l w ev :
  run_of readable l w ev -> shown ev `prefix_of` taken ev /\ taken ev `sublist_of` asked ev.
Proof. exact (in_order readable l w ev). Qed.
Print Assumptions C93_in_order.

(** From every state in which the widget is neither paused nor being destroyed, fourteen steps of the layout thread and an empty queue
    bring the last text on the screen. *)
Theorem C93_arrives_partial (readable : string -> bool) l w ev n m :
  run_of readable l w ev -> w_gpc w = GIdle -> w_pause w = false -> (forall d, d ∈ asked ev -> readable d = true) ->
  14 <= n -> length (w_queue w) + 2 <= m ->
  exists w' e, wturns readable w (settle n m) = Some (w', e) /\ at_rest w' /\ asked e = [] /\ on_screen w' = last (asked ev).
Proof. exact (progress readable l w ev n m). Qed.
Print Assumptions C93_arrives_partial.

Example C93_arrives_case : let w := wfinal rd1 wl1 in run_of rd1 wl1 w (wseen rd1 wl1) /\ w_gpc w = GIdle /\ w_pause w = false /\
  w_queue w = [0] /\ asked (wseen rd1 wl1) = ["g1"; "g2"; "g3"] /\ on_screen w = None.
Proof. split; [apply wlook_run; by vm_compute|by vm_compute]. Qed.

(** Nor does it matter what else the user interface does: ten steps that the layout thread does not spend waiting for the mutex are enough
    to take a text, and the one taken is the last of those displayed until then. *)
Theorem C93_no_starvation (readable : string -> bool) l w ev l' w' e :
  run_of readable l w ev -> w_run w = true -> w_pause w = false -> w_need w = true -> w_lpc w <> LClear ->
  Forall (fun t => is_click t = false /\ is_destroy t = false) l' -> wturns readable w l' = Some (w', e) ->
  10 <= working_turns readable w l' -> exists e1 e2 d, e = e1 ++ VTaken d :: e2 /\ last (asked (ev ++ e1)) = Some d.
Proof. exact (no_starvation readable l w ev l' w' e). Qed.
Print Assumptions C93_no_starvation.

Example C93_no_starvation_case : let w := wfinal rd1 wl1 in run_of rd1 wl1 w (wseen rd1 wl1) /\ w_run w = true /\ w_pause w = false /\
  w_need w = true /\ w_lpc w = LWhile /\
  let l' := TStart (ADisplay "g4") :: TGui :: TGui :: replicate 7 TLayout ++ [TGui; TGui; TStart ADeliver] ++ replicate 5 TLayout in
  Forall (fun t => is_click t = false /\ is_destroy t = false) l' /\ 10 <= working_turns rd1 w l' /\
  (asked <$> (snd <$> wturns rd1 w l')) = Some ["g4"] /\ (taken <$> (snd <$> wturns rd1 w l')) = Some ["g4"].
Proof.
  split; [apply wlook_run; by vm_compute|]. do 4 (split; [by vm_compute|]). split; [cbn; repeat (constructor; [done|]); constructor|].
  split; [apply (bool_decide_unpack _); by vm_compute|by vm_compute].
Qed.

(** displayGraph never waits for a drawing: it has to wait for at most three steps of the layout thread, and for none while the thread draws. *)
Theorem C93_no_wait (readable : string -> bool) l w ev d :
  run_of readable l w ev -> w_gpc w = GIdle ->
  exists k w' e, k <= 3 /\ (waiting (w_lpc w) = true \/ w_lpc w = LDraw \/ w_lpc w = LPost -> k = 0) /\
    wturns readable w (replicate k TLayout ++ display d) = Some (w', e) /\ asked e = [d] /\ w_gpc w' = GIdle /\
    w_current w' = d /\ w_need w' = true.
Proof. exact (no_wait readable l w ev d). Qed.
Print Assumptions C93_no_wait.

(** The box shows whether the widget is paused.  A paused widget takes at most one more text, and none if the layout thread waits. *)
Theorem C93_paused (readable : string -> bool) l w ev l' w' e :
  run_of readable l w ev -> w_pause w = true -> Forall (fun t => is_click t = false) l' -> wturns readable w l' = Some (w', e) ->
  w_box w' = true /\ length (taken e) <= 1 /\ (waiting (w_lpc w) = true -> taken e = []).
Proof. exact (paused readable l w ev l' w' e). Qed.
Print Assumptions C93_paused.

Theorem C93_box (readable : string -> bool) l w ev : run_of readable l w ev -> w_box w = w_pause w.
Proof. exact (box_pause readable l w ev). Qed.
Print Assumptions C93_box.

Example C93_paused_case : let w := wfinal rd1 wl3 in run_of rd1 wl3 w (wseen rd1 wl3) /\ w_pause w = true /\
  Forall (fun t => is_click t = false) wl3' /\ (taken <$> (snd <$> wturns rd1 w wl3')) = Some ["g1"].
Proof.
  split; [apply wlook_run; by vm_compute|]. split; [by vm_compute|]. split; [cbn; repeat (constructor; [done|]); constructor|by vm_compute].
Qed.

(** The destructor ends: nine steps of the layout thread later it can join, whatever else happens.  At most one more text is taken,
    nothing more is shown, and after the destructor nothing happens. *)
Theorem C93_destroyed (readable : string -> bool) l w ev l' w' e :
  run_of readable l w ev -> w_gpc w = GJoin -> wturns readable w l' = Some (w', e) ->
  length (taken e) <= 1 /\ shown e = [] /\
  (9 <= layout_turns l' -> exists w'', gui_step w' = Some (w'', []) /\ w_gpc w'' = GGone).
Proof. exact (joins readable l w ev l' w' e). Qed.
Print Assumptions C93_destroyed.

Theorem C93_gone (readable : string -> bool) l w ev l' w' e :
  run_of readable l w ev -> w_gpc w = GGone -> wturns readable w l' = Some (w', e) -> w' = w /\ e = [].
Proof. exact (gone readable l w ev l' w' e). Qed.
Print Assumptions C93_gone.

Example C93_destroyed_case : let w := wfinal rd1 wl4 in run_of rd1 wl4 w (wseen rd1 wl4) /\ w_gpc w = GJoin /\ layout_turns wl4' = 9 /\
  (taken <$> (snd <$> wturns rd1 w wl4')) = Some ["g1"] /\ (w_gpc <$> (fst <$> wturns rd1 w (wl4' ++ [TGui]))) = Some GGone /\
  (w_lpc <$> (fst <$> wturns rd1 w wl4')) = Some LEnd.
Proof. split; [apply wlook_run; by vm_compute|]. split; [by vm_compute|]. by vm_compute. Qed.

(** Nothing undefined happens if Graphviz reads the texts: no renderer is used or deleted after it was deleted.  At most two
    renderers exist besides those in the queue. *)
Theorem C93_defined_partial (readable : string -> bool) l :
  (forall d, TStart (ADisplay d) ∈ l -> readable d = true) -> exists w ev, run_of readable l w ev.
Proof. exact (defined readable l). Qed.
Print Assumptions C93_defined_partial.

Theorem C93_renderers (readable : string -> bool) l w ev : run_of readable l w ev -> size (w_alive w) <= length (w_queue w) + 2.
Proof. exact (renderers readable l w ev). Qed.
Print Assumptions C93_renderers.

(** In particular for the drawings of graphs whose names have no special characters (as for C89). *)
Theorem C93_graphs_defined_partial {E} (einv : E -> E) (io : iorder) (tname : tyid -> string) (estr : E -> string) (l : list turn) :
  iorder_ok io ->
  (forall d, TStart (ADisplay d) ∈ l -> exists s : est E, d = write_envire_graph io tname estr s /\ ereachable einv s /\
    (forall f, contains_frame (es_g s) f = true -> plain f = true) /\
    (forall f T, items_in s f T <> [] -> type_like (tname T) = true) /\
    (forall a b p, get_edge_property (es_g s) a b = Ret p -> quotable (estr p) = true)) ->
  exists w ev, run_of is_dot l w ev.
Proof. exact (graphs_defined einv io tname estr l). Qed.
Print Assumptions C93_graphs_defined_partial.

Example C93_graph_case : let d := write_envire_graph xio xtname xestr (istate Z.opp iops1) in
  let l := TStart AClick :: display d ++ settle 14 2 in
  is_dot d = true /\ run_of is_dot l (wfinal is_dot l) (wseen is_dot l) /\ at_rest (wfinal is_dot l) /\
  on_screen (wfinal is_dot l) = Some d /\ size (w_alive (wfinal is_dot l)) = 1.
Proof. cbv zeta. split; [by vm_compute|]. split; [apply wlook_run; by vm_compute|by vm_compute]. Qed.

(** The members each step uses are those named by [layout_access] and [gui_access]: a step changes no member it is not said to write, and
    does the same whatever the members it is not said to use hold. *)
Theorem C93_accesses (readable : string -> bool) layout a w w' ev m : next_step readable layout a w = Some (w', ev) ->
  (next_access layout a w <> Some (m, true) -> same_member m w w') /\
  ((forall b, next_access layout a w <> Some (m, b)) -> forall v, same_but m w v ->
    exists v', next_step readable layout a v = Some (v', ev) /\ same_but m w' v' /\ same_member m v v').
Proof. exact (accesses readable layout a w w' ev m). Qed.
Print Assumptions C93_accesses.

(** The text is never used by both threads at once. *)
Theorem C93_text_not_raced (readable : string -> bool) l w ev : run_of readable l w ev -> ~ race w MCurrent.
Proof. exact (no_text_race readable l w ev). Qed.
Print Assumptions C93_text_not_raced.

(** But each of the three flags is: they are read outside of the mutex and are not atomic. *)
Theorem C93_flags_raced_refuted (readable : string -> bool) m : m <> MCurrent -> exists l w ev, run_of readable l w ev /\ race w m.
Proof.
  intros Hm. destruct m; [done|..].
  - exists [TStart (ADisplay ""); TGui; TGui; TLayout; TLayout; TLayout]. eexists _, _. split; [reflexivity|].
    exists AClick, true, false. by vm_compute.
  - exists (display "" ++ replicate 4 TLayout). eexists _, _. split; [vm_compute; reflexivity|].
    exists AClick, true, false. by vm_compute.
  - exists []. eexists _, _. split; [reflexivity|]. exists ADestroy, true, false. by vm_compute.
Qed.
Print Assumptions C93_flags_raced_refuted.

(** A text that Graphviz cannot read is undefined behaviour: the result of agmemread is used without a test.  The drawing of a graph
    that has a frame with a quote in its name is such a text. *)
Theorem C93_unreadable_refuted : exists s d, ereachable Z.opp s /\ d = write_envire_graph xio dtname xestr s /\ is_dot d = false /\
  forall readable, readable d = false -> wturns readable new_widget (TStart AClick :: display d ++ replicate 10 TLayout) = None.
Proof.
  exists (istate Z.opp (dops2 "a""b" cA)), (write_envire_graph xio dtname xestr (istate Z.opp (dops2 "a""b" cA))).
  split; [apply istate_reachable; [ops_ok|by vm_compute]|]. split; [done|]. split; [by vm_compute|].
  intros readable. exact (unreadable readable _).
Qed.
Print Assumptions C93_unreadable_refuted.

(** The destructor does not delete the renderer on display, nor those in the queue. *)
Theorem C93_leak_refuted : let l := wl2 ++ display "g5" ++ replicate 8 TLayout ++ TStart ADestroy :: replicate 9 TLayout ++ [TGui] in
  exists w ev, run_of rd1 l w ev /\ w_gpc w = GGone /\ size (w_alive w) = 2.
Proof. cbv zeta. eexists _, _. split; [apply wlook_run; by vm_compute|by vm_compute]. Qed.
Print Assumptions C93_leak_refuted.
