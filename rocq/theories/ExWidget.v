(** Executions of the 2D structure widget used as examples. *)
From stdpp Require Import prelude strings gmap.
From Verif Require Import SpecDraw WidgetModel SpecWidget.

(* Every text is readable. *)
Definition rd1 (d : string) : bool := true.

(* The widget is unpaused, "g1" is displayed and taken; while it is drawn, "g2" and "g3" are displayed. *)
Definition wl1 : list turn :=
  TStart AClick :: display "g1" ++ replicate 9 TLayout ++ display "g2" ++ [TLayout; TStart (ADisplay "g3"); TGui; TGui; TLayout; TGui; TGui].

(* The end of [wl1], in a run that shows everything. *)
Definition wl2 : list turn := wl1 ++ settle 14 2 ++ [TStart APaint].

(* The widget is paused when the layout thread has already looked at the flag; then another text is displayed. *)
Definition wl3 : list turn := TStart AClick :: display "g1" ++ replicate 5 TLayout ++ [TStart AClick].
Definition wl3' : list turn := replicate 6 TLayout ++ display "g2" ++ replicate 40 TLayout.

(* The widget is destroyed while a text is about to be taken. *)
Definition wl4 : list turn := TStart AClick :: display "g1" ++ replicate 4 TLayout ++ [TStart ADestroy].
Definition wl4' : list turn := TGui :: replicate 5 TLayout ++ TGui :: replicate 4 TLayout.

(* An execution, to be looked at. *)
Definition wlook (rd : string -> bool) (l : list turn) : option (widget * list wevent) := wturns rd new_widget l.
Definition wfinal (rd : string -> bool) (l : list turn) : widget := match wlook rd l with Some (w, _) => w | None => new_widget end.
Definition wseen (rd : string -> bool) (l : list turn) : list wevent := match wlook rd l with Some (_, e) => e | None => [] end.

Lemma wlook_run rd l : bool_decide (is_Some (wlook rd l)) = true -> run_of rd l (wfinal rd l) (wseen rd l).
Proof.
  intros H%bool_decide_eq_true. unfold run_of, wfinal, wseen, wlook in *. destruct (wturns rd new_widget l) as [[]|]; [done|].
  by destruct H.
Qed.
