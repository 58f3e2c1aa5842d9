(** Specification: a program of calls when nothing is connected to the signals of tree views. *)
From stdpp Require Import prelude strings gmap.
From Verif Require Import Outcome Digraph TreeView GraphModel GraphOps HandlerModel.

(** One call after the other; the program goes on as it likes after each, having seen the state and the result. *)
Fixpoint plain {D E} (d0 : D) (einv : E -> E) (prog : script D E) (s : gst D E) : gst D E * list event * outcome unit :=
  match prog with
  | SEnd => (s, [], Ret tt)
  | SThrow x => (s, [], Throw x)
  | SCall ord op k =>
      let '(s1, ev1, r) := gstep d0 einv ord op s in
      match r with
      | Ret _ | Throw _ => let '(s2, ev2, r2) := plain d0 einv (k s1 r) s1 in (s2, ev1 ++ ev2, r2)
      | UB => (s1, ev1, UB)
      | Fuel => (s1, ev1, Fuel)
      end
  end.
