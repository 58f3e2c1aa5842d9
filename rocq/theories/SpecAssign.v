(** Specification of graphs that are copied and assigned to each other. *)
From stdpp Require Import prelude strings gmap.
From Verif Require Import Outcome Digraph GraphModel AssignModel.

Section spec.
Context {D E : Type}.

(** Every step of a program but the assignment of one graph to another. *)
Definition no_assign (op : aop D E) : Prop := match op with AAssign _ _ => False | _ => True end.

(** What a program without assignments of graphs may have made. *)
Definition made (d0 : D) (einv : E -> E) (w : aworld D E) : Prop :=
  exists p, Forall no_assign p /\ fst (fst (awrun d0 einv p aw_empty)) = w /\ snd (awrun d0 einv p aw_empty) = Ret tt.

(** The names of every graph lead to frames stored in this graph. *)
Definition separate (w : aworld D E) : Prop :=
  forall a o f v, aw_objs w !! a = Some o -> go_map o !! f = Some v -> aw_owns w a v = true.

(** A graph answers all queries by name like another one (or like itself at another time). *)
Record same_answers (w : aworld D E) (a : agid) (w' : aworld D E) (a' : agid) : Prop := SameAnswers {
  sa_contains : forall f, aw_contains w a f = aw_contains w' a' f;
  sa_property : forall f, aw_frame_property w a f = aw_frame_property w' a' f;
  sa_contains_edge : forall o t, aw_contains_edge w a o t = aw_contains_edge w' a' o t;
  sa_edge_property : forall o t, aw_edge_property w a o t = aw_edge_property w' a' o t;
  sa_num_vertices : aw_num_vertices w a = aw_num_vertices w' a';
  sa_num_edges : aw_num_edges w a = aw_num_edges w' a' }.

End spec.

(** The graph a step works on, if any: the one that is made, copied to, changed or destroyed. *)
Definition works_on {D E} (op : aop D E) : option agid :=
  match op with
  | ANew a | ACopy a _ | AAssign a _ | ADestroy a | AEmplace a _ _ | ASetData a _ _ | AAddEdge a _ _ _ | ASetProp a _ _ _
  | ARemoveEdge a _ _ | ARemoveFrame a _ => Some a
  | ASubscribe _ _ | ADestroySub _ => None
  end.

(** Programs that neither assign nor destroy graphs. *)
Definition no_destroy {D E} (op : aop D E) : Prop := match op with ADestroy _ => False | _ => True end.
(** Same. *)
Definition made_alive {D E} (d0 : D) (einv : E -> E) (w : aworld D E) : Prop :=
  exists p, Forall (fun op => no_assign op /\ no_destroy op) p /\ fst (fst (awrun d0 einv p aw_empty)) = w /\ snd (awrun d0 einv p aw_empty) = Ret tt.
