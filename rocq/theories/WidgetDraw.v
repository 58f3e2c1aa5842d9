(** Proofs about the 2D structure widget and drawings of graphs. *)
From stdpp Require Import prelude strings gmap.
From Verif Require Import Outcome ItemClass Digraph Bfs TreeView GraphModel GraphOps SpecStore SpecObs GraphWf ItemsModel SpecItems
  ItemsThms DrawModel SpecDraw DrawThms WidgetModel SpecWidget WidgetThms.

Lemma graph_readable {E} (einv : E -> E) (io : iorder) (tname : tyid -> string) (estr : E -> string) (s : est E) :
  ereachable einv s -> iorder_ok io ->
  (forall f, contains_frame (es_g s) f = true -> plain f = true) ->
  (forall f T, items_in s f T <> [] -> type_like (tname T) = true) ->
  (forall a b p, get_edge_property (es_g s) a b = Ret p -> quotable (estr p) = true) ->
  is_dot (write_envire_graph io tname estr s) = true.
Proof.
  intros H1 H2 H3 H4 H5. destruct (drawing_read_back einv io tname estr s H1 H2 H3 H4 H5) as (b&a&E1&_).
  unfold read_picture in E1. unfold is_dot. destruct (read_dot _); done.
Qed.

Lemma graphs_defined {E} (einv : E -> E) (io : iorder) (tname : tyid -> string) (estr : E -> string) (l : list turn) :
  iorder_ok io ->
  (forall d, TStart (ADisplay d) ∈ l -> exists s : est E, d = write_envire_graph io tname estr s /\ ereachable einv s /\
    (forall f, contains_frame (es_g s) f = true -> plain f = true) /\
    (forall f T, items_in s f T <> [] -> type_like (tname T) = true) /\
    (forall a b p, get_edge_property (es_g s) a b = Ret p -> quotable (estr p) = true)) ->
  exists w ev, run_of is_dot l w ev.
Proof.
  intros HO HD. apply defined. intros d Hd. destruct (HD d Hd) as (s&->&H1&H2&H3&H4). by apply (graph_readable einv).
Qed.
