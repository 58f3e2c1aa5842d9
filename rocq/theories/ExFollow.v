(** Windows of calls used by the examples about clients that follow a graph. *)
From stdpp Require Import prelude strings gmap gmultiset.
From Verif Require Import Outcome ItemClass Digraph Bfs TreeView GraphModel GraphOps SpecStore SpecObs ItemsModel SpecReplica SpecQueue SpecItems
  QueueModel SpecFollow ExGraph ExQueue ExItems.

(* Example client of /repo/src/events/GraphEventQueue.cpp:76-88: calls before the first flush and in two further windows; the edge a-b is
   modified twice, removed and added again, an item moves, a frame comes and goes, a frame is removed. *)
Definition fwin0 : list (eop Z) := [ERemoveItem 3; EGraph (OSetProp fb fa 7%Z)].
(* Same client, /repo/src/events/GraphEventQueue.cpp:76-88. *)
Definition fwin1 : list (eop Z) :=
  [EGraph (OSetProp fa fb 5%Z); EGraph (OSetProp fb fa 6%Z); EGraph (ORemoveEdge fb fa); ERemoveItem 5; EAddItemTo fd 5; EGraph (OAddFrame "e");
   EGraph (ORemoveFrame "e"); EGraph (OAddEdge fb fa 8%Z); EGraph (ORemoveFrame "z")].
(* Same client, /repo/src/events/GraphEventQueue.cpp:76-88. *)
Definition fwin2 : list (eop Z) := [EGraph (ORemoveEdge fb fc); EGraph (ORemoveFrame fc); EGraph (OSetProp fa fb 9%Z); EAddItemTo fa 3].

(* Decides that no edge is removed twice, to check the condition of C35 (/repo/src/events/GraphEventQueue.cpp:44-74) by computation. *)
Definition once_b (ev : list event) : bool :=
  forallb (fun p => match p.1, p.2 with EvEdgeRemoved a b, EvEdgeRemoved c d => negb (bool_decide ((a, b) = (c, d)) || bool_decide ((a, b) = (d, c))) | _, _ => true end)
    (pairs ev).
(* Decides that no frame is removed after an event about one of its items, same condition, /repo/src/events/GraphEventQueue.cpp:44-74. *)
Definition items_b (ev : list event) : bool :=
  forallb (fun p => match p.1, p.2 with EvItemAdded g _, EvFrameRemoved h | EvItemRemoved g _, EvFrameRemoved h => negb (bool_decide (g = h)) | _, _ => true end)
    (pairs ev).

Lemma once_b_ok ev a b x y : once_b ev = true -> sublist [x; y] ev -> on_edge a b x -> on_edge a b y -> is_remove x -> is_remove y -> False.
Proof.
  unfold once_b. rewrite <- Is_true_true, forallb_True, list.Forall_forall. intros Hall Hs Hx Hy Rx Ry. apply pairs_sublist, Hall in Hs. cbn in Hs.
  destruct x as [| | | |a1 b1| |]; try done. destruct y as [| | | |a2 b2| |]; try done.
  destruct Hx as [[= -> ->]|[= -> ->]], Hy as [[= -> ->]|[= -> ->]]; repeat case_bool_decide; done.
Qed.
Lemma items_b_ok ev : items_b ev = true -> no_short_lived_items ev.
Proof.
  unfold items_b. rewrite <- Is_true_true, forallb_True, list.Forall_forall. intros Hall f x Hs Hx.
  assert (Hsx : sublist [x; EvFrameRemoved f] ev). { etrans; [|exact Hs]. by apply sublist_cons. }
  apply pairs_sublist, Hall in Hsx. cbn in Hsx. destruct x; try done; cbn in Hx; subst; by rewrite bool_decide_true in Hsx.
Qed.

Lemma window_announced {E} (einv : E -> E) ops s : Forall eop_ok ops -> Forall (fun op => match op with ERemoveItemIt _ _ _ _ _ => False | _ => True end) ops ->
  (erun einv (ihist ops) s).2 = Ret tt -> announced einv (ihist ops) s.
Proof.
  intros Hok Hni Hr. split; [by apply ihist_ok|]. split; [|done]. clear Hok Hr. revert s.
  induction ops as [|op ops IH]; intros s; [done|]. apply list.Forall_cons in Hni as [H1 H2]. split; [by destruct op|by apply IH].
Qed.
Lemma window_calm {E} (einv : E -> E) h s : once_b (erun einv h s).1.2 = true -> items_b (erun einv h s).1.2 = true -> calm einv h s.
Proof. intros H1 H2. split; [|by apply items_b_ok]. intros a b x y _. by apply once_b_ok. Qed.
