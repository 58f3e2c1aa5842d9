(** Property C100: iterators over the items of a frame. *)
From stdpp Require Import prelude strings gmap.
From Verif Require Import Outcome ItemClass Digraph TreeView GraphModel GraphOps SpecStore SpecObs
  ItemsModel SpecReplica SpecItems ItemsThms IterModel SpecIter IterThms ExGraph ExItems.

(** ** C100: removing items while walking over them *)
(* The loop of the test: all items of the type, one event for each in the order of the list; nothing else changes. *)
Theorem C100_remove_all {E : Type} (einv : E -> E) s f T fuel : ereachable einv s -> contains_frame (es_g s) f = true -> length (items_in s f T) < fuel ->
  NoDup (items_in s f T) -> (forall i x, i ∈ items_in s f T -> deref s i = Ret x -> it_frame x = f) ->
  exists s', erase_items false (fun _ => true) f T fuel s = (s', EvItemRemoved f <$> items_in s f T, Ret tt) /\ ereachable einv s' /\
    erased s s' f T (items_in s f T) [].
Proof. exact (erase_all einv s f T fuel). Qed.
Print Assumptions C100_remove_all.

(* Any selection of items that are in the list once and name this frame: exactly these are removed.  Missing: the last
   item is selected and another one is not, see below. *)
Theorem C100_remove_selected_partial {E : Type} (einv : E -> E) p s f T fuel : ereachable einv s -> contains_frame (es_g s) f = true -> length (items_in s f T) < fuel ->
  NoDup (filter (fun i => p i = true) (items_in s f T)) ->
  (forall i x, i ∈ items_in s f T -> p i = true -> deref s i = Ret x -> it_frame x = f) ->
  (forall i, last (items_in s f T) = Some i -> p i = false) \/ (forall i, i ∈ items_in s f T -> p i = true) ->
  exists s', erase_items false p f T fuel s = (s', EvItemRemoved f <$> filter (fun i => p i = true) (items_in s f T), Ret tt) /\ ereachable einv s' /\
    erased s s' f T (filter (fun i => p i = true) (items_in s f T)) (filter (fun i => p i = false) (items_in s f T)).
Proof. exact (erase_right einv p s f T fuel). Qed.
Print Assumptions C100_remove_selected_partial.

(* If the last item is selected, the items that are not selected are lost, too; no event tells it and they still name
   the frame. *)
Theorem C100_remove_last_refuted {E : Type} (einv : E -> E) p s f T fuel i : ereachable einv s -> contains_frame (es_g s) f = true -> length (items_in s f T) < fuel ->
  NoDup (filter (fun i => p i = true) (items_in s f T)) ->
  (forall i x, i ∈ items_in s f T -> p i = true -> deref s i = Ret x -> it_frame x = f) ->
  last (items_in s f T) = Some i -> p i = true ->
  exists s', erase_items false p f T fuel s = (s', EvItemRemoved f <$> filter (fun i => p i = true) (items_in s f T), Ret tt) /\ ereachable einv s' /\
    erased s s' f T (filter (fun i => p i = true) (items_in s f T)) [].
Proof. exact (erase_wrong einv p s f T fuel i). Qed.
Print Assumptions C100_remove_last_refuted.

(* The iterators returned for the last item point into a vector that was destroyed: where these must not be compared,
   every loop that selects the last item is undefined, that of the test included. *)
Theorem C100_compare_refuted {E : Type} (einv : E -> E) p s f T fuel i : ereachable einv s -> contains_frame (es_g s) f = true -> length (items_in s f T) < fuel ->
  NoDup (filter (fun i => p i = true) (items_in s f T)) ->
  (forall i x, i ∈ items_in s f T -> p i = true -> deref s i = Ret x -> it_frame x = f) ->
  last (items_in s f T) = Some i -> p i = true ->
  exists s' ev, erase_items true p f T fuel s = (s', ev, UB).
Proof. exact (erase_strict einv p s f T fuel i). Qed.
Print Assumptions C100_compare_refuted.

(* The list the iterators run over is the same, and at the same place, until an event tells that an item of this type
   was put into or taken out of this frame. *)
Theorem C100_iterators_stay_valid {E : Type} (einv : E -> E) s h s' ev r f T : ereachable einv s -> ehist_ok h -> no_alias h ->
  erun einv h s = (s', ev, r) -> r = Ret tt \/ (exists x, r = Throw x) ->
  (forall e, e ∈ ev -> ~ item_event_of s' f T e) -> items_in s' f T = items_in s f T.
Proof. exact (stable einv s h s' ev r f T). Qed.
Print Assumptions C100_iterators_stay_valid.

(** Frame a holds the items 1, 2, 5 of type A. *)
Example C100_case : let s := istate Z.opp iops1 in
  ereachable Z.opp s /\ contains_frame (es_g s) fa = true /\ items_in s fa cA = [1; 2; 5] /\ NoDup [1; 2; 5] /\
  (forall i x, i ∈ [1; 2; 5] -> deref s i = Ret x -> it_frame x = fa) /\
  snd (fst (erase_items false (fun _ => true) fa cA 9 s)) = [EvItemRemoved fa 1; EvItemRemoved fa 2; EvItemRemoved fa 5] /\
  items_in (fst (fst (erase_items false (Nat.eqb 2) fa cA 9 s))) fa cA = [1; 5] /\
  items_in (fst (fst (erase_items false (Nat.leb 2) fa cA 9 s))) fa cA = [] /\
  snd (erase_items true (fun _ => true) fa cA 9 s) = UB /\ snd (erase_items true (Nat.eqb 2) fa cA 9 s) = Ret tt.
Proof.
  cbv zeta. split; [exact iops1_reachable|]. split; [by vm_compute|]. split; [by vm_compute|]. split; [apply (bool_decide_unpack _); by vm_compute|].
  split; [|by vm_compute]. intros i x Hi. apply elem_of_list_In in Hi.
  destruct Hi as [<-|[<-|[<-|[]]]]; intros Hx; vm_compute in Hx; injection Hx as <-; by vm_compute.
Qed.

(** Edges, a frame, items of another type and of this type in another frame come and go. *)
Example C100_stable_case : let s := istate Z.opp iops1 in
  let h := ihist [EGraph (OAddEdge fd fa 7%Z); ERemoveItem 3; ERemoveItem 4; EAddItemTo fa 3; EAddItemTo fd 4; EGraph (ORemoveEdge fa fb);
    EGraph (ORemoveEdge fb fc); EGraph (ORemoveFrame fb); ESetFrame 1 fc] in
  let q := erun Z.opp h s in ehist_ok h /\ no_alias h /\ snd q = Ret tt /\ items_in (fst (fst q)) fa cA = [1; 2; 5] /\
  (forall e, e ∈ snd (fst q) -> ~ item_event_of (fst (fst q)) fa cA e).
Proof.
  cbv zeta. split; [apply ihist_ok; ops_ok|]. split; [repeat constructor|]. split; [by vm_compute|]. split; [by vm_compute|].
  match goal with |- forall e, e ∈ ?x -> _ => let v := eval vm_compute in x in assert (Hv : x = v) by (vm_compute; reflexivity); rewrite Hv; clear Hv end.
  intros e He (i & x & Hor & Hx & HT). apply elem_of_list_In in He. cbn [In] in He. repeat (destruct He as [<-|He]); try by destruct He.
  all: destruct Hor as [Hor|Hor]; try discriminate Hor; injection Hor; clear Hor; intros; subst.
  all: revert Hx HT; match goal with |- ?a = _ -> _ => let v := eval vm_compute in a in change a with v end.
  all: intros [= <-] HT; vm_compute in HT; discriminate HT.
Qed.
