(** C85, C86: event handlers that run inside the item functions of a graph. *)
From stdpp Require Import prelude strings gmap gmultiset.
From Verif Require Import Outcome ItemClass Digraph Bfs TreeView GraphModel GraphOps SpecStore SpecObs ItemsModel SpecItems
  ItemHandlerModel SpecItemHandler ItemHandlerThms ExGraph ExItems ExItemHandler.

(** ** C85: handlers of item events see the finished change *)

Theorem C85_add_item_to_frame {E : Type} (h : event -> call (est E) unit) f i s :
  add_item_to_frame_h h f i s = then_handled h (add_item_to_frame f i s).
Proof. exact (add_item_to_frame_after h f i s). Qed.
Print Assumptions C85_add_item_to_frame.

Theorem C85_add_item {E : Type} (h : event -> call (est E) unit) i s : add_item_h h i s = then_handled h (add_item i s).
Proof. exact (add_item_after h i s). Qed.
Print Assumptions C85_add_item.

Theorem C85_remove_item {E : Type} (h : event -> call (est E) unit) i s : remove_item_h h i s = then_handled h (remove_item i s).
Proof. exact (remove_item_after h i s). Qed.
Print Assumptions C85_remove_item.

(** The full statement is that removal through an iterator with handlers is [then_handled] of the removal without; this is refuted
    below.  Missing: handlers that write the items of the frame, and what handlers see. *)
Theorem C85_remove_by_iterator_partial {E : Type} (einv : E -> E) (h : event -> call (est E) unit) touched I io s f T k i x l v (alias : bool) later s' ev r :
  ereachable einv s -> kept I v -> I s -> iorder_ok io -> get_vertex (es_g s) f = Ret v ->
  get_items s f T = Ret l -> l !! k = Some i -> deref s i = Ret x -> it_frame x = f -> all_items io s f ≡ₚ i :: later ->
  respects h touched I v (EvItemRemoved (if alias then "" else f) i) later ->
  remove_item_it_h h touched f alias T f k s = (s', ev, r) ->
  (r = Ret tt /\ items_at s' v = items_at (remove_item_it f alias T f k s).1.1 v) \/ ((exists y, r = Throw y) /\ holds s' v later).
Proof. exact (remove_item_it_handled einv h touched I io s f T k i x l v alias later s' ev r). Qed.
Print Assumptions C85_remove_by_iterator_partial.

(** For every only item of a type: handlers are run while the frame still has an empty list for the type, and a handler that throws
    leaves it there. *)
Theorem C85_remove_by_iterator_refuted {E : Type} (einv : E -> E) s f T i x (alias : bool) :
  ereachable einv s -> get_items s f T = Ret [i] -> deref s i = Ret x -> it_frame x = f ->
  let e := EvItemRemoved (if alias then "" else f) i in
  (exists s1, remove_item_it f alias T f 0 s = (s1, [e], Ret tt) /\ contains_items s1 f T = Ret false) /\
  exists sh, contains_items sh f T = Ret true /\ get_items sh f T = Ret [] /\
    forall (h : event -> call (est E) unit) touched s' ev y, h e sh = (s', ev, Throw y) ->
      remove_item_it_h h touched f alias T f 0 s = (s', e :: ev, Throw y).
Proof. exact (remove_item_it_sees einv s f T i x alias). Qed.
Print Assumptions C85_remove_by_iterator_refuted.

Theorem C85_without_handlers {E : Type} (h : event -> call (est E) unit) touched :
  (forall e s, h e s = (s, [], Ret tt)) -> (forall e s, touched e s = ∅) ->
  (forall f alias T itf k s, remove_item_it_h h touched f alias T itf k s = remove_item_it f alias T itf k s) /\
  (forall io f s, clear_frame_h h touched io f s = clear_frame io f s) /\
  (forall io f s, eg_remove_frame_h h touched io f s = eg_remove_frame io f s).
Proof.
  exact (fun Hh Ht => conj (remove_item_it_silent h touched Hh Ht) (conj (clear_frame_silent h touched Hh Ht) (eg_remove_frame_silent h touched Hh Ht))).
Qed.
Print Assumptions C85_without_handlers.

(* The handler adds a removed item to another frame. *)
Example C85_case : let s := istate Z.opp iops1 in
  ereachable Z.opp s /\ get_items s fa cB = Ret [3] /\ deref s 3 = Ret (ItemV cB fa) /\
  get_items s fa cA = Ret [1; 2; 5] /\ deref s 2 = Ret (ItemV cD fa) /\ all_items xio s fa ≡ₚ 2 :: [1; 5; 3] /\
  kept (E := Z) (can_move fb 1 [1; 2; 5; 3]) 1 /\ can_move fb 1 [1; 2; 5; 3] s /\ get_vertex (es_g s) fa = Ret 1 /\
  respects (E := Z) (mover fb) (moves_to fb) (can_move fb 1 [1; 2; 5; 3]) 1 (EvItemRemoved fa 2) [1; 5; 3] /\
  (let q := remove_item_h (mover fb) 2 s in
   snd q = Ret tt /\ snd (fst q) = [EvItemRemoved fa 2; EvItemAdded fb 2] /\
   all_items xio (fst (fst q)) fa = [1; 5; 3] /\ all_items xio (fst (fst q)) fb = [4; 2]) /\
  (let q := remove_item_it_h (mover fb) (moves_to fb) fa false cA fa 1 s in
   snd q = Ret tt /\ all_items xio (fst (fst q)) fa = [1; 5; 3] /\ all_items xio (fst (fst q)) fb = [4; 2]).
Proof.
  cbv zeta. split; [apply iops1_reachable|]. split; [by vm_compute|]. split; [by vm_compute|]. split; [by vm_compute|]. split; [by vm_compute|].
  split; [rewrite iops1_in_fa; apply perm_swap|].
  split; [apply can_move_kept|]. split; [exact iops1_can_move|].
  split; [by vm_compute|]. split; [apply mover_respects; set_solver|]. split; by vm_compute.
Qed.

(** ** C86: clearing a frame with handlers *)

(** The full statement is for all handlers; handlers that write the items of the frame are refuted below. *)
Theorem C86_clear_frame_returns_partial {E : Type} (einv : E -> E) (h : event -> call (est E) unit) touched I io s f v s' ev :
  ereachable einv s -> kept I v -> I s -> iorder_ok io -> get_vertex (es_g s) f = Ret v ->
  (forall pre i post, all_items io s f = pre ++ i :: post -> respects h touched I v (EvItemRemoved f i) post) ->
  clear_frame_h h touched io f s = (s', ev, Ret tt) ->
  I s' /\ holds s' v [] /\ (forall T, contains_items_v s' v T = Ret false) /\
  exists evs, length evs = length (all_items io s f) /\ ev = interleaved f (all_items io s f) evs.
Proof. exact (clear_frame_done einv h touched I io s f v s' ev). Qed.
Print Assumptions C86_clear_frame_returns_partial.

Theorem C86_clear_frame_throws_partial {E : Type} (einv : E -> E) (h : event -> call (est E) unit) touched I io s f v s' ev x :
  ereachable einv s -> kept I v -> I s -> iorder_ok io -> get_vertex (es_g s) f = Ret v ->
  (forall pre i post, all_items io s f = pre ++ i :: post -> respects h touched I v (EvItemRemoved f i) post) ->
  clear_frame_h h touched io f s = (s', ev, Throw x) ->
  I s' /\ exists pre i post evs, all_items io s f = pre ++ i :: post /\ holds s' v post /\
    length evs = S (length pre) /\ ev = interleaved f (pre ++ [i]) evs.
Proof. exact (clear_frame_thrown einv h touched I io s f v s' ev x). Qed.
Print Assumptions C86_clear_frame_throws_partial.

Theorem C86_clear_frame_defined_partial {E : Type} (einv : E -> E) (h : event -> call (est E) unit) touched I io s f v :
  ereachable einv s -> kept I v -> I s -> iorder_ok io -> get_vertex (es_g s) f = Ret v ->
  (forall pre i post, all_items io s f = pre ++ i :: post -> respects h touched I v (EvItemRemoved f i) post) ->
  (clear_frame_h h touched io f s).2 = Ret tt \/
  exists i sh x, i ∈ all_items io s f /\ (h (EvItemRemoved f i) sh).2 = Throw x /\ (clear_frame_h h touched io f s).2 = Throw x.
Proof. exact (clear_frame_defined einv h touched I io s f v). Qed.
Print Assumptions C86_clear_frame_defined_partial.

Theorem C86_unknown_frame {E : Type} (h : event -> call (est E) unit) touched io s f :
  get_vertex (es_g s) f = Throw (XUnknownFrame f) -> clear_frame_h h touched io f s = (s, [], Throw (XUnknownFrame f)).
Proof. exact (clear_unknown h touched io s f). Qed.
Print Assumptions C86_unknown_frame.

(** For every frame with an item: a handler of its removal that writes the items of the frame. *)
Theorem C86_handler_writes_refuted {E : Type} (einv : E -> E) (h : event -> call (est E) unit) touched io s f v i l :
  ereachable einv s -> iorder_ok io -> get_vertex (es_g s) f = Ret v -> all_items io s f = i :: l ->
  (forall sh, (h (EvItemRemoved f i) sh).2 = Ret tt) -> (forall sh, v ∈ touched (EvItemRemoved f i) sh) ->
  (clear_frame_h h touched io f s).2 = UB.
Proof. exact (clear_frame_touched einv h touched (fun _ => True) io s f v i l). Qed.
Print Assumptions C86_handler_writes_refuted.

(** A handler that throws leaves the frame with a type without items. *)
Theorem C86_interrupted_refuted : exists (s : est Z) h touched f T s' ev x, ereachable Z.opp s /\ iorder_ok xio /\
  (forall e s, (h e s).1.1 = s) /\ (forall e s, touched e s = ∅) /\
  clear_frame_h h touched xio f s = (s', ev, Throw x) /\ contains_items s' f T = Ret true /\ get_items s' f T = Ret [].
Proof.
  set (s := istate Z.opp iops1).
  set (h := (fun e s => (s, [], match e with EvItemRemoved _ i => if Nat.eqb i 3 then Throw XRuntime else Ret tt | _ => Ret tt end)) : event -> call (est Z) unit).
  set (t := (fun _ _ => ∅) : event -> est Z -> gset vid).
  exists s, h, t, fa, cB, (clear_frame_h h t xio fa s).1.1, (clear_frame_h h t xio fa s).1.2, XRuntime.
  split; [apply iops1_reachable|]. split; [apply xio_ok|]. split; [done|]. split; [done|].
  split; [apply split_outcome; by vm_compute|]. by vm_compute.
Qed.
Print Assumptions C86_interrupted_refuted.

(* All items are moved to another frame by a handler; a handler that puts them back makes clearFrame undefined. *)
Example C86_unknown_case : get_vertex (es_g (istate Z.opp iops1)) "nowhere" = Throw (XUnknownFrame "nowhere").
Proof. by vm_compute. Qed.

Example C86_case : let s := istate Z.opp iops1 in let I := can_move (E := Z) fb 1 [1; 2; 5; 3] in
  ereachable Z.opp s /\ kept I 1 /\ I s /\ get_vertex (es_g s) fa = Ret 1 /\ all_items xio s fa = [1; 2; 5; 3] /\
  (forall pre i post, all_items xio s fa = pre ++ i :: post -> respects (mover fb) (moves_to fb) I 1 (EvItemRemoved fa i) post) /\
  (let q := clear_frame_h (mover fb) (moves_to fb) xio fa s in
   snd q = Ret tt /\ length (snd (fst q)) = 8 /\ all_items xio (fst (fst q)) fb = [4; 1; 2; 5; 3]) /\
  snd (clear_frame_h (mover fa) (moves_to fa) xio fa s) = UB.
Proof.
  cbv zeta. split; [apply iops1_reachable|]. split; [apply can_move_kept|]. split; [exact iops1_can_move|].
  split; [by vm_compute|]. split; [by vm_compute|]. split; [|by vm_compute].
  intros pre i post Hall. apply mover_respects. rewrite iops1_in_fa in Hall. rewrite Hall. set_solver.
Qed.
