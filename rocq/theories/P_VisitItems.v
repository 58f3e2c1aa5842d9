(** Property C104: visiting the items of a frame. *)
From stdpp Require Import prelude strings gmap.
From Coq Require Import ZArith.
From Verif Require Import Outcome ItemClass Digraph Bfs TreeView GraphModel GraphOps GraphStep ItemsModel SpecItems ItemsCopy VisitItemsModel SpecVisitItems
  VisitItemsThms ExGraph ExItems.

(* A visitor that makes no calls is called for the items of the frame, type by type, each in the order of its list, and its memory passes
   from one to the next; nothing changes. *)
Theorem C104_reads {E C : Type} (einv : E -> E) (z : ivisitor E C) io f c (s : est E) :
  (forall c i s, iz_do z c i s = IEnd) -> ereachable einv s -> contains_frame (es_g s) f = true ->
  visit_items_with einv io z f c (s, []) = ((s, all_items io s f), [], Ret (foldl (fun c i => iz_memory z c i s) c (all_items io s f))).
Proof. exact (vi_reads einv z io f c s). Qed.
Print Assumptions C104_reads.

Example C104_case_reads : let z := IVisitor (fun _ _ _ => IEnd) (fun (c : list nat) i _ => i :: c) : ivisitor Z (list nat) in
  (forall c i s, iz_do z c i s = IEnd) /\ ereachable Z.opp (istate Z.opp iops1) /\ contains_frame (es_g (istate Z.opp iops1)) fa = true /\
  all_items xio (istate Z.opp iops1) fa = [1; 2; 5; 3] /\ snd (visit_items_with Z.opp xio z fa [] (istate Z.opp iops1, [])) = Ret [3; 5; 2; 1].
Proof. cbv zeta. split; [done|]. split; [exact iops1_reachable|]. split_and!; by vm_compute. Qed.

(* Visiting an unknown frame throws and does nothing. *)
Theorem C104_unknown {E C : Type} (einv : E -> E) (z : ivisitor E C) io f c (s : est E) :
  ereachable einv s -> contains_frame (es_g s) f = false ->
  visit_items_with einv io z f c (s, []) = ((s, []), [], Throw (XUnknownFrame f)).
Proof. exact (vi_unknown einv z io f c s). Qed.
Print Assumptions C104_unknown.

Example C104_case_unknown : ereachable Z.opp (istate Z.opp iops1) /\ contains_frame (es_g (istate Z.opp iops1)) "x" = false.
Proof. split; [exact iops1_reachable|by vm_compute]. Qed.

(* A visitor whose calls are defined and write the items of other frames only is called once for each position of each list, in order; if
   it throws, for those up to the one it threw for.  The items of the frame stay as they are. *)
Theorem C104_each {E C : Type} (einv : E -> E) (z : ivisitor E C) io f c (s s' : est E) seen ev r :
  (forall c i s, allowed (iz_do z c i s)) -> (forall c i s, ereachable einv s -> stored s f i -> each_call einv (elsewhere f) (iz_do z c i s) s) ->
  ereachable einv s -> contains_frame (es_g s) f = true -> visit_items_with einv io z f c (s, []) = ((s', seen), ev, r) ->
  all_items io s' f = all_items io s f /\
  ((exists c', r = Ret c' /\ seen = all_items io s f) \/ (exists x todo, r = Throw x /\ all_items io s f = seen ++ todo /\ seen <> [])).
Proof. exact (vi_each einv z io f c s s' seen ev r). Qed.
Print Assumptions C104_each.

(** A visitor that clears frame b and throws at the second item. *)
Example C104_case_each :
  let z := IVisitor (fun (c : nat) _ _ => ICall xord xio (EClearFrame fb) (fun _ _ => if Nat.eqb c 1 then IThrow XRuntime else IEnd)) (fun (c : nat) _ _ => S c)
    : ivisitor Z nat in
  let q := visit_items_with Z.opp xio z fa 0 (istate Z.opp iops1, []) in
  (forall c i s, allowed (iz_do z c i s)) /\ (forall c i s, ereachable Z.opp s -> stored s fa i -> each_call Z.opp (elsewhere fa) (iz_do z c i s) s) /\
  ereachable Z.opp (istate Z.opp iops1) /\ contains_frame (es_g (istate Z.opp iops1)) fa = true /\
  snd (fst (fst q)) = [1; 2] /\ snd (fst q) = [EvItemRemoved fb 4] /\ snd q = Throw XRuntime.
Proof.
  intros z q. split. { intros c i s. constructor; [apply xio_ok|done|]. intros _ _. case_match; constructor. }
  split.
  { intros c i s Hs _. cbn [iz_do z each_call estep]. destruct (clear_frame_ends Z.opp xio fb s xio_ok Hs) as (s1 & ev & r & -> & Hok).
    split; [done|]. split; [done|]. by case_match. }
  split; [exact iops1_reachable|]. split_and!; by vm_compute.
Qed.

(* Any visitor: if the visit returns, it was called only for items that were in the frame in the beginning or were added meanwhile, and for
   every item that is in the frame in the end, except perhaps for items added meanwhile. *)
Theorem C104_complete {E C : Type} (einv : E -> E) (z : ivisitor E C) io f c c' (s s' : est E) seen ev :
  (forall c i s, allowed (iz_do z c i s)) -> iorder_ok io -> ereachable einv s -> visit_items_with einv io z f c (s, []) = ((s', seen), ev, Ret c') ->
  (forall i, i ∈ seen -> stored s f i \/ EvItemAdded f i ∈ ev) /\ (forall i, stored s' f i -> i ∈ seen \/ EvItemAdded f i ∈ ev).
Proof. exact (vi_complete einv z io f c c' s s' seen ev). Qed.
Print Assumptions C104_complete.

(** A visitor that removes item 3, of the other type, when called for item 1: item 3 is not visited. *)
Example C104_case_complete :
  let z := IVisitor (fun (c : nat) i _ => if Nat.eqb i 1 then ICall xord xio (ERemoveItem 3) (fun _ _ => IEnd) else IEnd) (fun (c : nat) _ _ => S c)
    : ivisitor Z nat in
  let q := visit_items_with Z.opp xio z fa 0 (istate Z.opp iops1, []) in
  (forall c i s, allowed (iz_do z c i s)) /\ iorder_ok xio /\ ereachable Z.opp (istate Z.opp iops1) /\
  snd q = Ret 3 /\ snd (fst (fst q)) = [1; 2; 5] /\ all_items xio (fst (fst (fst q))) fa = [1; 2; 5].
Proof.
  intros z q. split. { intros c i s. unfold z. cbn [iz_do]. case_match; repeat (constructor; try done; try apply xio_ok). }
  split; [apply xio_ok|]. split; [exact iops1_reachable|]. split_and!; by vm_compute.
Qed.

(* A visitor whose calls are defined, keep the frame, keep the list of the type it is called for and bring no item of a new type into the
   frame: the visit is defined. *)
Theorem C104_defined {E C : Type} (einv : E -> E) (z : ivisitor E C) io f c (s : est E) :
  (forall c i s, allowed (iz_do z c i s)) ->
  (forall c i s T, ereachable einv s -> i ∈ items_in s f T -> each_call einv (harmless f T) (iz_do z c i s) s) -> ereachable einv s ->
  ok (snd (visit_items_with einv io z f c (s, []))).
Proof. exact (vi_defined einv z io f c s). Qed.
Print Assumptions C104_defined.

(** A visitor that clears frame b. *)
Example C104_case_defined :
  let z := IVisitor (fun (c : nat) i _ => ICall xord xio (EClearFrame fb) (fun _ _ => IEnd)) (fun (c : nat) _ _ => S c) : ivisitor Z nat in
  (forall c i s, allowed (iz_do z c i s)) /\ (forall c i s T, ereachable Z.opp s -> i ∈ items_in s fa T -> each_call Z.opp (harmless fa T) (iz_do z c i s) s) /\
  ereachable Z.opp (istate Z.opp iops1) /\ snd (visit_items_with Z.opp xio z fa 0 (istate Z.opp iops1, [])) = Ret 4.
Proof.
  intros z. assert (Hz : forall c i s, allowed (iz_do z c i s)).
  { intros c i s. constructor; [apply xio_ok|done|]. intros _ _. constructor. }
  split; [done|]. split; [|split; [exact iops1_reachable|by vm_compute]]. apply (vi_calls Z.opp z fa Hz).
  intros c i s Hs _. cbn [iz_do z each_call estep]. destruct (clear_frame_ends Z.opp xio fb s xio_ok Hs) as (s1 & ev & r & -> & Hok). done.
Qed.

(* Visitors whose calls write the items of other frames only are of this kind. *)
Theorem C104_calls {E C : Type} (einv : E -> E) (z : ivisitor E C) f : (forall c i s, allowed (iz_do z c i s)) ->
  (forall c i s, ereachable einv s -> stored s f i -> each_call einv (elsewhere f) (iz_do z c i s) s) ->
  forall c i s T, ereachable einv s -> i ∈ items_in s f T -> each_call einv (harmless f T) (iz_do z c i s) s.
Proof. exact (vi_calls einv z f). Qed.
Print Assumptions C104_calls.

(* The call one would like to make from the visitor - remove the item it is called for - makes the visit undefined, for every frame and
   whatever its first item. *)
Theorem C104_remove_refuted {E C : Type} (einv : E -> E) (z : ivisitor E C) io f c i l (s : est E) ord io' :
  iorder_ok io -> ereachable einv s -> all_items io s f = i :: l -> (exists x, deref s i = Ret x /\ it_frame x = f) ->
  iz_do z c i s = ICall ord io' (ERemoveItem i) (fun _ _ => IEnd) ->
  snd (visit_items_with einv io z f c (s, [])) = UB.
Proof. exact (vi_remove einv z io f c i l s ord io'). Qed.
Print Assumptions C104_remove_refuted.

Example C104_case_remove : let z := IVisitor (fun (c : nat) i _ => ICall xord xio (ERemoveItem i) (fun _ _ => IEnd)) (fun (c : nat) _ _ => c) : ivisitor Z nat in
  all_items xio (istate Z.opp iops1) fa = [1; 2; 5; 3] /\ deref (istate Z.opp iops1) 1 = Ret (ItemV cA fa) /\
  iz_do z 0 1 (istate Z.opp iops1) = ICall xord xio (ERemoveItem 1) (fun _ _ => IEnd) /\
  snd (visit_items_with Z.opp xio z fb 0 (istate Z.opp iops1, [])) = UB.
Proof. split_and!; by vm_compute. Qed.

(* So does adding an item of the same type to the frame. *)
Theorem C104_add_refuted {E C : Type} (einv : E -> E) (z : ivisitor E C) io f c i j l T (s : est E) ord io' :
  iorder_ok io -> ereachable einv s -> all_items io s f = i :: l -> type_of s i T -> type_of s j T ->
  iz_do z c i s = ICall ord io' (EAddItemTo f j) (fun _ _ => IEnd) ->
  snd (visit_items_with einv io z f c (s, [])) = UB.
Proof. exact (vi_add einv z io f c i j l T s ord io'). Qed.
Print Assumptions C104_add_refuted.

Example C104_case_add : let s := istate Z.opp iops1 in
  all_items xio s fa = [1; 2; 5; 3] /\ type_of s 1 cA /\ type_of s 4 cA.
Proof.
  cbv zeta. split; [by vm_compute|]. split; eexists; split; by vm_compute.
Qed.
