(** Property C105: items are values. *)
From stdpp Require Import prelude strings gmap.
From Coq Require Import ZArith.
From Verif Require Import Outcome ItemClass Digraph Bfs TreeView GraphModel GraphOps ItemsModel SpecItems ItemsCopy MiscModel ItemValueModel SpecItemValue
  ItemValueThms ExGraph ExItems ExItemValue.

(* The copy constructor makes an object of the same class that says what the source says and has no callbacks; nothing else changes. *)
Theorem C105_copy {E : Type} (einv : E -> E) mf md p q (s : vst E) : is_Some (says s p) -> deref (vs_est s) q = UB ->
  exists s', vstep einv mf md (VCopy p q) s = (s', [], Ret tt) /\
  says s' q = says s p /\ class_of s' q = class_of s p /\ hears s' q = Some [] /\ (forall i, i <> q -> same_object s s' i) /\ same_contents s s'.
Proof. exact (value_copy einv mf md p q s). Qed.
Print Assumptions C105_copy.

Example C105_case_copy : is_Some (says (vstate vops1) 1) /\ deref (vs_est (vstate vops1)) 11 = UB /\
  says (vstate (vops1 ++ [VCopy 1 11])) 11 = Some (7, 8, fa, 9) /\ hears (vstate (vops1 ++ [VCopy 1 11])) 1 = Some [4].
Proof. split; [by eexists|]. split_and!; by vm_compute. Qed.

(* So does clone, but the new object is of class Item also where the source is of a derived class. *)
Theorem C105_clone {E : Type} (einv : E -> E) mf md p q (s : vst E) : is_Some (says s p) -> deref (vs_est s) q = UB ->
  exists s', vstep einv mf md (VClone p q) s = (s', [], Ret tt) /\
  says s' q = says s p /\ class_of s' q = type_index <$> class_of s p /\ hears s' q = Some [] /\ (forall i, i <> q -> same_object s s' i) /\
  same_contents s s'.
Proof. exact (value_clone einv mf md p q s). Qed.
Print Assumptions C105_clone.

Example C105_case_clone : is_Some (says (vstate vops1) 2) /\ deref (vs_est (vstate vops1)) 11 = UB /\
  says (vstate (vops1 ++ [VClone 2 11])) 11 = Some (0, 0, fa, 0) /\ class_of (vstate (vops1 ++ [VClone 2 11])) 11 = Some cA /\
  class_of (vstate (vops1 ++ [VClone 2 11])) 2 = Some cD.
Proof. split; [by eexists|]. split_and!; by vm_compute. Qed.

(* An item that is assigned to says what the source says and keeps its class and its callbacks; nothing else changes. *)
Theorem C105_assign {E : Type} (einv : E -> E) mf md p q (s : vst E) : is_Some (says s p) -> class_of s q = class_of s p ->
  exists s', vstep einv mf md (VAssign p q) s = (s', [], Ret tt) /\
  says s' q = says s p /\ class_of s' q = class_of s q /\ hears s' q = hears s q /\ (forall i, i <> q -> same_object s s' i) /\ same_contents s s'.
Proof. exact (value_assign einv mf md p q s). Qed.
Print Assumptions C105_assign.

Example C105_case_assign : is_Some (says (vstate vops1) 1) /\ class_of (vstate vops1) 5 = class_of (vstate vops1) 1 /\
  says (vstate (vops1 ++ [VAssign 1 5])) 5 = Some (7, 8, fa, 9) /\ hears (vstate (vops1 ++ [VAssign 1 5])) 5 = Some [6].
Proof. split; [by eexists|]. split_and!; by vm_compute. Qed.

(* The move constructor: as the copy constructor, but an object of class Item that is moved from is left with unspecified frame name and
   data; its time, uuid, class and callbacks stay.  Objects of derived classes are left as they are. *)
Theorem C105_move {E : Type} (einv : E -> E) mf md p q (s : vst E) : is_Some (says s p) -> deref (vs_est s) q = UB ->
  exists s', vstep einv mf md (VMove p q) s = (s', [], Ret tt) /\
  says s' q = says s p /\ class_of s' q = class_of s p /\ hears s' q = Some [] /\ left_behind mf md s s' p /\
  (forall i, i <> p -> i <> q -> same_object s s' i) /\ same_contents s s'.
Proof. exact (value_move einv mf md p q s). Qed.
Print Assumptions C105_move.

Example C105_case_move : is_Some (says (vstate vops1) 1) /\ deref (vs_est (vstate vops1)) 11 = UB /\
  says (vstate (vops1 ++ [VMove 1 11])) 11 = Some (7, 8, fa, 9) /\ says (vstate (vops1 ++ [VMove 1 11])) 1 = Some (7, 8, "", 0) /\
  says (vstate (vops1 ++ [VMove 2 11])) 2 = Some (0, 0, fa, 0).
Proof. split; [by eexists|]. split_and!; by vm_compute. Qed.

(* The move assignment likewise. *)
Theorem C105_move_assign {E : Type} (einv : E -> E) mf md p q (s : vst E) : p <> q -> is_Some (says s p) -> class_of s q = class_of s p ->
  exists s', vstep einv mf md (VMoveAssign p q) s = (s', [], Ret tt) /\
  says s' q = says s p /\ class_of s' q = class_of s q /\ hears s' q = hears s q /\ left_behind mf md s s' p /\
  (forall i, i <> p -> i <> q -> same_object s s' i) /\ same_contents s s'.
Proof. exact (value_move_assign einv mf md p q s). Qed.
Print Assumptions C105_move_assign.

Example C105_case_move_assign : 1 <> 5 /\ is_Some (says (vstate vops1) 1) /\ class_of (vstate vops1) 5 = class_of (vstate vops1) 1 /\
  says (vstate (vops1 ++ [VMoveAssign 1 5])) 5 = Some (7, 8, fa, 9) /\ hears (vstate (vops1 ++ [VMoveAssign 1 5])) 5 = Some [6] /\
  says (vstate (vops1 ++ [VMoveAssign 1 5])) 1 = Some (7, 8, "", 0).
Proof. split; [done|]. split; [by eexists|]. split_and!; by vm_compute. Qed.

(* A program that copies, moves and assigns items as it likes leaves the graph in a state that calls of the graph could have led to: what is
   proved of reachable graphs holds in such programs. *)
Theorem C105_reachable {E : Type} (einv : E -> E) mf md l (s s' : vst E) ev : ereachable einv (vs_est s) -> Forall vop_ok l ->
  vrun einv mf md l s = (s', ev, Ret tt) -> ereachable einv (vs_est s').
Proof. exact (values_reachable einv mf md l s s' ev). Qed.
Print Assumptions C105_reachable.

Example C105_case_reachable : ereachable Z.opp (vs_est vst_new) /\ Forall vop_ok vops2 /\ snd (vrun Z.opp xmf xmd vops2 vst_new) = Ret tt.
Proof. split; [apply (ereachable_new Z.opp)|]. split; [apply vops2_ok|by vm_compute]. Qed.

(* In a program that neither assigns to nor moves from items while they are in a frame (and adds only items that are in none), every item in
   a frame names that frame. *)
Theorem C105_frame {E : Type} (einv : E -> E) mf md l (s : vst E) ev : Forall vop_ok l -> vall_careful einv mf md l vst_new ->
  vrun einv mf md l vst_new = (s, ev, Ret tt) -> forall f i, stored (vs_est s) f i -> exists x, deref (vs_est s) i = Ret x /\ it_frame x = f.
Proof. exact (values_know_frame einv mf md l s ev). Qed.
Print Assumptions C105_frame.

Example C105_case_frame : Forall vop_ok vops2 /\ vall_careful Z.opp xmf xmd vops2 vst_new /\ snd (vrun Z.opp xmf xmd vops2 vst_new) = Ret tt /\
  stored (vs_est (vstate vops2)) fc 11 /\ says (vstate vops2) 11 = Some (1, 2, fc, 3) /\ stored (vs_est (vstate vops2)) fa 12.
Proof.
  split; [apply vops2_ok|]. split; [apply vops2_careful|]. split; [by vm_compute|]. split.
  { exists cA. apply (bool_decide_unpack _). by vm_compute. }
  split; [by vm_compute|]. exists cA. apply (bool_decide_unpack _). by vm_compute.
Qed.

(* The full claim "values of items can be assigned freely" is false: an item in a frame that is assigned an item of another frame stays in
   its frame, but removing it throws and changes nothing. *)
Theorem C105_assigned_refuted {E : Type} (einv : E -> E) mf md p q (s : vst E) f t u g d : ereachable einv (vs_est s) -> stored (vs_est s) f q ->
  says s p = Some (t, u, g, d) -> class_of s q = class_of s p -> ~ stored (vs_est s) g q ->
  exists s' e, vstep einv mf md (VAssign p q) s = (s', [], Ret tt) /\ stored (vs_est s') f q /\
  remove_item q (vs_est s') = (vs_est s', [], Throw e).
Proof. exact (assigned_lost einv mf md p q s f t u g d). Qed.
Print Assumptions C105_assigned_refuted.

Example C105_case_assigned : ereachable Z.opp (vs_est (vstate vops1)) /\ stored (vs_est (vstate vops1)) fa 1 /\
  says (vstate vops1) 4 = Some (0, 0, fb, 0) /\ class_of (vstate vops1) 1 = class_of (vstate vops1) 4 /\ ~ stored (vs_est (vstate vops1)) fb 1 /\
  snd (remove_item 1 (vs_est (vstate (vops1 ++ [VAssign 4 1])))) = Throw (XUnknownItem fb 1).
Proof.
  split; [apply vops1_reachable|]. split; [exists cA; apply (bool_decide_unpack _); by vm_compute|]. split; [by vm_compute|]. split; [by vm_compute|].
  split; [|by vm_compute]. apply not_there; [apply vops1_reachable|]. apply (bool_decide_unpack _). by vm_compute.
Qed.

(* Likewise an item in a frame that is moved from. *)
Theorem C105_moved_refuted {E : Type} (einv : E -> E) mf md p q (s : vst E) f t u d n : ereachable einv (vs_est s) -> stored (vs_est s) f p ->
  says s p = Some (t, u, f, d) -> class_of s p = Some (CItem n) -> deref (vs_est s) q = UB -> ~ stored (vs_est s) (mf f) p ->
  exists s' e, vstep einv mf md (VMove p q) s = (s', [], Ret tt) /\ stored (vs_est s') f p /\
  remove_item p (vs_est s') = (vs_est s', [], Throw e).
Proof. exact (moved_lost einv mf md p q s f t u d n). Qed.
Print Assumptions C105_moved_refuted.

Example C105_case_moved : ereachable Z.opp (vs_est (vstate vops1)) /\ stored (vs_est (vstate vops1)) fa 1 /\
  says (vstate vops1) 1 = Some (7, 8, fa, 9) /\ class_of (vstate vops1) 1 = Some (CItem 0) /\ deref (vs_est (vstate vops1)) 11 = UB /\
  ~ stored (vs_est (vstate vops1)) (xmf fa) 1.
Proof.
  split; [apply vops1_reachable|]. split; [exists cA; apply (bool_decide_unpack _); by vm_compute|]. split_and!; try by vm_compute.
  apply not_there; [apply vops1_reachable|]. apply (bool_decide_unpack _). by vm_compute.
Qed.
