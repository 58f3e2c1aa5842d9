(** A concrete installation used by the examples beside the theorems about creating items. *)
From stdpp Require Import prelude strings gmap.
From Verif Require Import ItemClass Outcome MiscModel SerialModel RegistryModel SpecDemand RegistryThms CreateModel SpecCreate CreateThms.

(* Example installation for /repo/src/plugin/ClassLoader.cpp:56-105: an item class, a class derived from it, a derived class alone, one with
   metadata, a singleton, and a collision class. *)
Definition kregs (l : nat) : list registration :=
  match l with
  | 0 => [RegItem "double" (CItem 0)]
  | 1 => [RegPlugin1 "Counter"]
  | 2 => [RegPlugin1 "Lonely"]
  | 3 => [RegPlugin2 "Length" "int" (CItem 1)]
  | 4 => [RegItem "text" (CItem 4)]
  | _ => []
  end.
(* Same: the library of a class. *)
Definition klib (c : string) : option nat :=
  if bool_decide (c = item_name "double") then Some 0 else if bool_decide (c = "Counter"%string) then Some 1
  else if bool_decide (c = "Lonely"%string) then Some 2 else if bool_decide (c = "Length"%string) then Some 3
  else if bool_decide (c = item_name "text") then Some 4 else if bool_decide (c = "Ball"%string) then Some 5 else None.
(* Same: the C++ classes. *)
Definition kclass (c : string) : iclass :=
  if bool_decide (c = item_name "double") then CItem 0 else if bool_decide (c = "Counter"%string) then CDerived 1 0
  else if bool_decide (c = "Lonely"%string) then CDerived 2 5 else if bool_decide (c = "Length"%string) then CDerived 3 1
  else if bool_decide (c = item_name "int") then CItem 1 else CItem 4.
(* Same: all of it. *)
Definition kct : catalog :=
  Catalog (Index [item_name "double"; "Counter"; "Lonely"; "Length"; item_name "text"] klib kregs (fun l => Nat.ltb l 6)) kclass
    (fun c => bool_decide (c = item_name "text")) (fun dt => if bool_decide (dt = "int"%string) then Some "Length"%string else None)
    (fun c => if bool_decide (c = "Counter"%string) then Some "Ball"%string else None) (fun l => if Nat.eqb l 5 then ["Ball"%string] else []).
(* Same: a process that has loaded nothing. *)
Definition kproc : proc := Proc [] ∅ 0.

Lemma kregs_cases l r : r ∈ kregs l -> r = RegItem "double" (CItem 0) \/ r = RegPlugin1 "Counter" \/ r = RegPlugin1 "Lonely" \/
  r = RegPlugin2 "Length" "int" (CItem 1) \/ r = RegItem "text" (CItem 4).
Proof. destruct l as [|[|[|[|[|l]]]]]; cbn; rewrite ?elem_of_cons, elem_of_nil; naive_solver. Qed.
Lemma kct_one_name : one_name (ct_index kct).
Proof.
  intros T c c' (l & r & Hr%kregs_cases & HT & <-) (l' & r' & Hr'%kregs_cases & HT' & <-).
  destruct Hr as [->|[->|[->|[->| ->]]]]; destruct Hr' as [->|[->|[->|[->| ->]]]]; cbn in *; congruence || done.
Qed.
Lemma kct_has l c : has_class (ct_index kct) l c <-> c ∈ item_classes kct l.
Proof. symmetry. apply item_classes_in. Qed.

(* An item of the derived class is saved under the name of Item of its data; where the reader has all the libraries installed, it is lost. *)
Lemma derived_lost : exists ct pr pr' o w q', one_name (ct_index ct) /\ create_item ct "Counter" pr = (pr', Some o) /\
  (forall q, creatable (ct_index ct) q "Counter") /\
  ob_save ct (pr_libs pr') o = (q', Ret (Some w)) /\ (ob_load ct [] w).2 = Throw XRuntime.
Proof.
  exists kct, kproc, (Proc [1] ∅ 1), (CObj 0 "Counter"), (item_name "double", CObj 0 "Counter"), [1; 0; 2; 3; 4].
  split; [exact kct_one_name|]. split; [by vm_compute|]. split.
  { intros q. exists 1. split; [by vm_compute|]. split; [by right|]. exists 1. split; [by left|]. apply kct_has. left. }
  by vm_compute.
Qed.
(* An item whose class the loader knows, with a handle for the class in the map, is not saved. *)
Lemma unnamed_not_saved : exists ct pr pr' o, one_name (ct_index ct) /\ create_item ct "Lonely" pr = (pr', Some o) /\
  has_handle (with_registry (ct_index ct) no_codec) (pr_libs pr') (ob_class o) = true /\ (ob_save ct (pr_libs pr') o).2 = Ret None.
Proof. exists kct, kproc, (Proc [2] ∅ 1), (CObj 0 "Lonely"). split; [exact kct_one_name|]. by vm_compute. Qed.
(* A plain item whose type has the name of a derived class counts as serialisable, and saving it throws. *)
Lemma plain_throws : exists ct p o, one_name (ct_index ct) /\
  (is_serializable (with_registry (ct_index ct) no_codec) p (type_index (ct_class ct (ob_class o)))).2 = true /\ (ob_save ct p o).2 = Throw XRuntime.
Proof. exists kct, [3], (CObj 7 (item_name "int")). split; [exact kct_one_name|]. by vm_compute. Qed.
(* The collision class of a derived class is not found from the item. *)
Lemma collision_not_found : exists ct pr o, creatable (ct_index ct) (pr_libs pr) (ob_class o) /\
  is_Some (create_collision_for ct (ob_class o) pr).2 /\ (create_collision_for_item ct o pr).2 = None.
Proof.
  exists kct, (Proc [1; 0] ∅ 1), (CObj 0 "Counter"). split.
  { exists 1. split; [by vm_compute|]. split; [by right|]. exists 1. split; [by left|]. apply kct_has. left. }
  split; [apply (bool_decide_unpack _); by vm_compute|by vm_compute].
Qed.
