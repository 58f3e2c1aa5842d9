(** Concrete libraries used by the examples beside the theorems. *)
From Coq.Init Require Import Byte.
From stdpp Require Import prelude strings gmap.
From Verif Require Import ItemClass Outcome Digraph TreeView GraphModel GraphOps BufferModel SpecBuffer MiscModel SerialModel SpecSerial ArchiveModel
  SpecArchive RegistryModel SpecDemand ExSerial ExArchive.

(* Example installation for /repo/src/plugin/ClassLoader.cpp:85-105: the macros in three libraries. *)
Definition xregs (l : nat) : list registration :=
  match l with
  | 0 => [RegItem "double" (CItem 0)]
  | 1 => [RegItem "int" (CItem 1); RegPlugin1 "Counter"]
  | 2 => [RegPlugin2 "Length" "double" (CItem 0)]
  | _ => []
  end.
(* Same: the library of a class. *)
Definition xlib (c : string) : option nat :=
  if bool_decide (c = item_name "double") then Some 0 else if bool_decide (c = item_name "int") then Some 1
  else if bool_decide (c = "Length"%string) then Some 2 else None.
(* Same: an installation with the first two libraries; the third is neither known nor there. *)
Definition xix : index := Index [item_name "double"; item_name "int"]
  (fun c => if bool_decide (c = "Length"%string) then None else xlib c) (fun l => if Nat.eqb l 2 then [] else xregs l) (fun l => Nat.ltb l 2).
(* Same: one with all three. *)
Definition xix3 : index := Index [item_name "double"; item_name "int"; "Length"%string] xlib xregs (fun l => Nat.ltb l 3).



Lemma xix_regs l r : r ∈ ix_regs xix l -> r = RegItem "double" (CItem 0) \/ r = RegItem "int" (CItem 1) \/ r = RegPlugin1 "Counter".
Proof.
  cbn. destruct l as [|[|[|l]]]; cbn; rewrite ?elem_of_cons, elem_of_nil; naive_solver.
Qed.
Lemma xix_one_name : one_name xix.
Proof.
  intros T c c' (l & r & Hr%xix_regs & HT & <-) (l' & r' & Hr'%xix_regs & HT' & <-).
  destruct Hr as [->|[->| ->]]; destruct Hr' as [->|[->| ->]]; cbn in *; congruence || done.
Qed.
Lemma xix_installed dt T : (dt, T) ∈ [("double"%string, CItem 0); ("int"%string, CItem 1)] -> installed xix dt T.
Proof.
  rewrite !elem_of_cons, elem_of_nil. intros [[= -> ->]|[[= -> ->]|[]]]; [exists 0|exists 1]; (split; [|split; [done|split; [done|]]]); cbn.
  - left.
  - left.
  - right; left.
  - left.
Qed.
Lemma xix3_installed dt T : (dt, T) ∈ [("double"%string, CItem 0); ("int"%string, CItem 1)] -> installed xix3 dt T.
Proof.
  rewrite !elem_of_cons, elem_of_nil. intros [[= -> ->]|[[= -> ->]|[]]]; [exists 0|exists 1]; (split; [|split; [done|split; [done|]]]); cbn.
  - left.
  - left.
  - right; left.
  - left.
Qed.

(* Same: what is in the archive after the names. *)
Definition xsave (ix : index) (p : list nat) (i : bitem) (v : list byte) := save_item_to_binary (with_registry ix yenv) bcls ypre ychunk p i v.
(* Same: loading. *)
Definition xload (ix : index) (q : list nat) (v : list byte) := load_item_from_binary (with_registry ix yenv) ydec_pre q v.

(* An item of a type nobody knows is asked for; after that, an item of a known type is written under another name. *)
Lemma name_changes :
  exists (ix1 ix2 : index) (i j : bitem) p2 v1 v2,
    installed ix1 "double" (type_index (bcls i)) /\ installed ix2 "double" (type_index (bcls i)) /\ one_name ix2 /\
    save_item_to_binary (with_registry ix1 yenv) bcls ypre ychunk [0] i [] = ([0], Ret true, v1) /\
    load_item_from_binary (with_registry ix2 yenv) ydec_pre [] v1 = ([0], Ret (Some i)) /\
    is_serializable (with_registry ix1 yenv) [0] (type_index (bcls j)) = (p2, false) /\
    save_item_to_binary (with_registry ix1 yenv) bcls ypre ychunk p2 i [] = (p2, Ret true, v2) /\
    load_item_from_binary (with_registry ix2 yenv) ydec_pre [] v2 = ([], Ret None).
Proof.
  exists xix3, xix, (0, 5), (2, 9), [0; 1; 2], (xsave xix3 [0] (0, 5) []).2, (xsave xix3 [0; 1; 2] (0, 5) []).2.
  split; [apply xix3_installed; left|]. split; [apply xix_installed; left|]. split; [exact xix_one_name|]. by vm_compute.
Qed.

(* Same: a graph with items of both types. *)
Definition xops : list (gop (gmap iclass (list bitem)) Z) :=
  [OEmplaceFrame "a" {[CItem 1 := [(1, 7); (1, 8)]]}; OEmplaceFrame "b" {[CItem 0 := [(0, 5)]]}; OAddEdge "a" "b" 3%Z]%string.
Lemma xops_data : v_data <$> dg_verts (gs_dg (gstate xops)) =
  [{[CItem 1 := [(1, 7); (1, 8)]]}; {[CItem 0 := [(0, 5)]]} : gmap iclass (list bitem)].
Proof. by vm_compute. Qed.
Lemma xops_frames : Forall (fun m => typed bcls m /\ fits 4 m) (v_data <$> dg_verts (gs_dg (gstate xops))).
Proof.
  assert (H : forall T (is : list bitem), length is <= 4 -> (forall i, i ∈ is -> type_index (bcls i) = T) ->
    typed bcls {[T := is]} /\ fits 4 {[T := is]}).
  { intros T is Hl Ht. split; [intros T' is' i [<- <-]%lookup_singleton_Some; apply Ht|]. split; [rewrite map_size_singleton; lia|].
    by intros T' is' [<- <-]%lookup_singleton_Some. }
  rewrite xops_data. constructor; [|constructor; [|constructor]]; apply H; try (cbn; lia);
    intros i; rewrite !elem_of_cons, elem_of_nil; naive_solver.
Qed.
Lemma xops_types : Forall (fun m : gmap iclass (list bitem) => forall T is, m !! T = Some is -> is <> [] ->
  exists dt, installed xix dt T /\ installed xix3 dt T) (v_data <$> dg_verts (gs_dg (gstate xops))).
Proof.
  rewrite xops_data. constructor; [|constructor; [|constructor]]; intros T is [<- <-]%lookup_singleton_Some _.
  - exists "int"%string. split; [apply xix_installed|apply xix3_installed]; right; left.
  - exists "double"%string. split; [apply xix_installed|apply xix3_installed]; left.
Qed.
