(** Concrete programs that copy, move and assign items, for the examples beside the theorems. *)
From stdpp Require Import prelude strings gmap.
From Coq Require Import ZArith.
From Verif Require Import Outcome ItemClass Digraph Bfs TreeView GraphModel GraphOps GraphStep ItemsModel SpecItems MiscModel ItemValueModel SpecItemValue ItemValueThms
  ItemsCopy ItemsLog ItemsThms ItemsPublish ExGraph ExItems.

(* What the moved-from frame names and data are in the examples: an empty string and 0.  /repo/src/items/Item.hpp:82-83. *)
Definition xmf : frameid -> frameid := fun _ => "".
(* Same. *)
Definition xmd : nat -> nat := fun _ => 0.
(* Client code of /repo/src/items/Item.hpp:58-116: the graph and the items of [iops1]; items 1 and 5 have values and callbacks. *)
Definition vops1 : list (vop Z) := (VCall xord xio <$> iops1) ++ [VSet 1 7 8 9; VSignal 1 (SConnect 4); VSet 5 10 11 12; VSignal 5 (SConnect 6)].
(* The state after a program. *)
Definition vstate (l : list (vop Z)) : vst Z := fst (fst (vrun Z.opp xmf xmd l vst_new)).
Lemma vops1_ok : Forall vop_ok vops1.
Proof. repeat (apply list.Forall_cons; split; [first [done|by split; [apply xio_ok|]]|]). by apply list.Forall_nil. Qed.
Lemma vstate_reachable l : Forall vop_ok l -> snd (vrun Z.opp xmf xmd l vst_new) = Ret tt -> ereachable Z.opp (vs_est (vstate l)).
Proof.
  intros Hl Hr. unfold vstate. destruct (vrun Z.opp xmf xmd l vst_new) as [[s ev] r] eqn:H. cbn in Hr. subst r.
  eapply (values_reachable Z.opp xmf xmd l vst_new s ev); [|done|done]. apply (ereachable_new Z.opp).
Qed.
Lemma vops1_reachable : ereachable Z.opp (vs_est (vstate vops1)).
Proof. apply vstate_reachable; [apply vops1_ok|by vm_compute]. Qed.

(* Decides that an item is in no frame.  Used for the examples only. *)
Definition nowhere_b (s : vst Z) (i : iptr) : bool := bool_decide (Forall (fun f => i ∉ all_items xio (vs_est s) f) (names (gs_dg (es_g (vs_est s))))).
(* Decides that a call respects the rules.  Used for the examples only. *)
Definition vcareful_b (s : vst Z) (op : vop Z) : bool :=
  match op with
  | VCall _ _ op => careful_b (vs_est s) op
  | VMove p _ => nowhere_b s p
  | VAssign _ q => nowhere_b s q
  | VMoveAssign p q => nowhere_b s p && nowhere_b s q
  | _ => true
  end.
(* Decides that all calls of a program do.  Used for the examples only. *)
Fixpoint vall_careful_b (l : list (vop Z)) (s : vst Z) : bool :=
  match l with
  | [] => true
  | op :: l' => vcareful_b s op && match vstep Z.opp xmf xmd op s with (s', _, (Ret _ | Throw _)) => vall_careful_b l' s' | _ => false end
  end.
Lemma nowhere_ok s i : ereachable Z.opp (vs_est s) -> nowhere_b s i = true -> nowhere s i.
Proof. intros Hs H%bool_decide_eq_true. unfold nowhere. by apply (not_stored Z.opp). Qed.
Lemma vall_careful_ok l s : ereachable Z.opp (vs_est s) -> Forall vop_ok l -> vall_careful_b l s = true -> vall_careful Z.opp xmf xmd l s.
Proof.
  revert s. induction l as [|op l IH]; intros s Hs Hl; [done|]. cbn [vall_careful_b vall_careful]. intros [H1 H2]%andb_true_iff.
  apply list.Forall_cons in Hl as [Hop Hl]. split.
  - destruct op as [ord io op|p q|p q|p q|p q|p q|p t u d|p c]; try done; cbn in H1 |- *.
    + destruct op; try done; cbn in *; apply bool_decide_eq_true in H1; by apply (not_stored Z.opp).
    + by apply nowhere_ok.
    + by apply nowhere_ok.
    + apply andb_true_iff in H1 as [??]. split; by apply nowhere_ok.
  - destruct (vstep Z.opp xmf xmd op s) as [[s1 ev1] r1] eqn:Hst. cbn [fst].
    assert (Hs1 : ok r1 -> ereachable Z.opp (vs_est s1)).
    { intros Hok. destruct (vstep_calls Z.opp xmf xmd op s s1 ev1 r1 Hop Hst Hok) as (h & Hh & Hrh & _). by eapply (ereachable_run Z.opp). }
    destruct r1; try done; (apply IH; [by apply Hs1|done..]).
Qed.

Lemma not_there (s : est Z) f i : ereachable Z.opp s -> i ∉ all_items xio s f -> ~ stored s f i.
Proof.
  intros Hre Hall [T HT]. destruct (contains_frame (es_g s) f) eqn:Hf.
  - apply Hall. unfold all_items. destruct (item_queries_agree Z.opp s f xio Hre xio_ok Hf) as (ts & _ & _ & Ht & _ & _ & _ & _ & Hv & _).
    rewrite Hv. apply elem_of_concat. exists (items_in s f T). split; [done|].
    apply elem_of_list_fmap. exists T. split; [done|]. apply Ht. intros He. rewrite He in HT. by apply elem_of_nil in HT.
  - destruct (item_queries_unknown Z.opp s f xio T Hre Hf) as (_ & _ & _ & _ & _ & _ & _ & He). rewrite He in HT. by apply elem_of_nil in HT.
Qed.

(* Client code: copies of an item of a frame are changed, assigned, moved and put into other frames. *)
Definition vops2 : list (vop Z) := vops1 ++
  [VCopy 1 11; VClone 2 12; VMove 11 13; VAssign 5 11; VMoveAssign 13 12; VSet 11 1 2 3; VCall xord xio (EAddItemTo fc 11); VCall xord xio (EAddItem 12);
   VCall xord xio (ERemoveItem 1); VAssign 12 1; VCall xord xio (EAddItemTo fb 1)].
Lemma vops2_ok : Forall vop_ok vops2.
Proof. repeat (apply list.Forall_cons; split; [first [done|by split; [apply xio_ok|]]|]). by apply list.Forall_nil. Qed.
Lemma vops2_careful : vall_careful Z.opp xmf xmd vops2 vst_new.
Proof. apply vall_careful_ok; [apply (ereachable_new Z.opp)|apply vops2_ok|by vm_compute]. Qed.
