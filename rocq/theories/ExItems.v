(** Concrete graphs with items used by the examples beside the theorems. *)
From stdpp Require Import prelude strings gmap gmultiset.
From Verif Require Import Outcome ItemClass Digraph Bfs TreeView GraphModel GraphOps SpecStore SpecObs GraphWf ItemsModel SpecReplica SpecItems
  ItemsData ItemsOps GraphCopy ItemsLog ItemsCopy ItemsThms ItemsPublish ExGraph TransformModel ExTransform.

(* Example client of /repo/src/graph/EnvireGraph.hpp:71-215: maps are iterated in the order of map_to_list. *)
Definition xio : iorder := fun _ m => (map_to_list m).*1.
Lemma xio_ok : iorder_ok xio.
Proof. by intros ??. Qed.

Lemma split_call {S A} (x : S * list event * outcome A) a : snd x = Ret a -> x = (fst (fst x), snd (fst x), Ret a).
Proof. destruct x as [[? ?] ?]; cbn. by intros ->. Qed.
Lemma some_default {A} (d : A) (o : option A) : match o with Some _ => true | None => false end = true -> o = Some (default d o).
Proof. by destruct o. Qed.

Section ex.
Context {E : Type} (einv : E -> E).
(* Same client: history with one iteration order for all calls. *)
Definition ihist (ops : list (eop E)) : list ((viewid -> order) * iorder * eop E) := (fun op => (xord, xio, op)) <$> ops.
(* Same client: final state, events and outcome of a history on the empty graph. *)
Definition irun (ops : list (eop E)) := erun einv (ihist ops) (est_new ∅).
(* Same client: final state. *)
Definition istate (ops : list (eop E)) : est E := fst (fst (irun ops)).

Lemma ihist_ok ops : Forall eop_ok ops -> ehist_ok (ihist ops).
Proof.
  intros H. apply list.Forall_fmap. eapply list.Forall_impl; [exact H|]. intros op Hop. split; [apply xio_ok|exact Hop].
Qed.
Lemma istate_reachable ops : Forall eop_ok ops -> snd (irun ops) = Ret tt -> ereachable einv (istate ops).
Proof.
  intros Hns Hr. unfold istate. unfold irun in *.
  destruct (erun einv (ihist ops) (est_new ∅)) as [[s ev] r] eqn:H.
  eapply ereachable_run; [apply ereachable_new|by apply ihist_ok|]. cbn in Hr. by subst r.
Qed.

Lemma not_stored s i : ereachable einv s -> Forall (fun f => i ∉ all_items xio s f) (names (gs_dg (es_g s))) -> forall f, ~ stored s f i.
Proof.
  intros Hre Hall f [T HT]. pose proof (ereachable_wf einv s Hre) as Hwf.
  destruct (contains_frame (es_g s) f) eqn:Hf.
  - assert (Hn : f ∈ names (gs_dg (es_g s))).
    { apply (names_all einv); [done|]. destruct (known_map s f Hf) as [v Hv]. by rewrite Hv. }
    rewrite list.Forall_forall in Hall. apply (Hall f Hn). unfold all_items.
    destruct (item_queries_agree einv s f xio Hre xio_ok Hf) as (ts & _ & _ & Ht & _ & _ & _ & _ & Hv & _).
    rewrite Hv. apply elem_of_concat. exists (items_in s f T). split; [done|].
    apply elem_of_list_fmap. exists T. split; [done|]. apply Ht. intros He. rewrite He in HT. by apply elem_of_nil in HT.
  - destruct (item_queries_unknown einv s f xio T Hre Hf) as (_ & _ & _ & _ & _ & _ & _ & He). rewrite He in HT. by apply elem_of_nil in HT.
Qed.

(* Same client: decides [careful]. *)
Definition careful_b (s : est E) (op : eop E) : bool :=
  match op with
  | EAddItem i | EAddItemTo _ i | ESetFrame i _ => bool_decide (Forall (fun f => i ∉ all_items xio s f) (names (gs_dg (es_g s))))
  | _ => true
  end.
(* Same client: decides [all_calls careful]. *)
Fixpoint all_careful (h : list ((viewid -> order) * iorder * eop E)) (s : est E) : bool :=
  match h with
  | [] => true
  | (ord, io, op) :: h' =>
      careful_b s op &&
      match estep einv ord io op s with
      | (s', _, (Ret _ | Throw _)) => all_careful h' s'
      | _ => false
      end
  end.
Lemma all_careful_ok h s : ereachable einv s -> ehist_ok h -> all_careful h s = true -> all_calls einv careful h s.
Proof.
  revert s. induction h as [|[[ord io] op] h IH]; intros s Hre Hok; [done|]. cbn [all_careful all_calls].
  intros [H1 H2]%andb_true_iff. split.
  - destruct op; try done; cbn in *; apply bool_decide_eq_true in H1; by apply not_stored.
  - pose proof Hok as Hok'. apply list.Forall_cons in Hok as [Hop Hok].
    destruct (estep einv ord io op s) as [[s1 ev1] r1] eqn:Hs. cbn [fst].
    assert (Hr1 : erun einv [(ord, io, op)] s = (s1, ev1, Ret tt) -> all_careful h s1 = true -> all_calls einv careful h s1).
    { intros Hrun Hc. apply IH; [|done|done]. eapply ereachable_run; [exact Hre| |exact Hrun]. by apply list.Forall_singleton. }
    destruct r1; try done; apply Hr1; try done; cbn; rewrite Hs; by rewrite app_nil_r.
Qed.
End ex.

Lemma mirrors_new : mirrors (E := Z) (est_new ∅) empty_replica.
Proof.
  split; [|split].
  - intros f. split; [by intros ?%elem_of_empty|by vm_compute].
  - intros a b. split; [by intros ?%elem_of_empty|by vm_compute].
  - intros io f i _. cbn [r_items empty_replica]. by rewrite multiplicity_empty.
Qed.

(* Same client: item classes Item<0>, Item<1> and a class deriving from Item<0>. *)
Definition cA : iclass := CItem 0.
(* Same client: an item class. *)
Definition cB : iclass := CItem 1.
(* Same client: an item class. *)
Definition cD : iclass := CDerived 0 0.

(* Same client: a chain a-b-c and a single frame d; items 1, 2, 5 of type Item<0> and 3 of type Item<1> in frame a,
   item 4 in frame b; item 6 is in no frame. *)
Definition iops1 : list (eop Z) :=
  [EGraph (OAddEdge fa fb 1%Z); EGraph (OAddEdge fb fc 2%Z); EGraph (OAddFrame fd);
   ENewItem 1 cA ""; ENewItem 2 cD ""; ENewItem 3 cB ""; ENewItem 4 cA fb; ENewItem 5 cA ""; ENewItem 6 cB fd;
   EAddItemTo fa 1; EAddItemTo fa 3; EAddItemTo fa 2; EAddItem 4; EAddItemTo fa 5].

(* Decides that a list of concrete calls is allowed. *)
Ltac ops_ok := repeat (apply list.Forall_cons; split; [done|]); apply list.Forall_nil; exact I.

Lemma iops1_ok : Forall eop_ok iops1.
Proof. ops_ok. Qed.
Lemma iops1_reachable : ereachable Z.opp (istate Z.opp iops1).
Proof. apply istate_reachable; [apply iops1_ok|by vm_compute]. Qed.

(* Same client with transforms: a cycle a-b-c with items. *)
Definition iops2 : list (eop mtf) :=
  [EGraph (OAddEdge fa fb (mrel 1 fa fb)); EGraph (OAddEdge fb fc (mrel 2 fb fc)); EGraph (OAddEdge fc fa (mrel 3 fc fa));
   ENewItem 1 cA ""; EAddItemTo fa 1].
Lemma iops2_reachable : ereachable mtf_inv (istate mtf_inv iops2).
Proof. apply istate_reachable; [ops_ok|by vm_compute]. Qed.

(* Same client: removals by iterator and by pointer, a call that throws, an edge and a frame removed, a failed removeFrame. *)
Definition iops3 : list (eop Z) := iops1 ++
  [ERemoveItemIt fa false cA fa 1; ERemoveItem 3; EAddItem 3; ERemoveItemIt fb false cA fb 0; EGraph (ORemoveEdge fc fb);
   EGraph (ORemoveFrame fc); EGraph (ORemoveFrame fa)].

(* Same client: items that move between frames. *)
Definition iops4 : list (eop Z) := iops1 ++
  [ERemoveItem 2; EAddItemTo fc 2; ERemoveItemIt fa false cA fa 0; ESetFrame 1 fd; EAddItem 1; EGraph (ORemoveFrame fc)].
