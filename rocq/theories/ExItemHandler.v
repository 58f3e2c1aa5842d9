(** A handler that moves every removed item to another frame. *)
From stdpp Require Import prelude strings gmap gmultiset.
From Verif Require Import Outcome ItemClass Digraph Bfs TreeView GraphModel GraphOps SpecStore SpecObs GraphWf GraphStep ItemsModel SpecReplica SpecItems
  ItemsData ItemsOps ItemsThms ItemHandlerModel SpecItemHandler ItemHandlerThms ExGraph ExItems.

Section mover.
Context {E : Type}.
Implicit Types s : est E.

(* Example client of /repo/src/events/GraphItemEventDispatcher.hpp:59: adds a removed item to frame [f']. *)
Definition mover (f' : frameid) : event -> call (est E) unit := fun e =>
  match e with EvItemRemoved _ i => add_item_to_frame f' i | _ => cret tt end.

(* Same client: it writes the items of that frame only. *)
Definition moves_to (f' : frameid) : event -> est E -> gset vid := fun _ s => {[bg_vertex (gs_dg (es_g s)) f']}.

(* Same client: the frame is there, is not the vertex [v], and the items exist. *)
Definition can_move (f' : frameid) (v : vid) (l : list iptr) s : Prop :=
  (exists v' r, get_vertex (es_g s) f' = Ret v' /\ v' <> v /\ bg_vrec (gs_dg (es_g s)) v' = Some r) /\ forall i, i ∈ l -> is_Some (es_heap s !! i).

Lemma find_set_other (g : digraph imap E) v v' m : v' <> v ->
  bg_vrec (bg_set_data v m g) v' = bg_vrec g v'.
Proof.
  intros Hne. destruct g as [vs ? ? ? ? ? ? ?]. unfold bg_vrec, bg_set_data. cbn [dg_verts]. clear -Hne.
  induction vs as [|x vs IH]; [done|]. cbn. destruct (Nat.eqb_spec (v_id x) v) as [Hx|Hx]; cbn.
  - destruct (Nat.eqb_spec (v_id x) v') as [Hx'|Hx']; [congruence|]. apply IH.
  - destruct (Nat.eqb_spec (v_id x) v') as [Hx'|Hx']; [done|]. apply IH.
Qed.

Lemma can_move_kept f' v l : kept (can_move f' v l) v.
Proof.
  intros s [(v' & r & Hf & Hne & Hr) Hl]. split.
  - intros m. unfold write_items, lift, set_frame_data. destruct (bg_alive _ v); [|by split; eauto]. cbn. split; [|done].
    exists v', r. split; [done|]. split; [done|]. unfold gs_set_dg. cbn [gs_dg es_g]. by rewrite find_set_other.
  - intros i f. unfold set_item_frame. destruct (es_heap s !! i) eqn:Hi; [|by split; eauto]. cbn. split; [by eauto|].
    intros j Hj. cbn. destruct (decide (j = i)) as [->|]; [rewrite lookup_insert; by eexists|rewrite lookup_insert_ne by done; by apply Hl].
Qed.

Lemma mover_respects f f' v l i later : i ∈ l -> respects (mover f') (moves_to f') (can_move f' v l) v (EvItemRemoved f i) later.
Proof.
  intros Hi s m HI Hm _. destruct HI as [(v' & r & Hf & Hne & Hr) Hl]. destruct (Hl i Hi) as [x Hx].
  assert (Hv : check_frame_valid s f' = Ret tt /\ bg_vertex (gs_dg (es_g s)) f' = v').
  { unfold get_vertex in Hf. unfold check_frame_valid. destruct (Nat.eqb _ null_vertex); [done|]. by injection Hf as ->. }
  destruct Hv as [Hc Hv]. split; [unfold moves_to; rewrite Hv; set_solver|].
  unfold mover, add_item_to_frame. erewrite cbind_read_ret by done. erewrite cbind_read_ret by (unfold deref; by rewrite Hx).
  erewrite cbind_read_ret by (by rewrite Hv). erewrite cbind_read_ret by (unfold items_at; by rewrite Hr).
  set (m1 := <[it_type x := _]> (v_data r)). destruct (find_set_data (gs_dg (es_g s)) v' m1 r Hr) as (Ha & r' & Hr' & Hd).
  assert (Hw : write_items v' m1 s = (ESt (gs_set_dg (bg_set_data v' m1 (gs_dg (es_g s))) (es_g s)) (es_heap s), [], Ret tt)).
  { unfold write_items, lift, set_frame_data. by rewrite Ha. }
  erewrite cbind_ret by exact Hw. unfold cbind, set_item_frame, cnotify. cbn [es_heap]. rewrite Hx. cbn [app fst snd].
  split; [|split; [|done]].
  - unfold items_at, gs_set_dg in *. cbn [es_g gs_dg]. by rewrite find_set_other.
  - split.
    + exists v', r'. split; [done|]. split; [done|]. unfold gs_set_dg. cbn [es_g gs_dg]. done.
    + intros j Hj. cbn. destruct (decide (j = i)) as [->|]; [rewrite lookup_insert; by eexists|rewrite lookup_insert_ne by done; by apply Hl].
Qed.

(* Same client: decides [can_move]. *)
Definition can_move_b (f' : frameid) (v : vid) (l : list iptr) s : bool :=
  match get_vertex (es_g s) f' with
  | Ret v' => negb (Nat.eqb v' v) && match bg_vrec (gs_dg (es_g s)) v' with Some _ => true | None => false end &&
      forallb (fun i => match es_heap s !! i with Some _ => true | None => false end) l
  | _ => false
  end.
Lemma can_move_b_ok f' v l s : can_move_b f' v l s = true -> can_move f' v l s.
Proof.
  unfold can_move_b. destruct (get_vertex (es_g s) f') as [v'| | |] eqn:Hf; try done.
  intros [[H1%negb_true_iff%Nat.eqb_neq H2]%andb_true_iff H3]%andb_true_iff.
  destruct (bg_vrec _ v') as [r|] eqn:Hr; [|done]. split; [by exists v', r|]. rewrite forallb_forall in H3.
  intros i Hi. specialize (H3 i (proj1 (elem_of_list_In _ _) Hi)). destruct (es_heap s !! i); [by eexists|done].
Qed.

End mover.

Lemma iops1_in_fa : all_items xio (istate Z.opp iops1) fa = [1; 2; 5; 3].
Proof. by vm_compute. Qed.
Lemma iops1_can_move : can_move fb 1 [1; 2; 5; 3] (istate Z.opp iops1).
Proof. apply can_move_b_ok. by vm_compute. Qed.
Lemma split_outcome {S A} (x : S * list event * outcome A) r : snd x = r -> x = (x.1.1, x.1.2, r).
Proof. destruct x as [[? ?] ?]; cbn. by intros ->. Qed.
