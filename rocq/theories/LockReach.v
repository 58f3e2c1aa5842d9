(** Threads: the statements for reachable graphs. *)
From stdpp Require Import prelude strings gmap.
From Verif Require Import Outcome ListLib Digraph TreeView GraphModel GraphWf GraphStep SpecStore SpecObs GraphRefine GraphThms LockModel SpecLock LockThms.

Lemma access_exclusive {G V : Type} (fn : wcall -> body G V) (g : G) (us : list (user V)) sched w :
  Forall (disciplined 0) us -> wrun sched (world_start fn g us) = Some w ->
  (forall i, accessing w i -> exists n, w_mutex w = Some (i, n)) /\ (forall i j, accessing w i -> accessing w j -> i = j).
Proof.
  intros Hd Hr. assert (H : forall i, accessing w i -> exists n, w_mutex w = Some (i, n)) by (intros i; by eapply access_locked).
  split; [done|]. intros i j [n Hi]%H [k Hj]%H. congruence.
Qed.

Lemma no_deadlock {G V : Type} (fn : wcall -> body G V) (g : G) (us : list (user V)) sched : Forall (disciplined 0) us ->
  exists w, wrun sched (world_start fn g us) = Some w /\
    (forall i, i < length us -> ~ ended w i -> exists j, can_go w j) /\
    ((forall i, i < length us -> ended w i) -> w_mutex w = None).
Proof.
  intros Hd. destruct (never_undefined fn g us sched Hd) as [w Hw]. exists w. split; [done|]. split.
  - intros i Hlt He. by eapply somebody_goes.
  - by eapply all_ended.
Qed.

Lemma contains_edge_race_reachable {D E : Type} (d0 : D) (einv : E -> E) (s : gst D E) a b s' ev :
  reachable d0 einv s -> contains_frame s a = true -> contains_frame s b = true -> remove_frame a s = (s', ev, Ret tt) ->
  let us := [UCall (WContainsEdge a b) (fun _ => UEnd); UCall (WRemoveFrame a) (fun _ => UEnd)] in
  (exists w, wrun [0; 0; 1] (world_start (small_graph d0) s us) = Some w /\ accessing w 0 /\ accessing w 1) /\
  (exists w, wrun [0; 0; 1; 1; 1; 1; 0; 0] (world_start (small_graph d0) s us) = Some w /\
    w_threads w = [(PDone, [CBool UB]); (PDone, [CUnit (Ret tt)])] /\ w_graph w = s') /\
  alone (small_graph d0 (WContainsEdge a b)) s = (s, CBool (contains_edge s a b)) /\ contains_edge s a b <> UB /\
  alone (small_graph d0 (WContainsEdge a b)) s' = (s', CBool (Throw (XUnknownFrame a))).
Proof.
  intros Hre Ha Hb Hrem us. pose proof (reachable_wf d0 einv s Hre) as Hwf.
  destruct (contains_edge_race d0 einv s a b s' ev Hwf Ha Hb Hrem) as [H1 H2].
  split; [exact H1|]. split; [exact H2|]. split; [apply contains_edge_alone|]. split.
  - destruct (store_exists einv s Hwf) as [st Hst]. rewrite (ob_contains_edge _ _ Hst). repeat case_decide; done.
  - rewrite contains_edge_alone. do 2 f_equal. unfold contains_edge.
    assert (Hm : exists v, dg_map (gs_dg s) !! a = Some v).
    { rewrite (contains_frame_map einv) in Ha by done. apply bool_decide_eq_true in Ha as [v Hv]. by exists v. }
    destruct Hm as [v Hm]. rewrite (remove_frame_eq einv a v) in Hrem by done. case_bool_decide; [done|]. injection Hrem as <- _.
    rewrite get_vertex_none; [done|]. cbn. apply lookup_delete.
Qed.
