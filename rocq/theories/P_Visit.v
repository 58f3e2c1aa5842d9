(** Property C103: visiting all frames of a graph. *)
From stdpp Require Import prelude strings gmap.
From Coq Require Import ZArith.
From Verif Require Import Outcome Digraph Bfs TreeView GraphModel GraphOps GraphWf GraphStep SpecObs GraphThms HandlerModel SpecHandler VisitModel SpecVisit VisitLoop ExGraph.

(* A visitor that makes no calls is called once for each frame, in the order of the list of vertices; nothing changes. *)
Theorem C103_reads {D E C : Type} (d0 : D) (einv : E -> E) (z : visitor D E C) n c (s : gst D E) :
  (forall c v s, vz_do z c v s = SEnd) -> reachable d0 einv s -> num_vertices s <= n ->
  visit_vertices d0 einv z n c (s, []) = ((s, frames_in_order s), [], Ret tt).
Proof. exact (visit_reads d0 einv z n c s). Qed.
Print Assumptions C103_reads.

Example C103_case_reads : let z := Visitor (fun _ _ _ => SEnd) (fun (c : nat) _ _ => S c) : visitor nat Z nat in
  (forall c v s, vz_do z c v s = SEnd) /\ reachable 0 Z.opp (xstate ops1) /\ num_vertices (xstate ops1) <= 4 /\ frames_in_order (xstate ops1) = [1; 2; 3; 4].
Proof. cbv zeta. split; [done|]. split; [exact ops1_reachable|]. split; [vm_compute; lia|by vm_compute]. Qed.

(* A visitor that neither adds nor removes frames, whatever else it does, is called once for each frame; if it throws, for those up to the
   one it threw for. *)
Theorem C103_each {D E C : Type} (d0 : D) (einv : E -> E) (z : visitor D E C) n c (s s' : gst D E) seen ev r :
  noself_visitor z -> each_run d0 einv z run_ends -> each_run d0 einv z none_added -> each_run d0 einv z none_removed -> reachable d0 einv s ->
  num_vertices s <= n -> visit_vertices d0 einv z n c (s, []) = ((s', seen), ev, r) ->
  frames_in_order s' = frames_in_order s /\ NoDup (frames_in_order s) /\ (forall v, v ∈ frames_in_order s <-> frame_at s v) /\
  ((r = Ret tt /\ seen = frames_in_order s) \/ (exists x todo, r = Throw x /\ frames_in_order s = seen ++ todo /\ seen <> [])).
Proof. exact (visit_each d0 einv z n c s s' seen ev r). Qed.
Print Assumptions C103_each.

(** A visitor that sets the data of the frame and throws at the third frame. *)
Example C103_case_each :
  let z := Visitor (fun (c : nat) v _ => SCall xord (OSetFrameData v c) (fun _ _ => if Nat.eqb c 2 then SThrow XRuntime else SEnd)) (fun (c : nat) _ _ => S c)
    : visitor nat Z nat in
  let q := visit_vertices 0 Z.opp z 4 0 (xstate ops1, []) in
  noself_visitor z /\ each_run 0 Z.opp z run_ends /\ each_run 0 Z.opp z none_added /\ each_run 0 Z.opp z none_removed /\ reachable 0 Z.opp (xstate ops1) /\
  snd q = Throw XRuntime /\ snd (fst (fst q)) = [1; 2; 3] /\ v_data <$> dg_verts (gs_dg (fst (fst (fst q)))) = [0; 1; 2; 0].
Proof.
  intros z q. assert (Hz : noself_visitor z). { intros c v s. constructor; [done|]. intros _ _. case_match; constructor. }
  split; [done|]. split.
  { intros c v s s' ev r Hr Hv. unfold z. cbn [vz_do body gstep]. unfold set_frame_data. rewrite (frame_at_alive 0 Z.opp s v Hr Hv).
    destruct (Nat.eqb c 2); cbn; intros [= <- <- <-]; [right|left]; by eexists. }
  split. { apply (visit_calls 0 Z.opp z Hz). intros c v s. constructor; [by intros []|]. intros _ _. case_match; constructor. }
  split. { apply (visit_calls 0 Z.opp z Hz). intros c v s. constructor; [by intros []|]. intros _ _. case_match; constructor. }
  split; [exact ops1_reachable|]. split_and!; by vm_compute.
Qed.

(* Any visitor that never connects a frame to itself, also one that adds and removes frames: if the visit returns, it was called at most
   once for each frame, and for every frame that is in the graph in the end; it was called at most as often as there were frames in the
   beginning or added since. *)
Theorem C103_complete {D E C : Type} (d0 : D) (einv : E -> E) (z : visitor D E C) n c (s s' : gst D E) seen ev :
  noself_visitor z -> reachable d0 einv s -> visit_vertices d0 einv z n c (s, []) = ((s', seen), ev, Ret tt) ->
  NoDup seen /\ (forall v, frame_at s' v -> v ∈ seen) /\ length seen <= num_vertices s + length (filter frame_added ev).
Proof. exact (visit_complete d0 einv z n c s s' seen ev). Qed.
Print Assumptions C103_complete.

(** A visitor that adds a frame when called for b (the second frame) and removes d, which was connected, when called for c. *)
Example C103_case_complete :
  let z := Visitor (fun (c : nat) v s => if Nat.eqb v 2 then SCall xord (OAddEdge "x" fb 3%Z) (fun _ _ => SEnd) else
      if Nat.eqb v 3 then SCall xord (ODisconnect fd) (fun _ _ => SCall xord (ORemoveFrame fd) (fun _ _ => SEnd)) else SEnd) (fun (c : nat) _ _ => c)
    : visitor nat Z nat in
  let q := visit_vertices 0 Z.opp z 9 0 (xstate ops1, []) in
  noself_visitor z /\ reachable 0 Z.opp (xstate ops1) /\
  snd q = Ret tt /\ snd (fst (fst q)) = [1; 2; 3; 5] /\ frames_in_order (fst (fst (fst q))) = [1; 2; 3; 5] /\ length (filter frame_added (snd (fst q))) = 1.
Proof.
  intros z q. split. { intros c v s. unfold z. cbn [vz_do]. case_match; [|case_match]; repeat (constructor; try done; intros ? ?). }
  split; [exact ops1_reachable|]. split_and!; by vm_compute.
Qed.

(* A visitor whose calls are defined and that does not remove the frame it is called for: the visit is defined and calls it at most once
   for each frame; going on for ever is possible only by adding frames for ever. *)
Theorem C103_defined {D E C : Type} (d0 : D) (einv : E -> E) (z : visitor D E C) n c (s s' : gst D E) seen ev r :
  noself_visitor z -> each_run d0 einv z run_ends -> each_run d0 einv z frame_stays -> reachable d0 einv s ->
  visit_vertices d0 einv z n c (s, []) = ((s', seen), ev, r) ->
  r <> UB /\ NoDup seen /\ length seen <= num_vertices s + length (filter frame_added ev) /\ (r = Fuel -> length seen = n).
Proof. exact (visit_defined d0 einv z n c s s' seen ev r). Qed.
Print Assumptions C103_defined.

(* If in addition it adds no frame, the visit comes to an end. *)
Theorem C103_ends {D E C : Type} (d0 : D) (einv : E -> E) (z : visitor D E C) n c (s : gst D E) :
  noself_visitor z -> each_run d0 einv z run_ends -> each_run d0 einv z frame_stays -> each_run d0 einv z none_added -> reachable d0 einv s ->
  num_vertices s < n -> ended (snd (visit_vertices d0 einv z n c (s, []))).
Proof. exact (visit_ends d0 einv z n c s). Qed.
Print Assumptions C103_ends.

(* Visitors that make no call that adds (removes) frames announce no frame added (removed), and then keep the frame they are called for. *)
Theorem C103_calls {D E C : Type} (d0 : D) (einv : E -> E) (z : visitor D E C) : noself_visitor z ->
  ((forall c v s, calls_only (fun op => ~ may_add op) (vz_do z c v s)) -> each_run d0 einv z none_added) /\
  ((forall c v s, calls_only (fun op => ~ may_remove op) (vz_do z c v s)) -> each_run d0 einv z none_removed) /\
  (each_run d0 einv z none_removed -> each_run d0 einv z frame_stays).
Proof. exact (visit_calls d0 einv z). Qed.
Print Assumptions C103_calls.

(** A visitor that removes the frame e when called for any other frame. *)
Example C103_case_defined :
  let z := Visitor (fun (c : nat) v s => if bool_decide (bg_vertex (gs_dg s) "e" = v) then SEnd else SCall xord (ORemoveFrame "e") (fun _ _ => SEnd))
    (fun (c : nat) _ _ => c) : visitor nat Z nat in
  let s := xstate [OAddFrame fa; OAddFrame "e"; OAddEdge fb fc 2%Z] in let q := visit_vertices 0 Z.opp z 9 0 (s, []) in
  noself_visitor z /\ each_run 0 Z.opp z run_ends /\ each_run 0 Z.opp z frame_stays /\ each_run 0 Z.opp z none_added /\ reachable 0 Z.opp s /\
  num_vertices s = 4 /\ snd q = Ret tt /\ snd (fst (fst q)) = [1; 3; 4] /\ frames_in_order (fst (fst (fst q))) = [1; 3; 4].
Proof.
  intros z s q. assert (Hz : noself_visitor z). { intros c v t. unfold z. cbn [vz_do]. case_match; [constructor|]. constructor; [done|]. intros _ _. constructor. }
  assert (Hrun : forall t, reachable 0 Z.opp t -> exists t1 ev1 r1, remove_frame "e" t = (t1, ev1, r1) /\ ok r1 /\
    (forall v f, v <> bg_vertex (gs_dg t) "e" -> get_vertex t f = Ret v -> get_vertex t1 f = Ret v)).
  { intros t Ht. pose proof (reachable_wf 0 Z.opp t Ht) as Hwf. destruct (get_vertex_cases Z.opp t "e" Hwf) as [(u & Hu & _)|[_ Hu]].
    - rewrite (remove_frame_eq Z.opp "e" u) by done. case_bool_decide; eexists _, _, _; (split; [done|]); (split; [done|]); [done|].
      intros v f Hne Hf. apply get_vertex_inv in Hf as Hm. unfold get_vertex, bg_vertex. cbn.
      assert (f <> "e") by (intros ->; apply Hne; unfold bg_vertex; by rewrite Hm).
      rewrite lookup_delete_ne by done. exact Hf.
    - unfold remove_frame. erewrite cbind_read_throw by exact Hu. eexists _, _, _. done. }
  split; [done|]. split.
  { intros c v t t' ev r Ht Hv. unfold z. cbn [vz_do]. case_bool_decide; cbn [body gstep]; [intros [= <- <- <-]; left; by eexists|].
    destruct (Hrun t Ht) as (t1 & ev1 & r1 & -> & Hok & _). destruct r1; try done; intros [= <- <- <-]; left; by eexists. }
  split.
  { intros c v t t' ev r Ht [f Hv]. unfold z. cbn [vz_do]. case_bool_decide as Hd; cbn [body gstep]; [intros [= <- <- <-] _; by exists f|].
    destruct (Hrun t Ht) as (t1 & ev1 & r1 & -> & Hok & Hk). destruct r1; try done; intros [= <- <- <-] _; exists f; apply Hk; try done; congruence. }
  split.
  { apply (visit_calls 0 Z.opp z Hz). intros c v t. unfold z. cbn [vz_do]. case_match; [constructor|]. constructor; [by intros []|]. intros _ _. constructor. }
  split; [apply xstate_reachable; [by repeat constructor|by vm_compute]|]. split_and!; by vm_compute.
Qed.

(* Every graph with a frame has a visitor that adds a frame each time it is called, with defined calls and without removing frames: the visit
   does not end after any number of rounds. *)
Theorem C103_endless_refuted {D E : Type} (d0 : D) (einv : E -> E) (s : gst D E) (ord : viewid -> order) :
  reachable d0 einv s -> 0 < num_vertices s -> exists z : visitor D E nat,
  noself_visitor z /\ each_run d0 einv z run_ends /\ each_run d0 einv z frame_stays /\ forall n, snd (visit_vertices d0 einv z n 0 (s, [])) = Fuel.
Proof. exact (visit_endless d0 einv s ord). Qed.
Print Assumptions C103_endless_refuted.

Example C103_case_endless : reachable 0 Z.opp (xstate ops1) /\ num_vertices (xstate ops1) = 4.
Proof. split; [exact ops1_reachable|by vm_compute]. Qed.

(* A visitor that removes the first frame when it is called for it: the loop goes on from a vertex that is not in the list any more. *)
Theorem C103_current_refuted {D E C : Type} (d0 : D) (einv : E -> E) (z : visitor D E C) n c (s : gst D E) v s1 ev :
  noself_visitor z -> reachable d0 einv s -> head (frames_in_order s) = Some v ->
  body d0 einv (vz_do z c v s) s = (s1, ev, Ret tt) -> ~ frame_at s1 v ->
  visit_vertices d0 einv z (S n) c (s, []) = ((s1, [v]), ev, UB).
Proof. exact (visit_current d0 einv z n c s v s1 ev). Qed.
Print Assumptions C103_current_refuted.

(** The obvious way to clear a graph. *)
Example C103_case_current :
  let z := Visitor (fun (c : nat) v s => match get_frame_id s v with
      | Ret f => SCall xord (ODisconnect f) (fun _ _ => SCall xord (ORemoveFrame f) (fun _ _ => SEnd)) | _ => SEnd end) (fun (c : nat) _ _ => c) : visitor nat Z nat in
  let q := body 0 Z.opp (vz_do z 0 1 (xstate ops1)) (xstate ops1) in
  noself_visitor z /\ head (frames_in_order (xstate ops1)) = Some 1 /\ snd q = Ret tt /\ frames_in_order (fst (fst q)) = [2; 3; 4] /\
  snd (visit_vertices 0 Z.opp z 9 0 (xstate ops1, [])) = UB.
Proof.
  intros z q. split. { intros c v s. unfold z. cbn [vz_do]. case_match; repeat (constructor; try done; intros ? ?). }
  split_and!; by vm_compute.
Qed.
