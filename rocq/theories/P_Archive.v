(** Properties of whole archives: C90, C91. *)
From Coq.Init Require Import Byte.
From stdpp Require Import prelude strings gmap.
From Verif Require Import ItemClass Outcome Digraph TreeView GraphModel GraphOps GraphWf SpecStore SpecObs GraphThms BufferModel SpecBuffer
  SerialModel SpecSerial ArchiveModel SpecArchive ArchiveThms ExSerial ExArchive.

(** ** C90: an item in a byte vector
    Full statement: whatever the vector held before, loading from it after a save gives the saved item and true if the save gave true,
    and otherwise no item.  It is false for a failed save, see the refutation.  [chunk]: the writes by which the archive hands over bytes. *)
Theorem C90_item_round_trip_partial {P O S I : Type} (e : env P O S byte I) (cls : I -> iclass) (sync : O -> S -> Prop) (lim : nat)
    (pre : O * list byte) (dec_pre : list byte -> option (S * list byte)) (chunk : list byte -> list write) p i v p' v' q :
  libraries_add e -> round_trips e sync lim -> (forall bs, all_bytes (chunk bs) = bs) -> preamble_ok sync pre dec_pre ->
  save_item_to_binary e cls pre chunk p i v = (p', Ret true, v') ->
  (forall c, class_name e p' (type_index (cls i)) = Some c -> has_handle e p' c = true -> has_handle e q c = true) ->
  load_item_from_binary e dec_pre q v' = (q, Ret (Some i)).
Proof. exact (fun Hl Hrt Hc => binary_trip e cls sync lim Hl Hrt pre dec_pre chunk Hc p i v p' v' q). Qed.
Print Assumptions C90_item_round_trip_partial.

(** A serialisable item is saved, unless its handle fails. *)
Theorem C90_serializable_saved {P O S I : Type} (e : env P O S byte I) (cls : I -> iclass)
    (pre : O * list byte) (chunk : list byte -> list write) p i v :
  libraries_add e -> (forall bs, all_bytes (chunk bs) = bs) -> handles_work e ->
  snd (is_serializable e p (type_index (cls i))) = true ->
  exists p' v', save_item_to_binary e cls pre chunk p i v = (p', Ret true, v').
Proof. exact (fun Hl Hc => binary_serializable e cls Hl pre chunk Hc p i v). Qed.
Print Assumptions C90_serializable_saved.

(** After a failed save to an empty vector nothing is loaded: there is an exception. *)
Theorem C90_failed_save_partial {P O S I : Type} (e : env P O S byte I) (cls : I -> iclass) (sync : O -> S -> Prop)
    (pre : O * list byte) (dec_pre : list byte -> option (S * list byte)) (chunk : list byte -> list write) p i p' v' q :
  libraries_add e -> (forall bs, all_bytes (chunk bs) = bs) -> preamble_ok sync pre dec_pre ->
  handles_work e -> (forall s, dec_header e s [] = RAbort) ->
  save_item_to_binary e cls pre chunk p i [] = (p', Ret false, v') -> load_item_from_binary e dec_pre q v' = (q, Throw XRuntime).
Proof. exact (fun Hl Hc => binary_failed e cls sync Hl pre dec_pre chunk Hc p i p' v' q). Qed.
Print Assumptions C90_failed_save_partial.

(** After a failed save to a vector that is used again, the item saved before is loaded, and loading returns true. *)
Theorem C90_old_item_refuted {P O S I : Type} (e : env P O S byte I) (cls : I -> iclass) (sync : O -> S -> Prop) (lim : nat)
    (pre : O * list byte) (dec_pre : list byte -> option (S * list byte)) (chunk : list byte -> list write) p0 i0 v0 p1 v1 p i p2 v2 q :
  libraries_add e -> round_trips e sync lim -> (forall bs, all_bytes (chunk bs) = bs) -> preamble_ok sync pre dec_pre -> handles_work e ->
  save_item_to_binary e cls pre chunk p0 i0 v0 = (p1, Ret true, v1) -> save_item_to_binary e cls pre chunk p i v1 = (p2, Ret false, v2) ->
  (forall c, class_name e p1 (type_index (cls i0)) = Some c -> has_handle e p1 c = true -> has_handle e q c = true) ->
  v2 = v1 /\ load_item_from_binary e dec_pre q v2 = (q, Ret (Some i0)).
Proof. exact (fun Hl Hrt Hc => binary_stale e cls sync lim Hl Hrt pre dec_pre chunk Hc p0 i0 v0 p1 v1 p i p2 v2 q). Qed.
Print Assumptions C90_old_item_refuted.

Example C90_case : let AB := ["A"; "B"]%string in let old := replicate 12 xff in let v1 := [x16; x17; x01; x42; x00; x01; x00; x01; x01; x00; xff; xff] in
  libraries_add yenv /\ (forall lim, round_trips yenv (fun _ _ => True) lim) /\ handles_work yenv /\
  (forall bs, all_bytes (ychunk bs) = bs) /\ preamble_ok (fun _ _ => True) ypre ydec_pre /\ (forall s, dec_header yenv s [] = RAbort) /\
  snd (is_serializable yenv AB (type_index (bcls (1, 2)))) = true /\
  save_item_to_binary yenv bcls ypre ychunk AB (1, 2) old = (AB, Ret true, v1) /\
  load_item_from_binary yenv ydec_pre AB v1 = (AB, Ret (Some (1, 2))) /\
  save_item_to_binary yenv bcls ypre ychunk AB (2, 9) v1 = (AB, Ret false, v1) /\
  save_item_to_binary yenv bcls ypre ychunk AB (2, 9) [] = (AB, Ret false, [x16; x17]) /\
  load_item_from_binary yenv ydec_pre AB [x16; x17] = (AB, Throw XRuntime).
Proof.
  cbv zeta. split; [exact yenv_libraries_add|]. split; [exact yenv_round_trips|]. split; [exact yenv_handles_work|].
  split; [exact ychunk_ok|]. split; [exact ypre_ok|]. split; [done|]. by vm_compute.
Qed.

(** ** C91: a graph in a file
    Full statement: a saved graph, loaded in any process into a new graph, has the frames, edges and transformations of the first, and the
    items of the types that have a handle there.  It is false without the handles, see the refutation.  [keep] as in C54; the
    destination has no other frames (C54). *)
Theorem C91_file_round_trip_partial {P O S A I E : Type} (e : env P O S A I) (ge : genv O S A E) (cls : I -> iclass)
    (sync : O -> S -> Prop) (lim : nat) (einv : E -> E) (pre : O * list A) (dec_pre : list A -> option (S * list A))
    (keep v : bool) (io : forder (I := I)) (p : P) (s0 s : gst (gmap iclass (list I)) E) p' w q :
  libraries_add e -> round_trips e sync lim -> graph_round_trips ge sync lim -> preamble_ok sync pre dec_pre -> forder_ok io ->
  reachable ∅ einv s0 -> reachable ∅ einv s ->
  (forall f m, get_frame_property s0 f = Ret m -> typed cls m /\ fits lim m) -> num_vertices s0 <= lim -> num_edges s0 <= lim ->
  save_to_file e ge cls pre v io p s0 = (p', w, Ret tt) ->
  (forall f m T is c, get_frame_property s0 f = Ret m -> m !! T = Some is -> is <> [] -> class_name e p' T = Some c ->
     has_handle e p' c = true -> has_handle e q c = true) ->
  (forall f, contains_frame s f = true -> keep = false /\ contains_frame s0 f = true) ->
  exists s', load_from_file e ge cls dec_pre keep v q w s = (q, s', [], Ret tt) /\
    (forall f, contains_frame s' f = contains_frame s0 f) /\
    (forall a b, get_edge_property s' a b = get_edge_property s0 a b) /\
    num_vertices s' = num_vertices s0 /\ num_edges s' = num_edges s0 /\
    (forall f m, get_frame_property s0 f = Ret m -> exists m', get_frame_property s' f = Ret m' /\
       (forall T is, m' !! T = Some is -> m !! T = Some is /\ is <> [] /\ registered e p' T) /\
       (forall T is, m !! T = Some is -> is <> [] -> registered e p T -> m' !! T = Some is)).
Proof. exact (file_trip_reachable e ge cls sync lim einv pre dec_pre keep v io p s0 s p' w q). Qed.
Print Assumptions C91_file_round_trip_partial.

(** Saving fails only if a handle does. *)
Theorem C91_saving_succeeds {P O S A I E : Type} (e : env P O S A I) (ge : genv O S A E) (cls : I -> iclass) (einv : E -> E)
    (pre : O * list A) (v : bool) (io : forder (I := I)) (p : P) (s0 : gst (gmap iclass (list I)) E) :
  libraries_add e -> handles_work e -> forder_ok io -> reachable ∅ einv s0 ->
  (forall f m, get_frame_property s0 f = Ret m -> typed cls m) ->
  exists p' w, save_to_file e ge cls pre v io p s0 = (p', w, Ret tt).
Proof. exact (save_file_ok_reachable e ge cls einv pre v io p s0). Qed.
Print Assumptions C91_saving_succeeds.

(** One item of a type without a handle: a frame is lost together with an item that has a handle, and there is a frame that was never
    saved.  No exception. *)
Theorem C91_frame_lost_refuted :
  exists (e : env (list string) unit unit nat bitem) (ge : genv unit unit nat Z) pre dec_pre io s0 p q w s',
    libraries_add e /\ (forall lim, round_trips e (fun _ _ => True) lim) /\ (forall lim, graph_round_trips ge (fun _ _ => True) lim) /\
    preamble_ok (fun _ _ => True) pre dec_pre /\ forder_ok io /\ reachable ∅ Z.opp s0 /\
    (forall f m, get_frame_property s0 f = Ret m -> typed bcls m) /\
    save_to_file e ge bcls pre true io p s0 = (p, w, Ret tt) /\ load_from_file e ge bcls dec_pre false true q w gst0 = (q, s', [], Ret tt) /\
    get_frame_property s0 "b" = Ret {[CItem 1 := [(1, 7)]]} /\ has_handle e q "B" = true /\ contains_frame s' "b" = false /\
    contains_frame s0 "" = false /\ contains_frame s' "" = true.
Proof. exact frame_lost. Qed.
Print Assumptions C91_frame_lost_refuted.

Example C91_case : let s0 := gstate gops in let s1 := gstate [OAddEdge "a" "c" 8%Z]%string in let AB := ["A"; "B"]%string in
  let x := save_to_file benv bgenv bcls bpre true bio AB s0 in let y := load_from_file benv bgenv bcls bdec_pre false true AB x.1.2 s1 in
  reachable ∅ Z.opp s0 /\ reachable ∅ Z.opp s1 /\ (forall f m, get_frame_property s0 f = Ret m -> typed bcls m /\ fits 4 m) /\
  (forall f, contains_frame s1 f = true -> contains_frame s0 f = true) /\
  num_vertices s0 = 3 /\ num_edges s0 = 4 /\ x.1.1 = AB /\ x.2 = Ret tt /\ (length x.1.2, y.2) = (47, Ret tt) /\
  (let s' := y.1.1.2 in num_vertices s' = 3 /\ num_edges s' = 4 /\
   get_edge_property s' "b" "c" = Ret 2%Z /\ get_edge_property s' "a" "b" = Ret 3%Z /\ get_edge_property s' "a" "c" = Throw (XUnknownEdge "a" "c") /\
   obind (get_frame_property s' "a") (fun m => Ret (map_to_list m)) = Ret [(CItem 0, [(0, 5)]); (CItem 1, [(1, 7); (1, 8)])] /\
   get_frame_property s' "b" = Ret ∅ /\ get_frame_property s' "c" = Ret {[CItem 1 := [(1, 4)]]}).
Proof.
  cbv zeta. do 2 (split; [apply gstate_reachable; [by repeat constructor|by vm_compute]|]).
  split.
  { apply all_frames. apply gops_frames. }
  split; [|by vm_compute].
  intros f Hf%contained. revert f Hf. apply list.Forall_forall. apply (bool_decide_unpack _). by vm_compute.
Qed.
