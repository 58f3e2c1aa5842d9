(** Properties of saving and loading: C50, C51, C54, C71, C72. *)
From stdpp Require Import prelude strings gmap.
From Verif Require Import ItemClass Outcome Digraph TreeView GraphModel GraphOps GraphStep SpecStore SpecObs GraphThms
  SerialModel SpecSerial SerialThms GraphLoad ExGraph ExSerial.

(** ** C50: saving and loading a frame's items *)

(** What was saved is loaded: every non-empty list whose type was registered before saving, and no list whose type was not
    registered after it; the archive is read up to the end of what was written. *)
Theorem C50_items_round_trip {P O S A I : Type} (e : env P O S A I) (cls : I -> iclass) (sync : O -> S -> Prop) (lim : nat)
    (v : bool) p o l m p' o' w s q rest :
  libraries_add e -> round_trips e sync lim -> typed cls m -> fits lim m -> l ≡ₚ map_to_list m ->
  save_items e cls v p o l = (p', o', w, Ret tt) -> sync o s ->
  (forall T is c, m !! T = Some is -> is <> [] -> class_name e p' T = Some c -> has_handle e p' c = true -> has_handle e q c = true) ->
  exists s' m', load_items e cls v q s (w ++ rest) = (q, s', rest, Ret m') /\ sync o' s' /\
    (forall T is, m' !! T = Some is -> m !! T = Some is /\ is <> [] /\ registered e p' T) /\
    (forall T is, m !! T = Some is -> is <> [] -> registered e p T -> m' !! T = Some is).
Proof. exact (fun Hl Hrt => items_trip e cls Hl sync lim Hrt v p o l m p' o' w s q rest). Qed.
Print Assumptions C50_items_round_trip.

(** If saving loads no library, exactly the lists of registered types are loaded. *)
Theorem C50_exactly_registered {P O S A I : Type} (e : env P O S A I) (cls : I -> iclass) (sync : O -> S -> Prop) (lim : nat)
    (v : bool) p o l m o' w s q rest :
  libraries_add e -> round_trips e sync lim -> typed cls m -> fits lim m -> l ≡ₚ map_to_list m ->
  save_items e cls v p o l = (p, o', w, Ret tt) -> sync o s ->
  (forall T is c, m !! T = Some is -> is <> [] -> class_name e p T = Some c -> has_handle e p c = true -> has_handle e q c = true) ->
  exists s' m', load_items e cls v q s (w ++ rest) = (q, s', rest, Ret m') /\ sync o' s' /\
    (forall T is, m' !! T = Some is <-> m !! T = Some is /\ is <> [] /\ registered e p T).
Proof. exact (fun Hl Hrt => items_trip_exact e cls Hl sync lim Hrt v p o l m o' w s q rest). Qed.
Print Assumptions C50_exactly_registered.

(** Saving fails only if a handle does. *)
Theorem C50_saving_succeeds {P O S A I : Type} (e : env P O S A I) (cls : I -> iclass) (v : bool) p o l m :
  libraries_add e -> handles_work e -> typed cls m -> l ≡ₚ map_to_list m ->
  exists p' o' w, save_items e cls v p o l = (p', o', w, Ret tt).
Proof. exact (fun Hl => save_items_ok e cls Hl v p o l m). Qed.
Print Assumptions C50_saving_succeeds.

Example C50_case : let m : gmap iclass (list bitem) := list_to_map bitems in let AB := ["A"; "B"]%string in
  libraries_add benv /\ (forall lim, round_trips benv (fun _ _ => True) lim) /\ handles_work benv /\ typed bcls m /\ fits 4 m /\
  bitems ≡ₚ map_to_list m /\ save_items benv bcls true AB tt bitems = (AB, tt, [2; 1; 1; 65; 0; 5; 2; 1; 66; 1; 7; 1; 66; 1; 8], Ret tt) /\
  let x := load_items benv bcls true AB tt (bbytes bitems ++ [99]) in
  x.1 = (AB, tt, [99]) /\ bloaded x (CItem 0) = Some [(0, 5)] /\ bloaded x (CItem 1) = Some [(1, 7); (1, 8)] /\
  bloaded x (CItem 2) = None /\ bloaded x (CItem 3) = None.
Proof.
  cbv zeta. split; [exact benv_libraries_add|]. split; [exact benv_round_trips|]. split; [exact benv_handles_work|].
  split; [apply list_typed; repeat constructor|]. split.
  { split; [by vm_compute|]. intros T is Hl. apply elem_of_list_to_map_2 in Hl. cbn in Hl.
    repeat (apply elem_of_cons in Hl as [[= -> ->]|Hl]; [cbn; lia|]). by apply elem_of_nil in Hl. }
  split; [symmetry; apply map_to_list_to_map; apply (bool_decide_unpack _); by vm_compute|]. by vm_compute.
Qed.

(** ** C51: unknown item types are skipped on loading
    Full statement: the items of a type without a handle are dropped, wherever they are, and all others are loaded.  It is false: the
    bytes of the item are not skipped.  The theorem is the case where nothing follows them. *)
Theorem C51_last_type_dropped_partial {P O S A I : Type} (e : env P O S A I) (cls : I -> iclass) (sync : O -> S -> Prop) (lim : nat)
    (v : bool) p o l m T i p' o' w s q rest :
  libraries_add e -> round_trips e sync lim -> typed cls m -> fits lim m -> l ++ [(T, [i])] ≡ₚ map_to_list m ->
  save_items e cls v p o (l ++ [(T, [i])]) = (p', o', w, Ret tt) -> sync o s ->
  (forall T' is c, T' <> T -> m !! T' = Some is -> is <> [] -> class_name e p' T' = Some c -> has_handle e p' c = true ->
     has_handle e q c = true) ->
  (forall c, class_name e p' T = Some c -> has_handle e q c = false /\ snd (load_lib e q c) = false) ->
  exists q' s' rest' m', load_items e cls v q s (w ++ rest) = (q', s', rest', Ret m') /\ m' !! T = None /\
    (forall T' is, m' !! T' = Some is -> m !! T' = Some is /\ is <> [] /\ registered e p' T') /\
    (forall T' is, T' <> T -> m !! T' = Some is -> is <> [] -> registered e p T' -> m' !! T' = Some is).
Proof. exact (fun Hl Hrt => last_single_dropped e cls Hl sync lim Hrt v p o l m T i p' o' w s q rest). Qed.
Print Assumptions C51_last_type_dropped_partial.

(** An item without a handle stays in the archive, in front of what follows. *)
Theorem C51_payload_left_refuted {P O S A I : Type} (e : env P O S A I) (cls : I -> iclass) (sync : O -> S -> Prop) (lim : nat)
    p o i p' o' w s q rest :
  libraries_add e -> round_trips e sync lim -> ser_save e cls p o i = (p', o', w, Ret true) -> sync o s ->
  (forall c, class_name e p' (type_index (cls i)) = Some c -> has_handle e q c = false /\ snd (load_lib e q c) = false) ->
  exists q' s' c o1 w1 w2, enc_header e o c = (o1, w1) /\ enc_item e o1 c i = WGot o' w2 /\ w = w1 ++ w2 /\
    ser_load e q s (w ++ rest) = (q', s', w2 ++ rest, Ret None).
Proof. exact (fun Hl Hrt => payload_left e cls Hl sync lim Hrt p o i p' o' w s q rest). Qed.
Print Assumptions C51_payload_left_refuted.

(** Items of class B have a handle and are lost, without an exception, because those of class A before them have none. *)
Theorem C51_others_lost_refuted :
  exists (e : env (list string) unit unit nat bitem) l m p q w,
    libraries_add e /\ (forall lim, round_trips e (fun _ _ => True) lim) /\ handles_work e /\ typed bcls m /\ l ≡ₚ map_to_list m /\
    save_items e bcls true p tt l = (p, tt, w, Ret tt) /\ m !! CItem 1 = Some [(1, 7)] /\
    class_name e q (CItem 1) = Some "B"%string /\ has_handle e q "B" = true /\
    exists rest, load_items e bcls true q tt w = (q, tt, rest, Ret ∅).
Proof.
  exists benv, [(CItem 0, [(0, 5)]); (CItem 1, [(1, 7)])], (list_to_map [(CItem 0, [(0, 5)]); (CItem 1, [(1, 7)])]).
  exists ["A"; "B"]%string, ["B"]%string, [2; 1; 1; 65; 0; 5; 1; 1; 66; 1; 7].
  split; [exact benv_libraries_add|]. split; [exact benv_round_trips|]. split; [exact benv_handles_work|].
  split; [apply list_typed; repeat constructor|]. split; [symmetry; apply map_to_list_to_map; apply (bool_decide_unpack _); by vm_compute|].
  do 4 (split; [by vm_compute|]). by exists [5; 1; 1; 66; 1; 7].
Qed.
Print Assumptions C51_others_lost_refuted.

Example C51_case : let l := [(CItem 1, [(1, 7); (1, 8)])] in let l' := l ++ [(CItem 0, [(0, 5)])] in
  let m : gmap iclass (list bitem) := list_to_map l' in
  typed bcls m /\ l' ≡ₚ map_to_list m /\
  (save_items benv bcls true ["A"; "B"]%string tt l').2 = Ret tt /\
  has_handle benv ["B"]%string "A" = false /\ snd (load_lib benv ["B"]%string "A") = false /\
  let x := load_items benv bcls true ["B"]%string tt (bbytes l' ++ [99]) in
  x.1.2 = [0; 5; 99] /\ bloaded x (CItem 0) = None /\ bloaded x (CItem 1) = Some [(1, 7); (1, 8)].
Proof.
  cbv zeta. split; [apply list_typed; repeat constructor|].
  split; [symmetry; apply map_to_list_to_map; apply (bool_decide_unpack _); by vm_compute|]. by vm_compute.
Qed.

(** ** C54: loading a graph replaces its content
    Full statement: for every destination the frames are afterwards the saved ones.  It is false, see the refutation.  [keep]: the
    library that reads the graph adds to the vertices that are there; [ld]: the contents of a frame after saving and loading. *)
Theorem C54_loaded_graph_partial {D E : Type} (d0 : D) (einv : E -> E) (keep : bool) (ld : D -> D) (s0 s : gst D E) st :
  reachable d0 einv s0 -> reachable d0 einv s -> observes s0 st ->
  (forall f, contains_frame s f = true -> keep = false /\ contains_frame s0 f = true) ->
  exists s', load_saved keep ld (save_graph (gs_dg s0)) s = (s', [], Ret tt) /\ observes s' (store_map ld st).
Proof. exact (load_observes_reachable d0 einv keep ld s0 s st). Qed.
Print Assumptions C54_loaded_graph_partial.

(** Whatever the destination, the saved frames are found afterwards. *)
Theorem C54_saved_frames_found_partial {D E : Type} (d0 : D) (einv : E -> E) (keep : bool) (ld : D -> D) (s0 s : gst D E) :
  reachable d0 einv s0 -> reachable d0 einv s ->
  exists s', load_saved keep ld (save_graph (gs_dg s0)) s = (s', [], Ret tt) /\
    forall f d, get_frame_property s0 f = Ret d -> contains_frame s' f = true /\ get_frame_property s' f = Ret (ld d).
Proof. exact (load_finds_reachable d0 einv keep ld s0 s). Qed.
Print Assumptions C54_saved_frames_found_partial.

(** Every frame of the destination that was not saved stays known; if the reader empties the graph, its vertex is gone. *)
Theorem C54_old_names_stay_refuted {D E : Type} (d0 : D) (einv : E -> E) (keep : bool) (ld : D -> D) (s0 s : gst D E) :
  reachable d0 einv s0 -> reachable d0 einv s ->
  exists s', load_saved keep ld (save_graph (gs_dg s0)) s = (s', [], Ret tt) /\
    forall f, contains_frame s f = true -> contains_frame s0 f = false ->
      contains_frame s' f = true /\ get_frame_property s' f = if keep then get_frame_property s f else UB.
Proof. exact (load_stale_reachable d0 einv keep ld s0 s). Qed.
Print Assumptions C54_old_names_stay_refuted.

Example C54_case : let s0 := xstate ops1 in
  let s1 := xstate [OEmplaceFrame fb 3; OAddEdge fb fc 8%Z] in let s2 := xstate [OEmplaceFrame fb 3; OAddEdge fb "x" 8%Z] in
  reachable 0 Z.opp s0 /\ reachable 0 Z.opp s1 /\ reachable 0 Z.opp s2 /\
  contains_frame s1 fb = true /\ contains_frame s1 fc = true /\ contains_frame s2 "x" = true /\ contains_frame s0 "x" = false /\
  (let r := (load_saved false S (save_graph (gs_dg s0)) s1).1.1 in
   get_frame_property r fa = Ret 8 /\ get_frame_property r fb = Ret 1 /\ get_edge_property r fb fc = Ret 2%Z /\ num_edges r = 8) /\
  (let r := (load_saved true S (save_graph (gs_dg s0)) s2).1.1 in
   get_frame_property r fa = Ret 8 /\ get_frame_property r fb = Ret 1 /\ contains_frame r "x" = true /\
   get_frame_property r "x" = Ret 0 /\ num_vertices r = 6) /\
  (let r := (load_saved false S (save_graph (gs_dg s0)) s2).1.1 in
   get_frame_property r fa = Ret 8 /\ contains_frame r "x" = true /\ get_frame_property r "x" = UB /\ num_vertices r = 4).
Proof.
  cbv zeta. split; [exact ops1_reachable|]. do 2 (split; [apply xstate_reachable; [by repeat constructor|by vm_compute]|]).
  by vm_compute.
Qed.

(** ** C71: typed loading reports what it got
    Full statement: true is returned exactly if the pointer is set.  It is false, see the refutation. *)
Theorem C71_typed_load_partial {P O S A I : Type} (e : env P O S A I) (cls : I -> iclass) T p s w p' s' w' b x :
  ser_load_typed e cls T p s w = (p', s', w', Ret (b, x)) ->
  (forall i, x = Some i -> b = true /\ is_a (cls i) T = true) /\ (b = false -> x = None).
Proof. exact (typed_load e cls T p s w p' s' w' b x). Qed.
Print Assumptions C71_typed_load_partial.

(** An item of another class is read, true is returned and the pointer is null. *)
Theorem C71_true_without_item_refuted {P O S A I : Type} (e : env P O S A I) (cls : I -> iclass) T p s w p' s' w' i :
  ser_load e p s w = (p', s', w', Ret (Some i)) -> is_a (cls i) T = false ->
  ser_load_typed e cls T p s w = (p', s', w', Ret (true, None)).
Proof. exact (typed_load_wrong e cls T p s w p' s' w' i). Qed.
Print Assumptions C71_true_without_item_refuted.

Example C71_case : let AB := ["A"; "B"]%string in
  ser_load benv AB tt [1; 65; 0; 5; 77] = (AB, tt, [77], Ret (Some (0, 5))) /\
  ser_load_typed benv bcls (CItem 0) AB tt [1; 65; 0; 5; 77] = (AB, tt, [77], Ret (true, Some (0, 5))) /\
  ser_load_typed benv bcls (CItem 1) AB tt [1; 65; 0; 5; 77] = (AB, tt, [77], Ret (true, None)) /\
  ser_load_typed benv bcls (CItem 0) ["B"%string] tt [1; 65; 0; 5; 77] = (["B"%string], tt, [0; 5; 77], Ret (false, None)).
Proof. cbv zeta. by vm_compute. Qed.

(** ** C72: a saved item can be loaded *)
Theorem C72_item_round_trip {P O S A I : Type} (e : env P O S A I) (cls : I -> iclass) (sync : O -> S -> Prop) (lim : nat)
    p o i p' o' w s q rest :
  libraries_add e -> round_trips e sync lim -> ser_save e cls p o i = (p', o', w, Ret true) -> sync o s ->
  (forall c, class_name e p' (type_index (cls i)) = Some c -> has_handle e p' c = true -> has_handle e q c = true) ->
  exists s', ser_load e q s (w ++ rest) = (q, s', rest, Ret (Some i)) /\ sync o' s'.
Proof. exact (fun Hl Hrt => ser_trip e cls Hl sync lim Hrt p o i p' o' w s q rest). Qed.
Print Assumptions C72_item_round_trip.

(** isSerializable tells whether save succeeds, and save writes nothing if not. *)
Theorem C72_serializable_iff_saved {P O S A I : Type} (e : env P O S A I) (cls : I -> iclass) p o i :
  libraries_add e -> handles_work e ->
  exists o' w, ser_save e cls p o i =
    (fst (is_serializable e p (type_index (cls i))), o', w, Ret (snd (is_serializable e p (type_index (cls i))))) /\
    (snd (is_serializable e p (type_index (cls i))) = false -> o' = o /\ w = []).
Proof. exact (fun Hl => serializable_iff_saved e cls Hl p o i). Qed.
Print Assumptions C72_serializable_iff_saved.

Example C72_case : let AB := ["A"; "B"]%string in
  ser_save benv bcls AB tt (1, 6) = (AB, tt, [1; 66; 1; 6], Ret true) /\
  ser_load benv ["B"]%string tt [1; 66; 1; 6; 3] = (["B"]%string, tt, [3], Ret (Some (1, 6))) /\
  ser_save benv bcls AB tt (4, 6) = (AB, tt, [], Ret false) /\
  is_serializable benv AB (CItem 1) = (AB, true) /\ is_serializable benv AB (CItem 4) = (AB, false).
Proof. cbv zeta. by vm_compute. Qed.
