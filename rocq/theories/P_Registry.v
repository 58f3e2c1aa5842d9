(** Properties of the registration of item classes and of libraries loaded on demand: C92. *)
From Coq.Init Require Import Byte.
From stdpp Require Import prelude strings gmap.
From Verif Require Import ItemClass Outcome Digraph TreeView GraphModel GraphOps GraphWf SpecStore SpecObs GraphThms BufferModel SpecBuffer
  MiscModel SerialModel SpecSerial ArchiveModel SpecArchive RegistryModel SpecDemand RegistryThms ExSerial ExArchive ExRegistry.

(** ** C92: libraries with item classes are loaded on demand
    Full statement: an item type registered by an installed library is written and read in any process, whatever libraries are loaded, and
    loading a library takes nothing away.  It is false if two libraries name the same type, see the refutation.  [ix1] and [ix2]: what is
    installed where the writer and the reader run; [p], [q]: the libraries they have loaded. *)
Theorem C92_libraries_add_partial {P0 O S A I : Type} (ix : index) (e0 : env P0 O S A I) :
  one_name ix -> libraries_add (with_registry ix e0).
Proof. exact (reg_libraries_add ix e0). Qed.
Print Assumptions C92_libraries_add_partial.

(** Handles stay in any case. *)
Theorem C92_handles_stay {P0 O S A I : Type} (ix : index) (e0 : env P0 O S A I) p c :
  (has_handle (with_registry ix e0) p c = true -> has_handle (with_registry ix e0) (load_all (with_registry ix e0) p) c = true) /\
  forall n, has_handle (with_registry ix e0) p c = true -> has_handle (with_registry ix e0) (load_lib (with_registry ix e0) p n).1 c = true.
Proof. exact (handles_stay ix e0 p c). Qed.
Print Assumptions C92_handles_stay.

(** A type that an installed library registers is serialisable, whatever is loaded. *)
Theorem C92_serializable_partial {P0 O S A I : Type} (ix : index) (e0 : env P0 O S A I) dt T p :
  one_name ix -> installed ix dt T -> snd (is_serializable (with_registry ix e0) p T) = true.
Proof. exact (fun Hone => always_serializable ix e0 Hone dt T p). Qed.
Print Assumptions C92_serializable_partial.

(** A type that no library names is not, in particular with ENVIRE_REGISTER_PLUGIN of one argument only. *)
Theorem C92_unnamed_never {P0 O S A I : Type} (ix : index) (e0 : env P0 O S A I) T p :
  (forall c, ~ names ix T c) -> snd (is_serializable (with_registry ix e0) p T) = false.
Proof. exact (never_serializable ix e0 T p). Qed.
Print Assumptions C92_unnamed_never.

(** What was saved is read where the class can be read, loaded or not. *)
Theorem C92_item_on_demand_partial {P0 O S I : Type} (e0 : env P0 O S byte I) (cls : I -> iclass) (sync : O -> S -> Prop) (lim : nat)
    (pre : O * list byte) (dec_pre : list byte -> option (S * list byte)) (chunk : list byte -> list write) ix1 ix2 p i v p' v' q :
  one_name ix1 -> round_trips e0 sync lim -> (forall bs, all_bytes (chunk bs) = bs) -> preamble_ok sync pre dec_pre ->
  save_item_to_binary (with_registry ix1 e0) cls pre chunk p i v = (p', Ret true, v') ->
  (forall c, names ix1 (type_index (cls i)) c -> reads ix2 q c) ->
  exists q', load_item_from_binary (with_registry ix2 e0) dec_pre q v' = (q', Ret (Some i)).
Proof. exact (demand_item e0 cls sync lim pre dec_pre chunk ix1 ix2 p i v p' v' q). Qed.
Print Assumptions C92_item_on_demand_partial.

(** Both together: an item of a type installed at both ends arrives. *)
Theorem C92_item_arrives_partial {P0 O S I : Type} (e0 : env P0 O S byte I) (cls : I -> iclass) (sync : O -> S -> Prop) (lim : nat)
    (pre : O * list byte) (dec_pre : list byte -> option (S * list byte)) (chunk : list byte -> list write) ix1 ix2 dt p i v q :
  one_name ix1 -> round_trips e0 sync lim -> handles_work e0 -> (forall bs, all_bytes (chunk bs) = bs) -> preamble_ok sync pre dec_pre ->
  installed ix1 dt (type_index (cls i)) -> installed ix2 dt (type_index (cls i)) ->
  exists p' v' q', save_item_to_binary (with_registry ix1 e0) cls pre chunk p i v = (p', Ret true, v') /\
    load_item_from_binary (with_registry ix2 e0) dec_pre q v' = (q', Ret (Some i)).
Proof. exact (demand_item_total e0 cls sync lim pre dec_pre chunk ix1 ix2 dt p i v q). Qed.
Print Assumptions C92_item_arrives_partial.

(** A whole graph arrives with all its items, if all their types are installed at both ends. *)
Theorem C92_graph_arrives_partial {P0 O S A I E : Type} (e0 : env P0 O S A I) (ge : genv O S A E) (cls : I -> iclass)
    (sync : O -> S -> Prop) (lim : nat) (einv : E -> E) (pre : O * list A) (dec_pre : list A -> option (S * list A))
    (keep v : bool) (io : forder (I := I)) ix1 ix2 p q (s0 s : gst (gmap iclass (list I)) E) :
  one_name ix1 -> round_trips e0 sync lim -> handles_work e0 -> graph_round_trips ge sync lim -> preamble_ok sync pre dec_pre -> forder_ok io ->
  reachable ∅ einv s0 -> reachable ∅ einv s ->
  (forall f m, get_frame_property s0 f = Ret m -> typed cls m /\ fits lim m) -> num_vertices s0 <= lim -> num_edges s0 <= lim ->
  (forall f m T is, get_frame_property s0 f = Ret m -> m !! T = Some is -> is <> [] -> exists dt, installed ix1 dt T /\ installed ix2 dt T) ->
  (forall f, contains_frame s f = true -> keep = false /\ contains_frame s0 f = true) ->
  exists p' w q' s', save_to_file (with_registry ix1 e0) ge cls pre v io p s0 = (p', w, Ret tt) /\
    load_from_file (with_registry ix2 e0) ge cls dec_pre keep v q w s = (q', s', [], Ret tt) /\
    (forall f, contains_frame s' f = contains_frame s0 f) /\
    (forall a b, get_edge_property s' a b = get_edge_property s0 a b) /\
    num_vertices s' = num_vertices s0 /\ num_edges s' = num_edges s0 /\
    (forall f m, get_frame_property s0 f = Ret m -> exists m', get_frame_property s' f = Ret m' /\
       forall T is, m' !! T = Some is <-> m !! T = Some is /\ is <> []).
Proof. exact (demand_file e0 ge cls sync lim einv pre dec_pre keep v io ix1 ix2 p q s0 s). Qed.
Print Assumptions C92_graph_arrives_partial.

(** Two libraries name the same type: an item that could be read elsewhere is written under the other name after the process was
    asked about an item of an unknown type, which loads all libraries; then it is not read although its type is installed there. *)
Theorem C92_name_changes_refuted :
  exists (ix1 ix2 : index) (i j : bitem) p2 v1 v2,
    installed ix1 "double" (type_index (bcls i)) /\ installed ix2 "double" (type_index (bcls i)) /\ one_name ix2 /\
    save_item_to_binary (with_registry ix1 yenv) bcls ypre ychunk [0] i [] = ([0], Ret true, v1) /\
    load_item_from_binary (with_registry ix2 yenv) ydec_pre [] v1 = ([0], Ret (Some i)) /\
    is_serializable (with_registry ix1 yenv) [0] (type_index (bcls j)) = (p2, false) /\
    save_item_to_binary (with_registry ix1 yenv) bcls ypre ychunk p2 i [] = (p2, Ret true, v2) /\
    load_item_from_binary (with_registry ix2 yenv) ydec_pre [] v2 = ([], Ret None).
Proof. exact name_changes. Qed.
Print Assumptions C92_name_changes_refuted.

Example C92_case : let e := with_registry xix yenv in let T := CItem 1 in
  one_name xix /\ installed xix "int" T /\ (forall lim, round_trips yenv (fun _ _ => True) lim) /\ handles_work yenv /\
  (forall c, ~ names xix (CItem 7) c) /\
  is_serializable e [] T = ([0; 1], true) /\ is_serializable e [1] T = ([1], true) /\ is_serializable e [1] (CItem 7) = ([1; 0], false) /\
  has_handle e [] "Counter" = false /\ has_handle e [1] "Counter" = true /\
  xsave xix [1] (1, 2) [] = ([1], Ret true, (xsave xix [] (1, 2) []).2) /\
  xload xix [] (xsave xix [1] (1, 2) []).2 = ([1], Ret (Some (1, 2))) /\
  xload xix [0] (xsave xix [1] (1, 2) []).2 = ([0; 1], Ret (Some (1, 2))).
Proof.
  cbv zeta. split; [exact xix_one_name|]. split; [apply xix_installed; right; left|]. split; [exact yenv_round_trips|].
  split; [exact yenv_handles_work|]. split; [|by vm_compute].
  intros c (l & r & [->|[->| ->]]%xix_regs & HT & _); cbn in HT; done.
Qed.
Example C92_graph_case : let s0 := gstate xops in
  let x := save_to_file (with_registry xix benv) bgenv bcls bpre true bio [] s0 in
  let y := load_from_file (with_registry xix3 benv) bgenv bcls bdec_pre false true [2] x.1.2 gst0 in
  reachable ∅ Z.opp s0 /\ (forall f m, get_frame_property s0 f = Ret m -> typed bcls m /\ fits 4 m) /\
  (forall f m T is, get_frame_property s0 f = Ret m -> m !! T = Some is -> is <> [] -> exists dt, installed xix dt T /\ installed xix3 dt T) /\
  x.1.1 = [0; 1] /\ x.2 = Ret tt /\ y.1.1.1 = [2; 1; 0] /\ y.2 = Ret tt /\
  get_frame_property y.1.1.2 "a" = Ret {[CItem 1 := [(1, 7); (1, 8)]]} /\ get_frame_property y.1.1.2 "b" = Ret {[CItem 0 := [(0, 5)]]} /\
  get_edge_property y.1.1.2 "b" "a" = Ret (-3)%Z.
Proof.
  cbv zeta. split; [apply gstate_reachable; [by repeat constructor|by vm_compute]|].
  split; [apply all_frames; apply xops_frames|]. split; [|by vm_compute].
  intros f m T is Hm. revert T is.
  revert f m Hm. apply (all_frames _ (fun m => forall T is, m !! T = Some is -> is <> [] -> exists dt, installed xix dt T /\ installed xix3 dt T)).
  apply xops_types.
Qed.
