(** Properties of objects created by the name of their class: C95. *)
From stdpp Require Import prelude strings gmap.
From Verif Require Import ItemClass Outcome MiscModel SerialModel RegistryModel SpecDemand CreateModel SpecCreate CreateThms ExCreate.

(** An item is made exactly if the library of its class is there and some loaded library exports the class; it is of the class asked for,
    no other library is loaded, and afterwards the process has the class. *)
Theorem C95_created (ct : catalog) (c : string) (pr pr' : proc) (x : option cobj) :
  create_item ct c pr = (pr', x) ->
  (is_Some x <-> creatable (ct_index ct) (pr_libs pr) c) /\ (forall o, x = Some o -> ob_class o = c) /\
  only_loads (ct_index ct) (pr_libs pr) (pr_libs pr') c /\ (is_Some x -> exists l, l ∈ pr_libs pr' /\ has_class (ct_index ct) l c).
Proof. exact (create_item_spec ct c pr pr' x). Qed.
Print Assumptions C95_created.

(** An item for a data type is Item of it if that can be made, otherwise one of the associated class; it fails only if neither can. *)
Theorem C95_created_for (ct : catalog) (dt : string) (pr pr' : proc) (x : option cobj) :
  create_item_for ct dt pr = (pr', x) ->
  (creatable (ct_index ct) (pr_libs pr) (item_name dt) -> exists o, x = Some o /\ ob_class o = item_name dt) /\
  (forall o, x = Some o -> ob_class o = item_name dt \/ ~ creatable (ct_index ct) (pr_libs pr) (item_name dt) /\ ct_assoc ct dt = Some (ob_class o)) /\
  (forall c, ct_assoc ct dt = Some c -> creatable (ct_index ct) (pr_libs pr) c -> is_Some x) /\
  (forall o, x = Some o -> exists l, l ∈ pr_libs pr' /\ has_class (ct_index ct) l (ob_class o)).
Proof. exact (create_item_for_spec ct dt pr pr' x). Qed.
Print Assumptions C95_created_for.

(** Asked for as an item of a class, the object is given if it is of that class or derives from it; otherwise an exception is thrown. *)
Theorem C95_created_as (ct : catalog) (T : iclass) (c : string) (pr pr' : proc) (x : outcome (option cobj)) :
  create_item_as ct T c pr = (pr', x) ->
  (x = Ret None <-> ~ creatable (ct_index ct) (pr_libs pr) c) /\
  (x = Throw XRuntime <-> creatable (ct_index ct) (pr_libs pr) c /\ is_a (ct_class ct c) T = false) /\
  (forall o, x = Ret (Some o) -> ob_class o = c /\ is_a (ct_class ct c) T = true).
Proof. exact (create_item_as_spec ct T c pr pr' x). Qed.
Print Assumptions C95_created_as.

(** Of all objects made since the process started, two are the same exactly if they are of one class that is a singleton. *)
Theorem C95_own_object (ct : catalog) (rs : list request) (pr pr' : proc) (os : list (option cobj)) (i j : nat) (a b : cobj) :
  pr_single pr = ∅ -> serve_all ct rs pr = (pr', os) -> i <> j -> os !! i = Some (Some a) -> os !! j = Some (Some b) ->
  ob_id a = ob_id b <-> ob_class a = ob_class b /\ ct_singleton ct (ob_class a) = true.
Proof. exact (serve_all_shared ct rs pr pr' os i j a b). Qed.
Print Assumptions C95_own_object.

(** An item of a class registered by ENVIRE_REGISTER_ITEM has its name as soon as it is made, can be saved, and arrives in every process that
    can load the class.  Missing: the classes derived from Item, see the refutations. *)
Theorem C95_travels_partial (ct1 ct2 : catalog) (dt : string) (T : iclass) (l : nat) (pr pr' : proc) (o : cobj) (q : list nat) :
  one_name (ct_index ct1) ->
  ix_lib (ct_index ct1) (item_name dt) = Some l -> RegItem dt T ∈ ix_regs (ct_index ct1) l -> type_index (ct_class ct1 (item_name dt)) = T ->
  create_item ct1 (item_name dt) pr = (pr', Some o) -> reads (ct_index ct2) q (item_name dt) ->
  ob_name ct1 (pr_libs pr') o = Some (item_name dt) /\
  ob_save ct1 (pr_libs pr') o = (pr_libs pr', Ret (Some (item_name dt, o))) /\
  exists q', ob_load ct2 q (item_name dt, o) = (q', Ret (Some o)).
Proof. exact (created_travels ct1 ct2 dt T l pr pr' o q). Qed.
Print Assumptions C95_travels_partial.

(** Whatever its class, a saved item arrives where the name can be read and the class itself is loaded. *)
Theorem C95_arrives (ct1 ct2 : catalog) (p p' q : list nat) (o : cobj) (w : string * cobj) :
  ob_save ct1 p o = (p', Ret (Some w)) -> reads (ct_index ct2) q w.1 ->
  ob_class o = w.1 \/ (exists l, l ∈ q /\ has_class (ct_index ct2) l (ob_class o)) ->
  exists q', ob_load ct2 q w = (q', Ret (Some o)).
Proof. exact (ob_arrives ct1 ct2 p p' q o w). Qed.
Print Assumptions C95_arrives.

(** An item saved under another name than that of its class never arrives where the class is not loaded yet, unless the library of the other
    name has it: reading loads the library of the name only, also if that of the class is installed. *)
Theorem C95_derived_never_arrives_refuted (ct : catalog) (q q' : list nat) (c : string) (o x : cobj) :
  (forall l, l ∈ q -> ~ has_class (ct_index ct) l (ob_class o)) ->
  (forall l, ix_lib (ct_index ct) c = Some l -> ~ has_class (ct_index ct) l (ob_class o)) ->
  ob_load ct q (c, o) <> (q', Ret (Some x)).
Proof. exact (ob_load_lost ct q c o q' x). Qed.
Print Assumptions C95_derived_never_arrives_refuted.

(** Such an item exists: made by the loader, saved, lost although any process could make one of its class. *)
Theorem C95_derived_lost_refuted :
  exists ct pr pr' o w q', one_name (ct_index ct) /\ create_item ct "Counter" pr = (pr', Some o) /\
    (forall q, creatable (ct_index ct) q "Counter") /\
    ob_save ct (pr_libs pr') o = (q', Ret (Some w)) /\ (ob_load ct [] w).2 = Throw XRuntime.
Proof. exact derived_lost. Qed.
Print Assumptions C95_derived_lost_refuted.

(** An item the loader has made, with a handle for its class in the map, cannot be saved. *)
Theorem C95_unnamed_refuted :
  exists ct pr pr' o, one_name (ct_index ct) /\ create_item ct "Lonely" pr = (pr', Some o) /\
    has_handle (with_registry (ct_index ct) no_codec) (pr_libs pr') (ob_class o) = true /\ (ob_save ct (pr_libs pr') o).2 = Ret None.
Proof. exact unnamed_not_saved. Qed.
Print Assumptions C95_unnamed_refuted.

(** An item that counts as serialisable, and saving it throws. *)
Theorem C95_plain_throws_refuted :
  exists ct p o, one_name (ct_index ct) /\
    (is_serializable (with_registry (ct_index ct) no_codec) p (type_index (ct_class ct (ob_class o)))).2 = true /\ (ob_save ct p o).2 = Throw XRuntime.
Proof. exact plain_throws. Qed.
Print Assumptions C95_plain_throws_refuted.

(** A collision object is found by the name of the class of the item, but not from the item. *)
Theorem C95_collision_refuted :
  exists ct pr o, creatable (ct_index ct) (pr_libs pr) (ob_class o) /\
    is_Some (create_collision_for ct (ob_class o) pr).2 /\ (create_collision_for_item ct o pr).2 = None.
Proof. exact collision_not_found. Qed.
Print Assumptions C95_collision_refuted.

Example C95_case :
  let x := serve_all kct [QItem (item_name "text"); QItemFor "int"; QItemAs (CItem 9) (item_name "double"); QItemFor "double"; QItemFor "char";
    QCollision "Counter"; QItemAs (CItem 4) (item_name "text"); QItemFor "int"] kproc in
  x.2 = [Some (CObj 0 (item_name "text")); Some (CObj 1 "Length"); None; Some (CObj 3 (item_name "double")); None; Some (CObj 4 "Ball");
    Some (CObj 0 (item_name "text")); Some (CObj 5 "Length")] /\ pr_libs x.1 = [4; 3; 0; 5] /\
  creatable (ct_index kct) [] (item_name "double") /\ ~ creatable (ct_index kct) [] (item_name "int") /\ ct_assoc kct "int" = Some "Length"%string.
Proof.
  cbv zeta. split; [by vm_compute|]. split; [by vm_compute|]. split.
  { exists 0. split; [by vm_compute|]. split; [by right|]. exists 0. split; [by left|]. apply kct_has. left. }
  split; [|by vm_compute]. intros (l & Hl & _). by vm_compute in Hl.
Qed.
Example C95_travels_case :
  one_name (ct_index kct) /\ RegItem "double" (CItem 0) ∈ ix_regs (ct_index kct) 0 /\
  create_item kct (item_name "double") kproc = (Proc [0] ∅ 1, Some (CObj 0 (item_name "double"))) /\
  reads (ct_index kct) [3] (item_name "double") /\
  ob_load kct [3] (item_name "double", CObj 0 (item_name "double")) = ([3; 0], Ret (Some (CObj 0 (item_name "double")))) /\
  ob_load kct [1] (item_name "double", CObj 0 "Counter") = ([1; 0], Ret (Some (CObj 0 "Counter"))) /\
  (forall l, l ∈ [3] -> ~ has_class (ct_index kct) l "Counter") /\
  (forall l, ix_lib (ct_index kct) (item_name "double") = Some l -> ~ has_class (ct_index kct) l "Counter").
Proof.
  split; [exact kct_one_name|]. split; [left|]. split; [by vm_compute|]. split.
  { eapply (has_class_reads _ _ _ 0); [by vm_compute|by vm_compute|left|]. apply kct_has. left. }
  split; [by vm_compute|]. split; [by vm_compute|]. split.
  - intros l [->|[]%elem_of_nil]%elem_of_cons. rewrite kct_has. apply (bool_decide_unpack _). by vm_compute.
  - intros l Hl. assert (l = 0) as -> by (vm_compute in Hl; congruence). rewrite kct_has. apply (bool_decide_unpack _). by vm_compute.
Qed.
