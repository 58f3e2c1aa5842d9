(** Manager of graphs, class loader, escaping of type names, metadata, change callbacks and item objects. *)
From stdpp Require Import prelude strings gmap.
From Verif Require Import Outcome ItemClass BoxModel.

(** * EnvireManager *)
(** EnvireManager::graphs (/repo/src/util/EnvireManager.hpp:36) and the number of the next graph object; a null pointer is [None]. *)
Record manager := Manager { mg_graphs : gmap string (option nat); mg_next : nat }.
(** Initial value, /repo/src/util/EnvireManager.cpp:17. *)
Definition mg_init : manager := Manager ∅ 0.
(** getInstance, /repo/src/util/EnvireManager.cpp:27-35.  The subscript operator of std::map inserts a null pointer. *)
Definition get_instance (name : string) (m : manager) : manager * option nat :=
  let m1 := match mg_graphs m !! name with
            | Some _ => m
            | None => Manager (<[name := None]> (mg_graphs m)) (mg_next m)
            end in
  match mg_graphs m1 !! name with
  | Some (Some g) => (m1, Some g)
  | _ => (Manager (<[name := Some (mg_next m1)]> (mg_graphs m1)) (S (mg_next m1)), Some (mg_next m1))
  end.
(** Calls in sequence (/repo/src/util/EnvireManager.cpp:27) with their results. *)
Fixpoint get_instances (names : list string) (m : manager) : manager * list (option nat) :=
  match names with
  | [] => (m, [])
  | n :: names => let '(m, g) := get_instance n m in let '(m, gs) := get_instances names m in (m, g :: gs)
  end.

(** * ClassLoader *)
Section loader.
  (** State of the plugin loader; PluginLoader::loadLibrary, external, used in /repo/src/plugin/ClassLoader.cpp:98; hasClassOfType, used in
      /repo/src/plugin/ClassLoader.cpp:58. *)
  Context {L : Type} (load_library : L -> string -> L * bool) (has_class : L -> string -> bool).
  (** loadEnvireItemLibrary, /repo/src/plugin/ClassLoader.cpp:85-90. *)
  Definition load_item_library (l : L) (name : string) : L * bool := if has_class l name then load_library l name else (l, false).
  (** The loop of loadAllEnvireItemLibraries, /repo/src/plugin/ClassLoader.cpp:96-103: attempted libraries and load_fails. *)
  Fixpoint load_loop (names : list string) (l : L) (load_fails : bool) : L * list string * bool :=
    match names with
    | [] => (l, [], load_fails)
    | n :: names =>
        let '(l, ok) := load_library l n in
        let '(l, tried, fails) := load_loop names l (if ok then load_fails else true) in (l, n :: tried, fails)
    end.
  (** loadAllEnvireItemLibraries, /repo/src/plugin/ClassLoader.cpp:92-105; [names] is the result of getAvailableClasses.
      Returns load_fails. *)
  Definition load_all_libraries (names : list string) (l : L) : L * list string * bool := load_loop names l false.
End loader.

(** * escapeAngleBraces *)
(** boost::replace_all_copy with a non-empty search string, used in /repo/src/util/Demangle.cpp:57-58: leftmost occurrences that do not
    overlap.  [skip] characters belong to an occurrence already replaced. *)
Fixpoint replace_all (search fmt : string) (skip : nat) (s : string) : string :=
  match s with
  | EmptyString => EmptyString
  | String c t =>
      match skip with
      | S n => replace_all search fmt n t
      | 0 => if String.prefix search s then String.append fmt (replace_all search fmt (String.length search - 1) t)
             else String c (replace_all search fmt 0 t)
      end
  end.
(** escapeAngleBraces, /repo/src/util/Demangle.cpp:55-60. *)
Definition escape_angle_braces (input : string) : string :=
  let a := replace_all "<" "\<" 0 input in replace_all ">" "\>" 0 a.

(** * ItemMetadataMapping *)
(** ItemMetadata (/repo/src/items/ItemMetadata.hpp:38-47): class name and embedded type name. *)
Record metadata := Metadata { md_class : string; md_embedded : string }.
(** ItemMetadataMapping::mapping, /repo/src/items/ItemMetadata.hpp:68-69. *)
Notation mapping := (gmap iclass metadata).
(** addMapping, /repo/src/items/ItemMetadata.cpp:38-45. *)
Definition add_mapping (t : iclass) (d : metadata) (m : mapping) : mapping := <[t := d]> m.
(** getMetadata, /repo/src/items/ItemMetadata.cpp:47-54. *)
Definition get_metadata (t : iclass) (m : mapping) : outcome metadata := match m !! t with Some d => Ret d | None => Throw XOutOfRange end.
(** containsMetadata, /repo/src/items/ItemMetadata.cpp:56-61. *)
Definition contains_metadata (t : iclass) (m : mapping) : bool := bool_decide (is_Some (m !! t)).
(** Item::getClassName(std::string&), /repo/src/items/Item.hpp:180-188; [None] is the result false. *)
Definition class_name (c : iclass) (m : mapping) : outcome (option string) :=
  if contains_metadata (type_index c) m then obind (get_metadata (type_index c) m) (fun d => Ret (Some (md_class d))) else Ret None.
(** ItemBase::getClassName(), /repo/src/items/ItemBase.cpp:55-61. *)
Definition class_name_or_unknown (c : iclass) (m : mapping) : outcome string :=
  obind (class_name c m) (fun n => Ret (default "UnknownItem" n)).

(** * Change callbacks *)
(** itemContentsChanged (/repo/src/items/ItemBase.hpp:180), a boost::signals2::signal: slots in connection order.  A slot is the
    number of its connection and the callback. *)
Record signal := Signal { sg_slots : list (nat * nat); sg_next : nat }.
(** Calls on the signal (/repo/src/items/ItemBase.hpp:156-167). *)
Inductive scall := SConnect (cb : nat) | SDisconnect (cb : nat).
Global Instance scall_eq_dec : EqDecision scall.
Proof. solve_decision. Defined.
(** connectContentsChangedCallback and disconnectContentsChangedCallback, /repo/src/items/ItemBase.hpp:156-167: the latter disconnects every slot
    that equals the callback. *)
Definition sig_call (s : signal) (c : scall) : signal :=
  match c with
  | SConnect cb => Signal (sg_slots s ++ [(sg_next s, cb)]) (S (sg_next s))
  | SDisconnect cb => Signal (filter (fun x => x.2 <> cb) (sg_slots s)) (sg_next s)
  end.
Section signal.
  (** Callbacks with some state; the calls they make on the same signal. *)
  Context {H : Type} (react : H -> nat -> H * list scall).
  (** boost::signals2 invocation, /repo/src/items/ItemBase.cpp:63-65: the slots present at the beginning are called in order, each only if it is
      still connected when its turn comes. *)
  Fixpoint sig_emit (todo : list (nat * nat)) (h : H) (s : signal) : H * signal * list nat :=
    match todo with
    | [] => (h, s, [])
    | (id, cb) :: todo =>
        if existsb (fun x => Nat.eqb x.1 id) (sg_slots s) then
          let '(h, calls) := react h cb in
          let '(h, s, tr) := sig_emit todo h (foldl sig_call s calls) in (h, s, cb :: tr)
        else sig_emit todo h s
    end.
  (** ItemBase::contentsChanged, /repo/src/items/ItemBase.cpp:63-65. *)
  Definition contents_changed (h : H) (s : signal) : H * signal * list nat := sig_emit (sg_slots s) h s.
End signal.

(** * Item objects *)
(** SpatioTemporal and signal of an item object (/repo/src/items/SpatioTemporal.hpp:58-68, /repo/src/items/ItemBase.hpp:180), and the boundary
    pointer of SpatialItem (/repo/src/items/SpatialItem.hpp:50).  Times, identifiers and data are numbers. *)
Record itemobj := ItemObj { io_class : iclass; io_time : nat; io_uuid : nat; io_frame : frameid; io_data : nat; io_signal : signal;
                            io_boundary : option nat }.
(** Objects in memory: items and bounding boxes, which are held through shared pointers. *)
Record objects := Objects { ob_items : gmap iptr itemobj; ob_boxes : gmap nat box }.
(** A new signal without slots, /repo/src/items/ItemBase.cpp:33-43: no constructor copies the signal. *)
Definition sig_new : signal := Signal [] 0.
(** Copy constructor of Item (/repo/src/items/Item.hpp:70-76); for a derived class the implicit one, which also copies the boundary pointer
    (/repo/src/items/SpatialItem.hpp:42-50).  [q] is the address of the new object. *)
Definition copy_item (p q : iptr) (o : objects) : outcome objects :=
  match ob_items o !! p with
  | None => UB
  | Some i => Ret (Objects (<[q := ItemObj (io_class i) (io_time i) (io_uuid i) (io_frame i) (io_data i) sig_new (io_boundary i)]> (ob_items o)) (ob_boxes o))
  end.
(** Item::operator=, /repo/src/items/Item.hpp:98-106; for SpatialItem the implicit one.  The signal of the target stays.
    Both objects have the same class. *)
Definition assign_item (p q : iptr) (o : objects) : outcome objects :=
  match ob_items o !! p, ob_items o !! q with
  | Some i, Some j => Ret (Objects (<[q := ItemObj (io_class j) (io_time i) (io_uuid i) (io_frame i) (io_data i) (io_signal j) (io_boundary i)]> (ob_items o)) (ob_boxes o))
  | _, _ => UB
  end.
(** Item::clone, /repo/src/items/Item.hpp:87-94; not overridden in SpatialItem, so the new object is an Item<D>. *)
Definition clone_item (p q : iptr) (o : objects) : outcome objects :=
  match ob_items o !! p with
  | None => UB
  | Some i => Ret (Objects (<[q := ItemObj (type_index (io_class i)) (io_time i) (io_uuid i) (io_frame i) (io_data i) sig_new None]> (ob_items o)) (ob_boxes o))
  end.
(** Later modifications of an item: setters (/repo/src/items/Item.hpp:123-166), callbacks (/repo/src/items/ItemBase.hpp:156-167), setBoundary and
    extendBoundary with a point (/repo/src/items/SpatialItem.hpp:61-70). *)
Inductive ichange := ISetTime (t : nat) | ISetID (u : nat) | ISetFrame (f : frameid) | ISetData (d : nat) | ISignal (c : scall)
  | ISetBoundary (b : option nat) | IExtend (p : vec).
(** Effect of a modification, lines as for [ichange]. *)
Definition change_item (p : iptr) (c : ichange) (o : objects) : outcome objects :=
  match ob_items o !! p with
  | None => UB
  | Some (ItemObj cl t u f d s b) =>
      let upd i := Ret (Objects (<[p := i]> (ob_items o)) (ob_boxes o)) in
      match c with
      | ISetTime t => upd (ItemObj cl t u f d s b)
      | ISetID u => upd (ItemObj cl t u f d s b)
      | ISetFrame f => upd (ItemObj cl t u f d s b)
      | ISetData d => upd (ItemObj cl t u f d s b)
      | ISignal c => upd (ItemObj cl t u f d (sig_call s c) b)
      | ISetBoundary b => upd (ItemObj cl t u f d s b)
      | IExtend x => match b with
                     | None => Throw XRuntime
                     | Some q => match ob_boxes o !! q with
                                 | None => UB
                                 | Some bx => Ret (Objects (ob_items o) (<[q := box_extend_point bx x]> (ob_boxes o)))
                                 end
                     end
      end
  end.
