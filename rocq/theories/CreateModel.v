(** Model of the creation of items by the name of their class (/repo/src/plugin/ClassLoader.cpp:56-83, /repo/src/plugin/ClassLoader.hpp:155-184), and of
    what becomes of them when they are saved and loaded.  Executable definitions only. *)
From stdpp Require Import prelude strings gmap.
From Verif Require Import ItemClass Outcome MiscModel SerialModel RegistryModel.

(* What the plugin manager knows besides the libraries: the singleton flag and the associations of the XML files, used in
   /repo/src/plugin/ClassLoader.cpp:68, 78 and /repo/src/plugin/ClassLoader.hpp:170; the collision classes a library exports.
   [ct_class]: the C++ class behind the name in a registering macro, /repo/src/plugin/Plugin.hpp:42-45, 86-93. *)
Record catalog := Catalog {
  ct_index : index;
  ct_class : string -> iclass;
  ct_singleton : string -> bool;
  ct_assoc : string -> option string;
  ct_assoc_collision : string -> option string;
  ct_collisions : nat -> list string }.

(* An object: its number stands for the uuid it gets when it is constructed (/repo/src/items/Item.hpp:58-62); its class. *)
Record cobj := CObj { ob_id : nat; ob_class : string }.

(* A process: the libraries it has loaded, the objects of singleton classes kept by the plugin manager, the number of the next object.
   State behind /repo/src/plugin/ClassLoader.cpp:47-50. *)
Record proc := Proc { pr_libs : list nat; pr_single : gmap string nat; pr_next : nat }.

(* Codecs play no role here: only the registry is asked.  /repo/src/serialization/Serialization.cpp:98-150. *)
Definition no_codec : env unit unit unit unit unit :=
  Env (fun _ _ => None) (fun _ _ => false) (fun p => p) (fun p _ => (p, false)) (fun _ _ => []) (fun _ _ => None)
    (fun o _ => (o, [])) (fun _ _ => RAbort) (fun _ _ _ => WAbort) (fun _ _ _ => RAbort).

Section create.
Context (ct : catalog).
Local Notation ix := (ct_index ct).
Local Notation e := (with_registry (ct_index ct) no_codec).

(* Classes with base ItemBase that a library exports: CLASS_LOADER_REGISTER_CLASS in the macros, /repo/src/plugin/Plugin.hpp:42-44, 86-87, 90-91. *)
Definition item_classes (l : nat) : list string := reg_class <$> ix_regs ix l.

(* ClassLoader::hasEnvireItem, /repo/src/plugin/ClassLoader.cpp:56-59. *)
Definition has_envire_item (c : string) : bool := bool_decide (c ∈ ix_classes ix).

(* PluginLoader::createInstance<Base>, external, used in /repo/src/plugin/ClassLoader.cpp:68 and /repo/src/plugin/ClassLoader.hpp:172: the library of the
   class is loaded; it fails if that fails or no loaded library exports the class with this base ([exp]).  A singleton is made once and kept. *)
Definition create_instance (exp : nat -> list string) (c : string) (pr : proc) : proc * option cobj :=
  let '(p1, ok) := load_library ix (pr_libs pr) c in
  if ok && bool_decide (c ∈ p1 ≫= exp) then
    match (if ct_singleton ct c then pr_single pr !! c else None) with
    | Some n => (Proc p1 (pr_single pr) (pr_next pr), Some (CObj n c))
    | None => (Proc p1 (if ct_singleton ct c then <[c := pr_next pr]> (pr_single pr) else pr_single pr) (S (pr_next pr)), Some (CObj (pr_next pr) c))
    end
  else (Proc p1 (pr_single pr) (pr_next pr), None).

(* ClassLoader::createEnvireItem, /repo/src/plugin/ClassLoader.cpp:66-69. *)
Definition create_item (c : string) (pr : proc) : proc * option cobj := create_instance item_classes c pr.

(* The template createEnvireItem<InheritedClass>, /repo/src/plugin/ClassLoader.hpp:155-159: createInstance with two classes (external) casts the new
   object; the exception DownCastException is XRuntime here. *)
Definition create_item_as (T : iclass) (c : string) (pr : proc) : proc * outcome (option cobj) :=
  let '(pr1, r) := create_item c pr in
  (pr1, match r with
        | Some o => if is_a (ct_class ct c) T then Ret (Some o) else Throw XRuntime
        | None => Ret None
        end).

(* ClassLoader::createEnvireItemFor, /repo/src/plugin/ClassLoader.cpp:71-83. *)
Definition create_item_for (dt : string) (pr : proc) : proc * option cobj :=
  let '(pr1, r) := create_item (item_name dt) pr in
  match r with
  | Some o => (pr1, Some o)
  | None => match ct_assoc ct dt with Some c => create_item c pr1 | None => (pr1, None) end
  end.

(* createCollisionObjectFor(class_name), /repo/src/plugin/ClassLoader.hpp:161-175. *)
Definition create_collision_for (c : string) (pr : proc) : proc * option cobj :=
  match ct_assoc_collision ct c with
  | Some c' => create_instance (ct_collisions ct) c' pr
  | None => (pr, None)
  end.

(* Item::getClassName of an object, /repo/src/items/Item.hpp:180-188, 200-203: the name registered for Item of the data type. *)
Definition ob_name (p : list nat) (o : cobj) : option string := SerialModel.class_name e p (type_index (ct_class ct (ob_class o))).

(* createCollisionObjectFor(item), /repo/src/plugin/ClassLoader.hpp:177-184. *)
Definition create_collision_for_item (o : cobj) (pr : proc) : proc * option cobj :=
  match ob_name (pr_libs pr) o with Some c => create_collision_for c pr | None => (pr, None) end.

(* BOOST_CLASS_EXPORT of the registering macros, /repo/src/serialization/SerializationRegistration.hpp:54-55: the archives of this process know the class. *)
Definition exported (p : list nat) (c : string) : bool := bool_decide (c ∈ p ≫= item_classes).

(* Serialization::save of one item, /repo/src/serialization/Serialization.hpp:61-87: the name in the header, the key under which boost exported the class
   of the object, and the object.  Boost throws an archive_exception, which is no std::runtime_error, if the class was not exported. *)
Definition ob_save (p : list nat) (o : cobj) : list nat * outcome (option (string * cobj)) :=
  let '(p1, b) := is_serializable e p (type_index (ct_class ct (ob_class o))) in
  if (b : bool) then
    match ob_name p1 o with
    | Some c => if has_handle e p1 c then if exported p1 (ob_class o) then (p1, Ret (Some (c, o))) else (p1, Throw XRuntime) else (p1, Ret None)
    | None => (p1, Ret None)
    end
  else (p1, Ret None).

(* Serialization::load of one item, /repo/src/serialization/Serialization.hpp:96-134; the key is looked up among the exported classes. *)
Definition ob_load (q : list nat) (w : string * cobj) : list nat * outcome (option cobj) :=
  let '(q1, b) := if has_handle e q w.1 then (q, true)
                  else let '(q1, ok) := load_lib e q w.1 in if (ok : bool) then (q1, has_handle e q1 w.1) else (q1, false) in
  if (b : bool) then if exported q1 (ob_class w.2) then (q1, Ret (Some w.2)) else (q1, Throw XRuntime) else (q1, Ret None).
End create.

(* Requests for objects, one after the other: /repo/src/plugin/ClassLoader.cpp:66-83, /repo/src/plugin/ClassLoader.hpp:155-184. *)
Inductive request := QItem (c : string) | QItemAs (T : iclass) (c : string) | QItemFor (dt : string) | QCollision (c : string).

(* One request.  Same lines. *)
Definition serve (ct : catalog) (r : request) (pr : proc) : proc * option cobj :=
  match r with
  | QItem c => create_item ct c pr
  | QItemAs T c => let '(pr1, x) := create_item_as ct T c pr in (pr1, match x with Ret o => o | _ => None end)
  | QItemFor dt => create_item_for ct dt pr
  | QCollision c => create_collision_for ct c pr
  end.

(* All requests, with the objects they gave.  Same lines. *)
Fixpoint serve_all (ct : catalog) (rs : list request) (pr : proc) : proc * list (option cobj) :=
  match rs with
  | [] => (pr, [])
  | r :: rs' => let '(pr1, o) := serve ct r pr in let '(pr2, os) := serve_all ct rs' pr1 in (pr2, o :: os)
  end.
