(** Model of the registration of item classes: macros of /repo/src/plugin/Plugin.hpp, handles of /repo/src/serialization/Serialization.cpp, metadata of
    /repo/src/items/ItemMetadata.cpp, libraries of /repo/src/plugin/ClassLoader.cpp.  Executable definitions only. *)
From stdpp Require Import prelude strings gmap.
From Verif Require Import ItemClass Outcome MiscModel SerialModel.

(* The registering macros in a library; [T] is the type whose typeid is registered, /repo/src/plugin/Plugin.hpp:42-48
   (ENVIRE_REGISTER_ITEM, ENVIRE_REGISTER_METADATA), 86-88 (ENVIRE_REGISTER_PLUGIN1), 90-93 (ENVIRE_REGISTER_PLUGIN2). *)
Inductive registration :=
| RegItem (dt : string) (T : iclass)
| RegPlugin1 (cn : string)
| RegPlugin2 (cn dt : string) (T : iclass).

(* The text `envire::core::Item<_datatype>` of the macro, /repo/src/plugin/Plugin.hpp:42-45. *)
Definition item_name (dt : string) : string := String.append "envire::core::Item<" (String.append dt ">").

(* The class name a macro registers, /repo/src/plugin/Plugin.hpp:42-45, 86-93. *)
Definition reg_class (r : registration) : string :=
  match r with RegItem dt _ => item_name dt | RegPlugin1 cn => cn | RegPlugin2 cn _ _ => cn end.

(* The metadata a macro registers, /repo/src/plugin/Plugin.hpp:47-48, 93; ENVIRE_REGISTER_PLUGIN1 registers none, 86-88. *)
Definition reg_meta (r : registration) : option (iclass * metadata) :=
  match r with
  | RegItem dt T => Some (T, Metadata (item_name dt) dt)
  | RegPlugin1 _ => None
  | RegPlugin2 cn dt T => Some (T, Metadata cn dt)
  end.

(* The static maps of the process: getHandleMap, /repo/src/serialization/Serialization.cpp:98-102, and ItemMetadataMapping::mapping,
   /repo/src/items/ItemMetadata.hpp:68-69.  Simplification: all handles of the macro have the same body
   (/repo/src/serialization/SerializationRegistration.hpp:55-79), so only their names are kept. *)
Record registry := Registry { rg_handles : gset string; rg_meta : gmap iclass metadata }.

(* The static initialisers of one macro: SerializationRegistration (/repo/src/serialization/SerializationRegistration.hpp:102-111) with registerHandle
   (/repo/src/serialization/Serialization.cpp:104-108), MetadataInitializer (/repo/src/items/ItemMetadata.hpp:76-85) with addMapping
   (/repo/src/items/ItemMetadata.cpp:38-45). *)
Definition register (r : registration) (g : registry) : registry :=
  Registry ({[reg_class r]} ∪ rg_handles g)
           (match reg_meta r with Some (T, d) => add_mapping T d (rg_meta g) | None => rg_meta g end).

(* What is installed, known to the plugin manager: the classes derived from ItemBase (getAvailableClasses, hasClassOfType), the library
   of a class, the macros in a library, and whether it can be loaded.  External, used in /repo/src/plugin/ClassLoader.cpp:56-59, 85-105. *)
Record index := Index {
  ix_classes : list string;
  ix_lib : string -> option nat;
  ix_regs : nat -> list registration;
  ix_loads : nat -> bool }.

(* The static maps after the libraries [p] have been initialised, in this order.  /repo/src/serialization/Serialization.cpp:98-108,
   /repo/src/items/ItemMetadata.cpp:35-45. *)
Definition registry_of (ix : index) (p : list nat) : registry :=
  foldl (fun g r => register r g) (Registry ∅ ∅) (p ≫= ix_regs ix).

(* PluginLoader::loadLibrary, external, used in /repo/src/plugin/ClassLoader.cpp:88, 98: a library is initialised once. *)
Definition load_library (ix : index) (p : list nat) (c : string) : list nat * bool :=
  match ix_lib ix c with
  | Some l => if bool_decide (l ∈ p) then (p, true) else if ix_loads ix l then (p ++ [l], true) else (p, false)
  | None => (p, false)
  end.

(* What the serialisation calls, with the codecs of [e0]: Item::getClassName (/repo/src/items/Item.hpp:180-188), hasHandle
   (/repo/src/serialization/Serialization.cpp:110-114), loadAllPluginLibraries and loadPluginLibrary with plugin support
   (/repo/src/serialization/Serialization.cpp:128-150). *)
Definition with_registry {P0 O S A I} (ix : index) (e0 : env P0 O S A I) : env (list nat) O S A I :=
  {| SerialModel.class_name := fun p T => md_class <$> rg_meta (registry_of ix p) !! T;
     has_handle := fun p c => bool_decide (c ∈ rg_handles (registry_of ix p));
     load_all := fun p => (load_all_libraries (load_library ix) (ix_classes ix) p).1.1;
     load_lib := load_item_library (load_library ix) (fun _ c => bool_decide (c ∈ ix_classes ix));
     enc_size := enc_size e0; dec_size := dec_size e0; enc_header := enc_header e0; dec_header := dec_header e0;
     enc_item := enc_item e0; dec_item := dec_item e0 |}.
