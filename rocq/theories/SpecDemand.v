(** Vocabulary for statements about libraries that are loaded on demand. *)
From stdpp Require Import prelude strings gmap.
From Verif Require Import ItemClass Outcome SerialModel SpecSerial RegistryModel.

(** The class a macro exports. *)
Definition exports (r : registration) : string :=
  match r with RegItem dt _ => item_name dt | RegPlugin1 cn | RegPlugin2 cn _ _ => cn end.

(** The process can read the class: it has the handle, or the library of the class can be loaded and has it. *)
Definition reads (ix : index) (q : list nat) (c : string) : Prop :=
  (exists l r, l ∈ q /\ r ∈ ix_regs ix l /\ exports r = c) \/
  (exists l r, c ∈ ix_classes ix /\ ix_lib ix c = Some l /\ ix_loads ix l = true /\ r ∈ ix_regs ix l /\ exports r = c).

(** A library registers the type under the class name. *)
Definition names (ix : index) (T : iclass) (c : string) : Prop :=
  exists l r, r ∈ ix_regs ix l /\ match r with RegItem _ T' | RegPlugin2 _ _ T' => T' = T | RegPlugin1 _ => False end /\ exports r = c.

(** No type is registered under two names. *)
Definition one_name (ix : index) : Prop := forall T c c', names ix T c -> names ix T c' -> c = c'.

(** An installed library that can be loaded has ENVIRE_REGISTER_ITEM for the type. *)
Definition installed (ix : index) (dt : string) (T : iclass) : Prop :=
  exists l, item_name dt ∈ ix_classes ix /\ ix_lib ix (item_name dt) = Some l /\ ix_loads ix l = true /\ RegItem dt T ∈ ix_regs ix l.
