(** Vocabulary for statements about objects created by the name of their class. *)
From stdpp Require Import prelude strings gmap.
From Verif Require Import ItemClass Outcome SerialModel RegistryModel SpecDemand CreateModel.

(** The library has a macro that exports the class. *)
Definition has_class (ix : index) (l : nat) (c : string) : Prop := exists r, r ∈ ix_regs ix l /\ exports r = c.

(** An item of the class can be made by a process that has loaded the libraries [p]: the library of the class is known, it is loaded or
    can be loaded, and then some loaded library exports the class. *)
Definition creatable (ix : index) (p : list nat) (c : string) : Prop :=
  exists l, ix_lib ix c = Some l /\ (l ∈ p \/ ix_loads ix l = true) /\ exists l', (l' = l \/ l' ∈ p) /\ has_class ix l' c.

(** The process has only loaded the library of the class, if anything. *)
Definition only_loads (ix : index) (p p' : list nat) (c : string) : Prop :=
  p' = p \/ exists l, ix_lib ix c = Some l /\ ix_loads ix l = true /\ p' = p ++ [l].

(** The two requests gave the same object exactly if they gave objects of the same class, which is a singleton. *)
Definition shared_iff_singleton (ct : catalog) (a b : cobj) : Prop :=
  ob_id a = ob_id b <-> ob_class a = ob_class b /\ ct_singleton ct (ob_class a) = true.
