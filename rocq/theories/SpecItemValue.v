(** Vocabulary for statements about item objects that are copied, moved and assigned. *)
From stdpp Require Import prelude strings gmap.
From Verif Require Import Outcome ItemClass Digraph TreeView GraphModel GraphOps ItemsModel SpecItems MiscModel ItemValueModel.

Section spec.
Context {E : Type}.
Implicit Types s : vst E.

(** What an item says of itself: time, uuid, frame and data. *)
Definition says s (i : iptr) : option (nat * nat * frameid * nat) :=
  match object s i with Ret (x, v) => Some (vl_time v, vl_uuid v, it_frame x, vl_data v) | _ => None end.
(** Its class. *)
Definition class_of s (i : iptr) : option iclass := match object s i with Ret (x, _) => Some (it_class x) | _ => None end.
(** The callbacks connected to it, in order. *)
Definition hears s (i : iptr) : option (list nat) := match object s i with Ret (_, v) => Some ((sg_slots (vl_signal v)).*2) | _ => None end.
(** Nothing has changed about it. *)
Definition same_object s s' (i : iptr) : Prop := says s' i = says s i /\ class_of s' i = class_of s i /\ hears s' i = hears s i.
(** Nothing has changed in the graph: frames, edges, views, subscribers and which items are in which frames. *)
Definition same_contents s s' : Prop := es_g (vs_est s') = es_g (vs_est s).

(** What a move leaves of the source: objects of class Item keep time and uuid, their frame name and data are what moving from a string and
    from the data leaves; objects of derived classes, which are copied, keep everything. *)
Definition left_behind (mf : frameid -> frameid) (md : nat -> nat) s s' (p : iptr) : Prop :=
  class_of s' p = class_of s p /\ hears s' p = hears s p /\
  match class_of s p with
  | Some (CItem _) => exists t u f d, says s p = Some (t, u, f, d) /\ says s' p = Some (t, u, mf f, md d)
  | _ => says s' p = says s p
  end.
(** The item is in no frame. *)
Definition nowhere s (i : iptr) : Prop := forall f, ~ stored (vs_est s) f i.

(** Calls a user may make. *)
Definition vop_ok (op : vop E) : Prop := match op with VCall _ io op => iorder_ok io /\ eop_ok op | _ => True end.

(** The program neither assigns to nor moves from items that are in a frame (and treats the graph as C45 asks for). *)
Definition vcareful s (op : vop E) : Prop :=
  match op with
  | VCall _ _ op => careful (vs_est s) op
  | VMove p _ => nowhere s p
  | VAssign _ q => nowhere s q
  | VMoveAssign p q => nowhere s p /\ nowhere s q
  | _ => True
  end.
Fixpoint vall_careful (einv : E -> E) mf md (l : list (vop E)) s : Prop :=
  match l with
  | [] => True
  | op :: l' => vcareful s op /\ vall_careful einv mf md l' (vstep einv mf md op s).1.1
  end.
End spec.
