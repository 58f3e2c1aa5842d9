(** Vocabulary for statements about visitItems with visitors that use the graph. *)
From stdpp Require Import prelude strings gmap.
From Verif Require Import Outcome ItemClass Digraph TreeView GraphModel GraphOps GraphStep ItemsModel SpecItems VisitItemsModel.

Section spec.
Context {E : Type} (einv : E -> E).
Implicit Types s : est E.

(** The body makes only calls a user may make. *)
Inductive allowed : iscript E -> Prop :=
| AllowedEnd : allowed IEnd
| AllowedThrow x : allowed (IThrow x)
| AllowedCall ord io op k : iorder_ok io -> eop_ok op -> (forall s r, allowed (k s r)) -> allowed (ICall ord io op k).

(** Run from [s], the calls of the body are defined and [P] holds of each: the state before it, the call, the state after it. *)
Fixpoint each_call (P : est E -> eop E -> est E -> Prop) (sc : iscript E) s : Prop :=
  match sc with
  | IEnd | IThrow _ => True
  | ICall ord io op k =>
      let '(s1, _, r) := estep einv ord io op s in ok r /\ P s op s1 /\ each_call P (k s1 r) s1
  end.

(** Calls that cannot write the items of frame [f]. *)
Definition elsewhere (f : frameid) s (op : eop E) (_ : est E) : Prop :=
  match op with
  | EGraph (ORemoveFrame g) | EClearFrame g | EAddItemTo g _ | ERemoveItemIt g _ _ _ _ => g <> f
  | EAddItem i | ERemoveItem i => exists x, deref s i = Ret x /\ it_frame x <> f
  | EClear => False
  | _ => True
  end.

(** Calls that keep the frame, keep its items of type [T] as they are and bring no item of a new type into it. *)
Definition harmless (f : frameid) (T : tyid) s (_ : eop E) s' : Prop :=
  contains_frame (es_g s') f = true /\ items_in s' f T = items_in s f T /\ (forall T', items_in s f T' = [] -> items_in s' f T' = []).

(** The type of an item object. *)
Definition type_of s (i : iptr) (T : tyid) : Prop := exists x, deref s i = Ret x /\ it_type x = T.
End spec.
