(** Specification of transform queries. *)
From stdpp Require Import prelude strings gmap.
From Verif Require Import Outcome Digraph TreeView GraphModel TransformModel SpecWalk SpecSearch.

(** The laws of a group. *)
Record group {T : Type} (one : T) (mul : T -> T -> T) (inv : T -> T) : Prop := {
  gr_assoc : forall x y z, mul x (mul y z) = mul (mul x y) z;
  gr_one_l : forall x, mul one x = x;
  gr_one_r : forall x, mul x one = x;
  gr_inv_l : forall x, mul (inv x) x = one;
  gr_inv_r : forall x, mul x (inv x) = one }.

(** Product, in order and starting from identity, of the values [f] gives to consecutive elements. *)
Definition product {A T : Type} (one : T) (mul : T -> T -> T) (f : A -> A -> T) (l : list A) : T :=
  foldl mul one (zip_with f l (tail l)).

Section spec.
Context {D T : Type} (one : T) (mul : T -> T -> T).
Implicit Types s : gst D (tf T).

(** The transform stored in the edge from [a] to [b], read with getEdgeProperty. *)
Definition edge_tf s (a b : frameid) : T :=
  match get_edge_property s a b with Ret p => tf_tr p | _ => one end.

(** The transform along a list of frames. *)
Definition route_tf s (l : list frameid) : T := product one mul (edge_tf s) l.

(** Going around any closed route gives identity. *)
Definition consistent s : Prop := forall a l, route (joined s) a a l -> route_tf s l = one.

(** The edges form no cycle: no frames in a row, three or more and all different, whose last is joined
    to the first. *)
Definition forest s : Prop :=
  forall a b l, route (joined s) a b l -> NoDup l -> 3 <= length l -> ~ joined s b a.

End spec.
