(** Model of class Transform (/repo/src/items/Transform.hpp) and of class TransformGraph
    (/repo/src/graph/TransformGraph.hpp).  Executable definitions only. *)
From stdpp Require Import prelude strings gmap.
From Verif Require Import Outcome Digraph Bfs TreeView GraphModel.

(* envire::core::Transform: a time stamp in microseconds (base::Time, null time is 0) and a
   base::TransformWithCovariance, which is an abstract type [T] here.
   /repo/src/items/Transform.hpp:43-47. *)
Record tf (T : Type) := Tf { tf_time : Z; tf_tr : T }.
Global Arguments Tf {_} _ _.
Global Arguments tf_time {_} _.
Global Arguments tf_tr {_} _.

Section transform.
(* base::TransformWithCovariance: identity, composition and inverse.  Floating point arithmetic and
   covariances are not modelled; the laws used are hypotheses of the theorems.
   /repo/src/items/Transform.hpp:47, 97, 102. *)
Context {T : Type} (one : T) (mul : T -> T -> T) (inv : T -> T).

(* Transform(const base::TransformWithCovariance& ) and Transform(position, orientation): the time is the
   null time.  /repo/src/items/Transform.hpp:53-57. *)
Definition tf_of (x : T) : tf T := Tf 0 x.

(* Transform::operator*, /repo/src/items/Transform.hpp:86-98. *)
Definition tf_mul (x y : tf T) : tf T :=
  Tf (if Z.ltb (tf_time y) (tf_time x) then tf_time x else tf_time y) (mul (tf_tr x) (tf_tr y)).

(* Transform::inverse, /repo/src/items/Transform.hpp:100-103. *)
Definition tf_inverse (x : tf T) : tf T := Tf (tf_time x) (inv (tf_tr x)).

Context {D : Type}.
Implicit Types s : gst D (tf T).

(* The loop over visit.tree: trans = trans * (edge it -> it+1).transform; a missing edge would dereference
   a singular descriptor (UB).  /repo/src/graph/TransformGraph.hpp:121-126. *)
Fixpoint compose_along s (acc : T) (l : list vid) : outcome T :=
  match l with
  | a :: l' =>
      match l' with
      | b :: _ =>
          obind (find_edge s a b) (fun e =>
            match e with
            | Some e => compose_along s (mul acc (tf_tr (e_prop e))) l'
            | None => UB
            end)
      | [] => Ret acc
      end
  | [] => Ret acc
  end.

(* throw UnknownTransformException(getFrameId(origin), getFrameId(target)); the order of evaluation of the
   arguments is unspecified, modelled origin first.  /repo/src/graph/TransformGraph.hpp:100, 130. *)
Definition throw_unknown_transform s (o t : vid) : outcome (tf T) :=
  obind (get_frame_id s o) (fun fo => obind (get_frame_id s t) (fun ft => Throw (XUnknownTransform fo ft))).

(* TransformGraph::getTransform(vertex, vertex), /repo/src/graph/TransformGraph.hpp:94-134. *)
Definition get_transform_v s (o t : vid) : outcome (tf T) :=
  if Nat.eqb (num_edges s) 0 then throw_unknown_transform s o t
  else
    obind (find_edge s o t) (fun e =>
      match e with
      | Some e => Ret (e_prop e)
      | None =>
          obind (bfs_find (gs_dg s) o t) (fun r =>
            match r with
            | Some l => obind (compose_along s one l) (fun x => Ret (tf_of x))
            | None => throw_unknown_transform s o t
            end)
      end).

(* TransformGraph::getTransform(name, name), /repo/src/graph/TransformGraph.hpp:137-145. *)
Definition get_transform s (o t : frameid) : outcome (tf T) :=
  obind (get_vertex s o) (fun vo =>
  obind (get_vertex s t) (fun vt => get_transform_v s vo vt)).

(* The loop from a vertex to the root of a view: edges that are not in the graph are skipped.
   [fuel] bounds the loop; running out of it stands for a loop that does not end.
   /repo/src/graph/TransformGraph.hpp:163-171, 177-186. *)
Fixpoint to_root (fuel : nat) s (w : tview) (v : vid) (acc : T) : outcome T :=
  if tv_is_root w v then Ret acc
  else match fuel with
       | O => Fuel
       | S n =>
           obind (tv_get_parent w v) (fun p =>
           obind (find_edge s v p) (fun e =>
             to_root n s w p (match e with Some e => mul acc (tf_tr (e_prop e)) | None => acc end)))
       end.

(* TransformGraph::getTransform(vertex, vertex, view), /repo/src/graph/TransformGraph.hpp:148-189. *)
Definition get_transform_view_v s (o t : vid) (w : tview) : outcome (tf T) :=
  if Nat.eqb o t then Ret (tf_of one)
  else
    obind (to_root (S (size (tv_tree w))) s w o one) (fun x =>
    obind (to_root (S (size (tv_tree w))) s w t one) (fun y =>
      Ret (tf_of (mul x (inv y))))).

(* TransformGraph::getTransform(name, name, view), /repo/src/graph/TransformGraph.hpp:221-227. *)
Definition get_transform_view s (o t : frameid) (w : tview) : outcome (tf T) :=
  obind (get_vertex s o) (fun vo =>
  obind (get_vertex s t) (fun vt => get_transform_view_v s vo vt w)).

(* TransformGraph::getTransform(edge), /repo/src/graph/TransformGraph.hpp:229-233: it returns the member transform of
   the property, converted by the constructor of /repo/src/items/Transform.hpp:53; a destroyed descriptor is UB. *)
Definition get_transform_e s (e : eid) : outcome (tf T) :=
  match bg_erec (gs_dg s) e with Some r => Ret (tf_of (tf_tr (e_prop r))) | None => UB end.

(* TransformGraph::updateTransform(name, name), /repo/src/graph/TransformGraph.hpp:243-248. *)
Definition update_transform (o t : frameid) (x : tf T) : call (gst D (tf T)) unit :=
  set_edge_property tf_inverse o t x.
(* TransformGraph::updateTransform(edge), /repo/src/graph/TransformGraph.hpp:250-257; a destroyed descriptor is UB. *)
Definition update_transform_e (e : eid) (x : tf T) : call (gst D (tf T)) unit :=
  fun s => match bg_erec (gs_dg s) e with
           | Some r => set_edge_property_v tf_inverse (e_src r) (e_tgt r) x s
           | None => (s, [], UB)
           end.
(* TransformGraph::addTransform(name, name), /repo/src/graph/TransformGraph.hpp:266-272; [d0] is the default
   property of frames created by the call. *)
Definition add_transform (d0 : D) (o t : frameid) (x : tf T) : call (gst D (tf T)) unit :=
  add_edge d0 tf_inverse o t x.
(* TransformGraph::removeTransform(name, name), /repo/src/graph/TransformGraph.hpp:280-284. *)
Definition remove_transform (ord : viewid -> order) (o t : frameid) : call (gst D (tf T)) unit :=
  remove_edge ord o t.

End transform.
