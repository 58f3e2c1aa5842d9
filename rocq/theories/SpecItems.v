(** Vocabulary for statements about items in frames; everything is read with public const calls. *)
From stdpp Require Import prelude strings gmap gmultiset.
From Verif Require Import Outcome ItemClass Digraph TreeView GraphModel GraphOps ItemsModel SpecReplica.

(** An iteration order visits every key of a map once. *)
Definition iorder_ok (io : iorder) : Prop := forall v m, io v m ≡ₚ (map_to_list m).*1.

(** Number of occurrences in a list. *)
Definition occurrences (i : iptr) (l : list iptr) : nat := length (filter (.= i) l).

(** Kinds of events. *)
Definition is_added (ev : event) : Prop :=
  match ev with EvFrameAdded _ | EvEdgeAdded _ _ _ | EvItemAdded _ _ => True | _ => False end.
Definition is_removed (ev : event) : Prop :=
  match ev with EvFrameRemoved _ | EvEdgeRemoved _ _ | EvItemRemoved _ _ => True | _ => False end.
Definition is_edge_removed (ev : event) : Prop :=
  match ev with EvEdgeRemoved _ _ => True | _ => False end.

(** Number of events equal to [x]. *)
Definition times (x : event) (evs : list event) : nat := length (filter (.= x) evs).

(** Number of events about the undirected edge between [a] and [b]. *)
Definition about_edge (a b : frameid) (ev : event) : bool :=
  match ev with
  | EvEdgeAdded o t _ | EvEdgeRemoved o t | EvEdgeModified o t _ _ =>
      bool_decide ((o, t) = (a, b)) || bool_decide ((o, t) = (b, a))
  | _ => false
  end.
Definition times_edge (a b : frameid) (evs : list event) : nat := length (filter (about_edge a b) evs).

Section spec.
Context {E : Type}.
Implicit Types s : est E.

(** The items of type [T] in frame [f], in order. *)
Definition items_in s (f : frameid) (T : tyid) : list iptr :=
  match get_items s f T with Ret l => l | _ => [] end.

(** The items in frame [f] in the order of visitItems. *)
Definition all_items (io : iorder) s (f : frameid) : list iptr :=
  match visit_items io s f with Ret l => l | _ => [] end.

(** The item is in the frame. *)
Definition stored s (f : frameid) (i : iptr) : Prop := exists T, i ∈ items_in s f T.

(** The frame has an edge to some other frame. *)
Definition connected s (f : frameid) : Prop := exists g, contains_edge (es_g s) f g = Ret true.

(** Nothing but the content of frames differs: same frames with the same descriptors, same edges with the same
    descriptors and properties, same tree views. *)
Record same_graph s s' : Prop := SameGraph {
  sg_vertex : forall f, get_vertex (es_g s') f = get_vertex (es_g s) f;
  sg_edge : forall a b, get_edge (es_g s') a b = get_edge (es_g s) a b;
  sg_nv : num_vertices (es_g s') = num_vertices (es_g s);
  sg_ne : num_edges (es_g s') = num_edges (es_g s);
  sg_subs : gs_subs (es_g s') = gs_subs (es_g s);
  sg_views : gs_views (es_g s') = gs_views (es_g s) }.

(** Two graphs show the same frames and edges under the same names, with the same properties. *)
Record same_shape s c : Prop := SameShape {
  ss_frame : forall f, contains_frame (es_g c) f = contains_frame (es_g s) f;
  ss_edge : forall a b, contains_edge (es_g c) a b = contains_edge (es_g s) a b;
  ss_prop : forall a b, get_edge_property (es_g c) a b = get_edge_property (es_g s) a b;
  ss_nv : num_vertices (es_g c) = num_vertices (es_g s);
  ss_ne : num_edges (es_g c) = num_edges (es_g s) }.

(** The types a filter keeps; no filter keeps all. *)
Definition kept (fl : option (list tyid)) (inclusive : bool) (T : tyid) : Prop :=
  match fl with
  | None => True
  | Some l => if inclusive then T ∈ l else T ∉ l
  end.

(** Calls a user may make: no self edges, no frame is emplaced with items already in it. *)
Definition eop_ok (op : eop E) : Prop :=
  match op with
  | EGraph (OEmplaceFrame _ d) => d = ∅
  | EGraph (OSetFrameData _ _) => False
  | EGraph op => op_noself op
  | _ => True
  end.

Definition ehist_ok (h : list ((viewid -> order) * iorder * eop E)) : Prop :=
  Forall (fun c => iorder_ok c.1.2 /\ eop_ok c.2) h.

(** Programs with several graphs and the states they can be in, starting without graphs and items. *)
Definition wop_ok (op : wop E) : Prop := match op with WCall _ op => eop_ok op | _ => True end.
Definition whist_ok (h : list ((viewid -> order) * iorder * wop E)) : Prop :=
  Forall (fun c => iorder_ok c.1.2 /\ wop_ok c.2) h.
Definition wreachable (einv : E -> E) (w : world E) : Prop :=
  exists h, whist_ok h /\ wrun einv h (World ∅ ∅) = (w, Ret tt).

(** The graph a step of the program is about; for copies the new graph. *)
Definition acts_on (op : wop E) : nat := match op with WNew g | WCall g _ | WCopy _ g | WFilterCopy _ _ _ g => g end.

(** A graph of the program together with the item objects. *)
Definition in_world (w : world E) (g : nat) s : Prop := w_graphs w !! g = Some (es_g s) /\ es_heap s = w_heap w.

(** States a graph can be in, in a program that uses any number of graphs. *)
Definition ereachable (einv : E -> E) s : Prop := exists w g, wreachable einv w /\ in_world w g s.

(** The replica has exactly the frames, undirected edges and items (with multiplicity) of the graph. *)
Definition mirrors s (r : replica) : Prop :=
  (forall f, f ∈ r_frames r <-> contains_frame (es_g s) f = true) /\
  (forall a b, (a, b) ∈ r_edges r <-> contains_edge (es_g s) a b = Ret true) /\
  (forall io f i, iorder_ok io -> multiplicity (f, i) (r_items r) = occurrences i (all_items io s f)).

(** Calls whose events tell everything they do: all but the removal through an iterator where the caller passes
    item->getFrame() itself or where the item is the last one of a longer list. *)
Definition logged s (op : eop E) : Prop :=
  match op with
  | ERemoveItemIt f alias T _ k => alias = false /\ (S k < length (items_in s f T) \/ length (items_in s f T) = 1)
  | _ => True
  end.

(** Calls that respect the rule "an item is in at most one frame and only the graph changes its frame name". *)
Definition careful s (op : eop E) : Prop :=
  match op with
  | EAddItem i | EAddItemTo _ i | ESetFrame i _ => forall f, ~ stored s f i
  | _ => True
  end.

(** Every call of a history satisfies [C] in the state it is made in. *)
Fixpoint all_calls (einv : E -> E) (C : est E -> eop E -> Prop) (h : list ((viewid -> order) * iorder * eop E)) s : Prop :=
  match h with
  | [] => True
  | (ord, io, op) :: h' => C s op /\ all_calls einv C h' (estep einv ord io op s).1.1
  end.

End spec.
