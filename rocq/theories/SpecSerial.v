(** Vocabulary for statements about saving and loading. *)
From stdpp Require Import prelude strings gmap.
From Verif Require Import ItemClass Outcome Digraph TreeView GraphModel SpecStore SerialModel.

Section serial.
Context {P O S A I : Type} (e : env P O S A I) (cls : I -> iclass).

(** Reading gives back what was written, whatever follows: sizes up to [lim], headers, and the items of every type with a
    handle.  [sync]: the reading archive remembers the same as the writing one did. *)
Record round_trips (sync : O -> S -> Prop) (lim : nat) : Prop := {
  rt_size : forall v n rest, n <= lim -> dec_size e v (enc_size e v n ++ rest) = Some (n, rest);
  rt_header : forall o s c o' w rest, sync o s -> enc_header e o c = (o', w) ->
    exists s', dec_header e s (w ++ rest) = RGot c s' rest /\ sync o' s';
  rt_item : forall o s c i o' w rest, sync o s -> enc_item e o c i = WGot o' w ->
    exists s', dec_item e s c (w ++ rest) = RGot i s' rest /\ sync o' s' }.

(** Whatever is known in process state [p] is known in [p']. *)
Definition grows (p p' : P) : Prop :=
  (forall T c, class_name e p T = Some c -> class_name e p' T = Some c) /\
  (forall c, has_handle e p c = true -> has_handle e p' c = true).

(** Loading libraries never takes anything away. *)
Definition libraries_add : Prop :=
  (forall p, grows p (load_all e p)) /\ (forall p c, grows p (fst (load_lib e p c))).

(** The type has a class name and a handle. *)
Definition registered (p : P) (T : iclass) : Prop :=
  exists c, class_name e p T = Some c /\ has_handle e p c = true.

(** Handles never fail. *)
Definition handles_work : Prop := forall o c i, exists o' w, enc_item e o c i = WGot o' w.

(** Items are in the list of their type. *)
Definition typed (m : gmap iclass (list I)) : Prop := forall T is i, m !! T = Some is -> i ∈ is -> type_index (cls i) = T.

(** At most [lim] lists of at most [lim] items. *)
Definition fits (lim : nat) (m : gmap iclass (list I)) : Prop := size m <= lim /\ forall T is, m !! T = Some is -> length is <= lim.
End serial.

(** The store with all frame contents changed by [ld]. *)
Definition store_map {D E} (ld : D -> D) (st : store D E) : store D E := Store (ld <$> st_frames st) (st_edges st).
