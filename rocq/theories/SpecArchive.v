(** Vocabulary for statements about whole archives. *)
From stdpp Require Import prelude strings gmap.
From Verif Require Import ItemClass Outcome Digraph TreeView GraphModel SerialModel SpecSerial ArchiveModel.

(** Reading gives back the numbers up to [lim], names and edge properties that were written, whatever follows. *)
Record graph_round_trips {O S A E} (ge : genv O S A E) (sync : O -> S -> Prop) (lim : nat) : Prop := {
  gt_num : forall o s n o' w rest, n <= lim -> sync o s -> enc_num ge o n = (o', w) ->
    exists s', dec_num ge s (w ++ rest) = RGot n s' rest /\ sync o' s';
  gt_fid : forall o s f o' w rest, sync o s -> enc_fid ge o f = (o', w) ->
    exists s', dec_fid ge s (w ++ rest) = RGot f s' rest /\ sync o' s';
  gt_prop : forall o s x o' w rest, sync o s -> enc_prop ge o x = (o', w) ->
    exists s', dec_prop ge s (w ++ rest) = RGot x s' rest /\ sync o' s' }.

(** [m'] is what is left of the items [m]: whole lists; all whose type was registered before saving, none whose type was not
    registered after it. *)
Definition restored {P O S A I} (e : env P O S A I) (p p' : P) (m m' : gmap iclass (list I)) : Prop :=
  (forall T is, m' !! T = Some is -> m !! T = Some is /\ is <> [] /\ registered e p' T) /\
  (forall T is, m !! T = Some is -> is <> [] -> registered e p T -> m' !! T = Some is).

(** A frame's lists are visited once each, in some order. *)
Definition forder_ok {I} (io : forder (I := I)) : Prop := forall v m, io v m ≡ₚ map_to_list m.

(** The reader accepts what the writer puts in front, whatever follows. *)
Definition preamble_ok {O S A} (sync : O -> S -> Prop) (pre : O * list A) (dec_pre : list A -> option (S * list A)) : Prop :=
  forall rest, exists s, dec_pre (pre.2 ++ rest) = Some (s, rest) /\ sync pre.1 s.
