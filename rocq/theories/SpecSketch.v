(** Reading the drawings of graphs whose frames are drawn as one text each.  Independent of how they are written; uses the reader of
    dot files and record labels of SpecDraw.  No proofs in this file. *)
From stdpp Require Import prelude strings.
From Verif Require Import SpecDraw.

(** {{text}} *)
Definition read_note (s : string) : option string :=
  l ← read_record s; match l with [RBox [RBox [RText n]]] => Some n | _ => None end.

(** The nodes with their texts. *)
Fixpoint read_notes (l : list statement) : option (list (string * string)) :=
  match l with
  | [] => Some []
  | SNode id a :: l' => x ← attr "label" a; n ← read_note x; ns ← read_notes l'; Some ((id, n) :: ns)
  | _ :: l' => read_notes l'
  end.

(** The arrows between nodes with their texts. *)
Fixpoint read_links (l : list statement) : option (list (string * string * string)) :=
  match l with
  | [] => Some []
  | SEdge id1 id2 a :: l' => x ← attr "label" a; r ← read_links l'; Some ((id1, id2, x) :: r)
  | _ :: l' => read_links l'
  end.

Definition read_sketch (s : string) : option (list (string * string) * list (string * string * string)) :=
  l ← read_dot s; ns ← read_notes l; ls ← read_links l; Some (ns, ls).
