(** Specification of dot files: a reader, written after the documentation of Graphviz (the DOT language, record labels).
    It knows nothing of the program that writes the file. *)
From Coq Require Import Ascii.
From stdpp Require Import prelude strings.

(** *** Tokens *)
(** A word, a quoted string, any other character. *)
Inductive token := TWord (w : string) | TQuoted (s : string) | TSym (c : ascii).

Local Open Scope char_scope.
Definition in_range (a b c : ascii) : bool :=
  Nat.leb (Ascii.nat_of_ascii a) (Ascii.nat_of_ascii c) && Nat.leb (Ascii.nat_of_ascii c) (Ascii.nat_of_ascii b).
Definition is_word (c : ascii) : bool :=
  in_range "a" "z" c || in_range "A" "Z" c || in_range "0" "9" c || bool_decide (c = "_") || bool_decide (c = ".").
Definition is_blank (c : ascii) : bool := bool_decide (c = " ") || Nat.leb (Ascii.nat_of_ascii c) 13.
Local Close Scope char_scope.

Definition snoc (s : string) (c : ascii) : string := s +:+ String c "".

(** Outside quotes, with the word read so far; inside quotes; inside quotes after a backslash. *)
Inductive lexer := LPlain (word : string) | LQuote (text : string) | LEscape (text : string).

Definition flush (word : string) : list token := match word with "" => [] | _ => [TWord word] end.

Definition lex1 (st : lexer) (c : ascii) : lexer * list token :=
  match st with
  | LPlain word =>
      if is_word c then (LPlain (snoc word c), [])
      else if bool_decide (c = """"%char) then (LQuote "", flush word)
      else if is_blank c then (LPlain "", flush word)
      else (LPlain "", flush word ++ [TSym c])
  | LQuote text =>
      if bool_decide (c = """"%char) then (LPlain "", [TQuoted text])
      else if bool_decide (c = "\"%char) then (LEscape text, [])
      else (LQuote (snoc text c), [])
  | LEscape text =>
      (* only the quote is escaped by a backslash; elsewhere the backslash stands for itself *)
      if bool_decide (c = """"%char) then (LQuote (snoc text c), [])
      else (LQuote (snoc (snoc text "\"%char) c), [])
  end.

Fixpoint lex (st : lexer) (s : string) : lexer * list token :=
  match s with
  | "" => (st, [])
  | String c s' => let '(st1, l1) := lex1 st c in let '(st2, l2) := lex st1 s' in (st2, l1 ++ l2)
  end.

Definition tokens (s : string) : option (list token) :=
  match lex (LPlain "") s with
  | (LPlain word, l) => Some (l ++ flush word)
  | _ => None
  end.

(** *** Statements *)
Definition attrs := list (string * string).
Inductive statement := SGraph (a : attrs) | SNode (id : string) (a : attrs) | SEdge (id1 id2 : string) (a : attrs).

Global Instance token_eq_dec : EqDecision token.
Proof. solve_decision. Defined.
Definition sym (c : ascii) (t : token) : bool := bool_decide (t = TSym c).
Definition value (t : token) : option string := match t with TWord v | TQuoted v => Some v | TSym _ => None end.

(** key = value, key = value, ..., key = value ] *)
Fixpoint read_attrs (l : list token) : option attrs :=
  match l with
  | TWord k :: eq :: t :: sep :: l' =>
      if negb (sym "=" eq) then None
      else
        v ← value t;
        if sym "]" sep then match l' with [] => Some [(k, v)] | _ => None end
        else if sym "," sep then a ← read_attrs l'; Some ((k, v) :: a)
        else None
  | _ => None
  end.

(** id [ attributes   or   id - > id [ attributes *)
Definition read_statement (l : list token) : option statement :=
  match l with
  | TWord id :: t1 :: l1 =>
      if sym "[" t1 then a ← read_attrs l1; Some (if bool_decide (id = "graph") then SGraph a else SNode id a)
      else
        match l1 with
        | t2 :: TWord id2 :: t3 :: l2 =>
            if sym "-" t1 && sym ">" t2 && sym "[" t3 then a ← read_attrs l2; Some (SEdge id id2 a) else None
        | _ => None
        end
  | _ => None
  end.

(** Statements, each ended by a semicolon, and the closing brace.  [cur]: the tokens of the current statement. *)
Fixpoint read_body (cur l : list token) : option (list statement) :=
  match l with
  | [] => None
  | t :: l' =>
      if sym ";" t then x ← read_statement cur; xs ← read_body [] l'; Some (x :: xs)
      else if sym "}" t then match cur, l' with [], [] => Some [] | _, _ => None end
      else read_body (cur ++ [t]) l'
  end.

Definition read_dot (s : string) : option (list statement) :=
  l ← tokens s;
  match l with
  | TWord k :: TWord _ :: t :: l' => if bool_decide (k = "digraph") && sym "{" t then read_body [] l' else None
  | _ => None
  end.

(** *** Record labels *)
(** Fields separated by bars; a field is a text or, in braces, again a list of fields. *)
Inductive rlabel := RText (s : string) | RBox (l : list rlabel).

(** Fields read at this level, the current field, the enclosing levels, was the last character a backslash. *)
Record rstate := RState { r_done : list rlabel; r_cur : rlabel; r_outer : list (list rlabel); r_esc : bool }.

Definition ends_blank (s : string) : bool :=
  match String.length s with
  | 0 => false
  | S n => match String.get n s with Some c => bool_decide (c = " "%char) | None => false end
  end.
(** One blank at the end of a text does not count. *)
Definition trim (s : string) : string := if ends_blank s then String.substring 0 (String.length s - 1) s else s.
Definition field (f : rlabel) : rlabel := match f with RText s => RText (trim s) | RBox l => RBox l end.

Definition read_record1 (st : rstate) (c : ascii) : option rstate :=
  match r_cur st with
  | RText s =>
      if r_esc st then Some (RState (r_done st) (RText (snoc s c)) (r_outer st) false)
      else if bool_decide (c = "\"%char) then Some (RState (r_done st) (RText s) (r_outer st) true)
      else if bool_decide (c = "{"%char) then
        if bool_decide (s = "") then Some (RState [] (RText "") (r_done st :: r_outer st) false) else None
      else if bool_decide (c = "|"%char) then Some (RState (r_done st ++ [field (RText s)]) (RText "") (r_outer st) false)
      else if bool_decide (c = "}"%char) then
        match r_outer st with
        | up :: outer => Some (RState up (RBox (r_done st ++ [field (RText s)])) outer false)
        | [] => None
        end
      else if bool_decide (c = "<"%char) || bool_decide (c = ">"%char) then None (* a port, not a text *)
      else if bool_decide (c = " "%char) && (bool_decide (s = "") || ends_blank s) then Some st
      else Some (RState (r_done st) (RText (snoc s c)) (r_outer st) false)
  | RBox l =>
      if bool_decide (c = "|"%char) then Some (RState (r_done st ++ [RBox l]) (RText "") (r_outer st) false)
      else if bool_decide (c = "}"%char) then
        match r_outer st with
        | up :: outer => Some (RState up (RBox (r_done st ++ [RBox l])) outer false)
        | [] => None
        end
      else if bool_decide (c = " "%char) then Some st
      else None
  end.

Fixpoint read_record_from (st : rstate) (s : string) : option rstate :=
  match s with
  | "" => Some st
  | String c s' => st' ← read_record1 st c; read_record_from st' s'
  end.

Definition read_record (s : string) : option (list rlabel) :=
  st ← read_record_from (RState [] (RText "") [] false) s;
  match r_outer st, r_esc st with
  | [], false => Some (r_done st ++ [field (r_cur st)])
  | _, _ => None
  end.

(** *** Pictures of graphs *)
(** A box: the two fields of its first row and the fields of the other rows. *)
Definition box : Type := string * string * list (string * string).

Definition read_row (l : rlabel) : option (string * string) :=
  match l with RBox [RText a; RText b] => Some (a, b) | _ => None end.

(** {{name|count}|{type|count}|...} *)
Definition read_box (s : string) : option box :=
  l ← read_record s;
  match l with
  | [RBox (RBox [RText n; RText c] :: rows)] => rs ← mapM read_row rows; Some (n, c, rs)
  | _ => None
  end.

Definition attr (k : string) (a : attrs) : option string := snd <$> find (fun x => bool_decide (x.1 = k)) a.

(** The boxes with the identifiers of their nodes. *)
Fixpoint read_boxes (l : list statement) : option (list (string * box)) :=
  match l with
  | [] => Some []
  | SNode id a :: l' => x ← attr "label" a; b ← read_box x; bs ← read_boxes l'; Some ((id, b) :: bs)
  | _ :: l' => read_boxes l'
  end.

(** The arrows, between boxes that are named by their first field. *)
Definition box_name (bs : list (string * box)) (id : string) : option string :=
  (fun x => x.2.1.1) <$> find (fun x => bool_decide (x.1 = id)) bs.
Fixpoint read_arrows (bs : list (string * box)) (l : list statement) : option (list (string * string * string)) :=
  match l with
  | [] => Some []
  | SEdge id1 id2 a :: l' =>
      x ← attr "label" a; n1 ← box_name bs id1; n2 ← box_name bs id2; r ← read_arrows bs l'; Some ((n1, n2, x) :: r)
  | _ :: l' => read_arrows bs l'
  end.

Definition read_picture (s : string) : option (list box * list (string * string * string)) :=
  l ← read_dot s; bs ← read_boxes l; r ← read_arrows bs l; Some (bs.*2, r).

(** *** Texts that need no escaping *)
Fixpoint all_chars (P : ascii -> bool) (s : string) : bool :=
  match s with "" => true | String c s' => P c && all_chars P s' end.

(** No blank at the beginning or the end and no two blanks in a row. *)
Fixpoint blanks_ok (after_blank : bool) (s : string) : bool :=
  match s with
  | "" => negb after_blank
  | String c s' => if bool_decide (c = " "%char) then negb after_blank && blanks_ok true s' else blanks_ok false s'
  end.
Definition single_blanks (s : string) : bool := bool_decide (s = "") || blanks_ok true s.

(** Characters with a meaning in record labels and quoted strings. *)
Definition is_special (c : ascii) : bool :=
  bool_decide (c = """"%char) || bool_decide (c = "\"%char) || bool_decide (c = "{"%char) || bool_decide (c = "}"%char) || bool_decide (c = "|"%char).
Definition is_angle (c : ascii) : bool := bool_decide (c = "<"%char) || bool_decide (c = ">"%char).

(** The name of a type may contain angle brackets, the name of a frame may not. *)
Definition type_like (s : string) : bool := single_blanks s && all_chars (fun c => negb (is_special c)) s.
Definition plain (s : string) : bool := type_like s && all_chars (fun c => negb (is_angle c)) s.
(** Text that can be put between quotes. *)
Definition quotable (s : string) : bool := all_chars (fun c => negb (bool_decide (c = """"%char))) s &&
  negb (bool_decide (String.get (String.length s - 1) s = Some "\"%char)).
