(** Lemmas about the dot output and its reader. *)
From Coq Require Import Ascii.
From stdpp Require Import prelude strings gmap pretty.
From Verif Require Import ListLib Outcome ItemClass Digraph Bfs TreeView GraphModel GraphWf GraphStep GraphRefine ItemsModel SpecItems ItemsOps ItemsCopy ItemsThms MiscModel SpecMisc MiscThms
  DrawModel SpecDraw.

Local Arguments String.append !_ _ / : simpl nomatch.

(** *** Strings *)
Lemma app_empty (s : string) : s +:+ "" = s.
Proof. induction s as [|c s IH]; [done|]. cbn. by rewrite IH. Qed.
Lemma snoc_app s c t : snoc s c +:+ t = s +:+ String c t.
Proof. unfold snoc. induction s as [|d s IH]; [done|]. cbn. by rewrite IH. Qed.
Lemma app_assoc_s (s t u : string) : (s +:+ t) +:+ u = s +:+ (t +:+ u).
Proof. induction s as [|d s IH]; [done|]. cbn. by rewrite IH. Qed.

Lemma all_chars_app P s t : all_chars P (s +:+ t) = all_chars P s && all_chars P t.
Proof. induction s as [|c s IH]; [done|]. cbn. by rewrite IH, andb_assoc. Qed.
Lemma all_chars_impl P Q s : (forall c, P c = true -> Q c = true) -> all_chars P s = true -> all_chars Q s = true.
Proof.
  intros H. induction s as [|c s IH]; [done|]. cbn. rewrite !andb_true_iff. intros [? ?]. auto.
Qed.

Definition is_digit (c : ascii) : bool := in_range "0" "9" c.
Lemma pretty_N_go_digits x s : all_chars is_digit s = true -> all_chars is_digit (pretty_N_go x s) = true.
Proof.
  revert s. induction (N.lt_wf_0 x) as [x _ IH]; intros s Hs.
  destruct (decide (x = 0)%N) as [->|Hx]; [by rewrite pretty_N_go_0|].
  rewrite pretty_N_go_step by lia. apply IH; [apply N.div_lt; lia|]. cbn. rewrite Hs, andb_true_r.
  assert (Hm : (x `mod` 10 < 10)%N) by (apply N.mod_lt; lia).
  unfold pretty_N_char. repeat (match goal with |- context [match ?y with _ => _ end] => destruct y end); done.
Qed.
Lemma pretty_digits (n : nat) : all_chars is_digit (pretty n) = true.
Proof.
  unfold pretty, pretty_nat. unfold pretty, pretty_N. case_decide; [done|]. by apply pretty_N_go_digits.
Qed.
Lemma pretty_nonempty (n : nat) : pretty n <> "".
Proof.
  unfold pretty, pretty_nat. unfold pretty, pretty_N. case_decide as Hn; [done|].
  intros H. apply (f_equal String.length) in H. change (String.length "") with 0 in H.
  assert (Hl : forall x s, String.length s <= String.length (pretty_N_go x s)).
  { intros x. induction (N.lt_wf_0 x) as [x _ IH]; intros s. destruct (decide (x = 0)%N) as [->|Hx]; [by rewrite pretty_N_go_0|].
    rewrite pretty_N_go_step by lia. etrans; [|apply IH, N.div_lt; lia]. cbn [String.length]. lia. }
  rewrite pretty_N_go_step in H by lia. specialize (Hl (N.of_nat n `div` 10)%N (String (pretty_N_char (N.of_nat n `mod` 10)) "")).
  cbn [String.length] in Hl. lia.
Qed.

Lemma digit_cases c : is_digit c = true -> is_word c = true /\ is_special c = false /\ is_angle c = false /\ c <> " "%char.
Proof.
  destruct c as [[] [] [] [] [] [] [] []]; intros H; (discriminate H || (split; [reflexivity|]; split; [reflexivity|]; split; [reflexivity|discriminate])).
Qed.

(** *** Tokens *)
Lemma lex_app st a b : lex st (a +:+ b) = let '(st1, l1) := lex st a in let '(st2, l2) := lex st1 b in (st2, l1 ++ l2).
Proof.
  revert st. induction a as [|c a IH]; intros st; cbn.
  { by destruct (lex st b). }
  destruct (lex1 st c) as [st1 l1]. rewrite IH. destruct (lex st1 a) as [st2 l2]. destruct (lex st2 b) as [st3 l3].
  by rewrite app_assoc.
Qed.
Lemma lex_word u w : all_chars is_word w = true -> lex (LPlain u) w = (LPlain (u +:+ w), []).
Proof.
  revert u. induction w as [|c w IH]; intros u; cbn; [by rewrite app_empty|]. intros [Hc Hw]%andb_true_iff.
  rewrite Hc, IH by done. by rewrite snoc_app.
Qed.
Lemma lex_index (n : nat) : lex (LPlain "") (pretty n) = (LPlain (pretty n), []).
Proof.
  rewrite lex_word; [done|]. eapply all_chars_impl; [|apply pretty_digits]. intros c Hc. by apply digit_cases.
Qed.

Lemma last_cons c (s : string) : s <> "" -> String.get (String.length (String c s) - 1) (String c s) = String.get (String.length s - 1) s.
Proof. destruct s as [|d s]; [done|]. intros _. cbn. by rewrite Nat.sub_0_r. Qed.

Lemma lex_quoted q : quotable q = true -> forall text, lex (LQuote text) (q +:+ """") = (LPlain "", [TQuoted (text +:+ q)]).
Proof.
  intros [Hn Hl]%andb_true_iff. apply negb_true_iff, bool_decide_eq_false in Hl.
  assert (H : (forall text, lex (LQuote text) (q +:+ """") = (LPlain "", [TQuoted (text +:+ q)])) /\
              (q <> "" -> forall text, lex (LEscape text) (q +:+ """") = (LPlain "", [TQuoted (text +:+ String "\" q)]))); [|apply H].
  induction q as [|c q IH]; [split; [intros text; cbn; by rewrite app_empty|done]|].
  cbn in Hn. apply andb_true_iff in Hn as [Hc Hn]. apply negb_true_iff, bool_decide_eq_false in Hc.
  assert (Hl' : q <> "" -> String.get (String.length q - 1) q <> Some "\"%char) by (intros Hq; by rewrite last_cons in Hl).
  destruct (decide (q = "")) as [->|Hq].
  { split; intros; cbn; rewrite (bool_decide_false (c = _)) by done.
    - rewrite bool_decide_false; [done|]. intros ->. by apply Hl.
    - unfold snoc. by rewrite app_assoc_s. }
  destruct (IH Hn (Hl' Hq)) as [IH1 IH2]. split; intros.
  - cbn [String.append lex lex1]. rewrite (bool_decide_false (c = _)) by done. case_bool_decide as Hb.
    + subst c. rewrite (IH2 Hq). done.
    + rewrite IH1. by rewrite snoc_app.
  - cbn [String.append lex lex1]. rewrite (bool_decide_false (c = _)) by done. rewrite IH1. by rewrite !snoc_app.
Qed.

(** *** Records *)
Lemma record_app st a b : read_record_from st (a +:+ b) = read_record_from st a ≫= fun st' => read_record_from st' b.
Proof.
  revert st. induction a as [|c a IH]; intros st; [done|]. cbn. destruct (read_record1 st c); cbn; [apply IH|done].
Qed.

Lemma ends_snoc s c : ends_blank (snoc s c) = bool_decide (c = " "%char).
Proof.
  unfold ends_blank, snoc. assert (Hl : String.length (s +:+ String c "") = S (String.length s)).
  { induction s as [|d s IH]; [done|]. cbn. by rewrite IH. }
  rewrite Hl. assert (Hg : String.get (String.length s) (s +:+ String c "") = Some c); [|by rewrite Hg].
  clear Hl. induction s as [|d s IH]; [done|]. cbn. apply IH.
Qed.
Lemma snoc_nonempty s c : snoc s c <> "".
Proof. unfold snoc. by destruct s. Qed.

Definition after (s : string) : bool := bool_decide (s = "") || ends_blank s.
Lemma after_snoc s c : after (snoc s c) = bool_decide (c = " "%char).
Proof. unfold after. rewrite (bool_decide_false _ (snoc_nonempty s c)). apply ends_snoc. Qed.

Lemma record_cons st c s st' : read_record1 st c = Some st' -> read_record_from st (String c s) = read_record_from st' s.
Proof. intros H. cbn [read_record_from]. by rewrite H. Qed.

Lemma read_text t d s o : blanks_ok (after s) t = true -> all_chars (fun c => negb (is_special c)) t = true ->
  read_record_from (RState d (RText s) o false) (with_backslashes t) = Some (RState d (RText (s +:+ t)) o false) /\ after (s +:+ t) = false.
Proof.
  revert s. induction t as [|c t IH]; intros s Hb Ha.
  { cbn in *. rewrite app_empty. split; [done|]. by apply negb_true_iff in Hb. }
  cbn in Ha. apply andb_true_iff in Ha as [Hc Ha]. apply negb_true_iff in Hc. unfold is_special in Hc.
  repeat (apply orb_false_iff in Hc as [Hc ?]). repeat match goal with H : bool_decide _ = false |- _ => apply bool_decide_eq_false in H end.
  rewrite <- snoc_app.
  assert (Hb' : blanks_ok (after (snoc s c)) t = true).
  { rewrite after_snoc. cbn in Hb. case_bool_decide; [|done]. by apply andb_true_iff in Hb as [_ ?]. }
  assert (Hskip : bool_decide (c = " "%char) && (bool_decide (s = "") || ends_blank s) = false).
  { cbn in Hb. case_bool_decide as Hc'; [|done]. apply andb_true_iff in Hb as [Hb _]. by apply negb_true_iff in Hb. }
  destruct (IH (snoc s c) Hb' Ha) as [IH1 IH2]. split; [|done].
  cbn [with_backslashes]. destruct (decide (c = "<"%char \/ c = ">"%char)) as [Hang|Hang];
    [rewrite (bool_decide_true _ Hang)|rewrite (bool_decide_false _ Hang)].
  - erewrite record_cons by reflexivity. cbn [r_cur r_esc r_done r_outer]. erewrite record_cons by reflexivity. exact IH1.
  - erewrite record_cons; [exact IH1|]. unfold read_record1. cbn [r_cur r_esc r_done r_outer]. rewrite Hskip.
    rewrite !(bool_decide_false (c = _)) by (done || naive_solver). done.
Qed.

Lemma after_trim s : after s = false -> trim s = s.
Proof. unfold after, trim. intros [_ ->]%orb_false_iff. done. Qed.

(** A type name is read as it is. *)
Lemma read_type t d o : type_like t = true -> exists t',
  read_record_from (RState d (RText "") o false) (with_backslashes t) = Some (RState d (RText t') o false) /\ trim t' = t.
Proof.
  intros [Hb Ha]%andb_true_iff. unfold single_blanks in Hb. apply orb_true_iff in Hb as [He%bool_decide_eq_true|Hb].
  { subst t. exists "". done. }
  destruct (read_text t d "" o Hb Ha) as [H1 H2]. exists t. split; [exact H1|]. by apply after_trim.
Qed.
Lemma no_angle t : all_chars (fun c => negb (is_angle c)) t = true -> with_backslashes t = t.
Proof.
  induction t as [|c t IH]; [done|]. cbn. intros [Hc Ht]%andb_true_iff. apply negb_true_iff in Hc. unfold is_angle in Hc.
  apply orb_false_iff in Hc as [H1 H2]. apply bool_decide_eq_false in H1, H2. rewrite bool_decide_false by naive_solver. by rewrite IH.
Qed.
Lemma read_plain t d o : plain t = true -> exists t',
  read_record_from (RState d (RText "") o false) t = Some (RState d (RText t') o false) /\ trim t' = t.
Proof. intros [Ht Ha]%andb_true_iff. pose proof (read_type t d o Ht) as H. by rewrite (no_angle t Ha) in H. Qed.

Lemma plain_digits t : all_chars is_digit t = true -> plain t = true.
Proof.
  intros Ht. unfold plain, type_like. rewrite !andb_true_iff. split; [split|].
  - unfold single_blanks. destruct t as [|c t]; [done|]. cbn [bool_decide orb].
    assert (H : forall u b, all_chars is_digit u = true -> (u = "" -> b = false) -> blanks_ok b u = true).
    { intros u. induction u as [|c' u IH]; intros b Hu Hb; cbn; [by rewrite (Hb eq_refl)|].
      cbn in Hu. apply andb_true_iff in Hu as [Hc Hu]. destruct (digit_cases c' Hc) as (_ & _ & _ & Hc').
      rewrite bool_decide_false by done. by apply IH. }
    apply orb_true_iff. right. by apply H.
  - eapply all_chars_impl; [|exact Ht]. intros c Hc. by destruct (digit_cases c Hc) as (_ & -> & _).
  - eapply all_chars_impl; [|exact Ht]. intros c Hc. by destruct (digit_cases c Hc) as (_ & _ & -> & _).
Qed.
Lemma plain_pretty (n : nat) : plain (pretty n) = true.
Proof. apply plain_digits, pretty_digits. Qed.

(** *** The label of a frame *)
Definition row_text (x : string * string) : string := "| {" +:+ with_backslashes x.1 +:+ "|" +:+ x.2 +:+ "}".
Definition label_text (b : box) : string := "{{" +:+ b.1.1 +:+ "|" +:+ b.1.2 +:+ "}" +:+ texts (row_text <$> b.2) +:+ "}".
Definition row_box (x : string * string) : rlabel := RBox [RText x.1; RText x.2].


(** Two texts between braces. *)
Lemma read_pair t u d o rest : type_like t = true -> plain u = true ->
  read_record_from (RState [] (RText "") (d :: o) false) (with_backslashes t +:+ "|" +:+ u +:+ "}" +:+ rest) =
  read_record_from (RState d (row_box (t, u)) o false) rest.
Proof.
  intros Ht Hu. rewrite record_app. destruct (read_type t [] (d :: o) Ht) as (t' & -> & Ht'). cbn [mbind option_bind].
  change ("|" +:+ ?x) with (String "|" x). erewrite record_cons by reflexivity. cbn [r_done r_outer app].
  rewrite record_app. destruct (read_plain u [field (RText t')] (d :: o) Hu) as (u' & -> & Hu'). cbn [mbind option_bind].
  change ("}" +:+ ?x) with (String "}" x). erewrite record_cons by reflexivity. cbn [r_done r_outer app field].
  by rewrite Ht', Hu'.
Qed.

Lemma read_rows rows d l o rest : Forall (fun x => type_like x.1 = true /\ plain x.2 = true) rows -> exists d' l',
  d' ++ [RBox l'] = (d ++ [RBox l]) ++ (row_box <$> rows) /\
  read_record_from (RState d (RBox l) o false) (texts (row_text <$> rows) +:+ rest) = read_record_from (RState d' (RBox l') o false) rest.
Proof.
  revert d l. induction rows as [|[t u] rows IH]; intros d l Hrows.
  { exists d, l. split; [by rewrite app_nil_r|done]. }
  apply Forall_cons in Hrows as [[Ht Hu] Hrows]. cbn [fst snd] in Ht, Hu.
  destruct (IH (d ++ [RBox l]) [RText t; RText u] Hrows) as (d' & l' & H1 & H2). exists d', l'. split.
  { rewrite H1. cbn. by rewrite <- !app_assoc. }
  cbn [fmap list_fmap texts]. unfold row_text at 1. cbn [fst snd].
  rewrite !app_assoc_s. change ("| {" +:+ ?x) with (String "|" (String " " (String "{" x))).
  do 3 (erewrite record_cons by reflexivity). cbn [r_done r_outer r_cur r_esc]. rewrite read_pair by done. exact H2.
Qed.

Lemma read_box_label (b : box) :
  plain b.1.1 = true -> plain b.1.2 = true -> Forall (fun x => type_like x.1 = true /\ plain x.2 = true) b.2 ->
  read_box (label_text b) = Some b.
Proof.
  destruct b as [[n c] rows]. cbn [fst snd]. intros Hn Hc Hrows. unfold read_box, read_record, label_text. cbn [fst snd].
  change ("{{" +:+ ?x) with (String "{" (String "{" x)). do 2 (erewrite record_cons by reflexivity). cbn [r_done r_outer r_cur r_esc].
  assert (Hn' : with_backslashes n = n /\ type_like n = true).
  { apply andb_true_iff in Hn as [H1 H2]. split; [by apply no_angle|done]. }
  rewrite <- (proj1 Hn') at 1. rewrite read_pair by tauto.
  destruct (read_rows rows [] [RText n; RText c] [[]] "}" Hrows) as (d' & l' & H1 & H2). unfold row_box at 1. cbn [fst snd].
  rewrite H2. erewrite record_cons by reflexivity. cbn. rewrite H1. cbn.
  assert (Hm : mapM read_row (row_box <$> rows) = Some rows).
  { clear. induction rows as [|[t u] rows IH]; [done|]. cbn. cbn in IH. by rewrite IH. }
  by rewrite Hm.
Qed.

Lemma quotable_brace s : all_chars (fun c => negb (bool_decide (c = """"%char))) s = true -> quotable (s +:+ "}") = true.
Proof.
  intros H. unfold quotable. rewrite all_chars_app, H. cbn [andb all_chars].
  assert (Hl : String.get (String.length (s +:+ "}") - 1) (s +:+ "}") = Some "}"%char); [|by rewrite Hl].
  clear H. induction s as [|c s IH]; [done|]. change (String c s +:+ "}") with (String c (s +:+ "}")). rewrite last_cons; [exact IH|by destruct s].
Qed.
Lemma type_like_quotes t : type_like t = true -> all_chars (fun c => negb (bool_decide (c = """"%char))) (with_backslashes t) = true.
Proof.
  intros [_ H]%andb_true_iff. induction t as [|c t IH]; [done|]. cbn in H. apply andb_true_iff in H as [Hc H].
  apply negb_true_iff in Hc. unfold is_special in Hc. repeat (apply orb_false_iff in Hc as [Hc ?]).
  cbn [with_backslashes]. destruct (decide (c = "<"%char \/ c = ">"%char)) as [Hang|Hang];
    [rewrite (bool_decide_true _ Hang)|rewrite (bool_decide_false _ Hang)]; cbn [all_chars]; rewrite Hc, IH by done; done.
Qed.
Lemma plain_quotes t : plain t = true -> all_chars (fun c => negb (bool_decide (c = """"%char))) t = true.
Proof. intros [H1 H2]%andb_true_iff. rewrite <- (no_angle t H2). by apply type_like_quotes. Qed.

Lemma label_quotable (b : box) :
  plain b.1.1 = true -> plain b.1.2 = true -> Forall (fun x => type_like x.1 = true /\ plain x.2 = true) b.2 ->
  quotable (label_text b) = true.
Proof.
  destruct b as [[n c] rows]. cbn [fst snd]. intros Hn Hc Hrows. unfold label_text. cbn [fst snd].
  assert (Hr : all_chars (fun c => negb (bool_decide (c = """"%char))) (texts (row_text <$> rows)) = true).
  { induction Hrows as [|[t u] rows [Ht Hu] _ IH]; [done|]. cbn [fmap list_fmap texts]. rewrite all_chars_app, IH, andb_true_r.
    unfold row_text. cbn [fst snd] in *. rewrite !all_chars_app, (plain_quotes u), (type_like_quotes t) by done. done. }
  rewrite <- !app_assoc_s. apply quotable_brace. rewrite !all_chars_app, (plain_quotes n), (plain_quotes c), Hr by done. done.
Qed.

(** *** Statements *)
Lemma lexes_app st a b st1 l1 st2 l2 : lex st a = (st1, l1) -> lex st1 b = (st2, l2) -> lex st (a +:+ b) = (st2, l1 ++ l2).
Proof. intros Ha Hb. by rewrite lex_app, Ha, Hb. Qed.

Definition node_tokens (i lab : string) : list token :=
  [TWord i; TSym "["; TWord "shape"; TSym "="; TWord "record"; TSym ","; TWord "label"; TSym "="; TQuoted lab; TSym ",";
   TWord "style"; TSym "="; TWord "filled"; TSym ","; TWord "fillcolor"; TSym "="; TWord "lightblue"; TSym "]"].
Definition edge_tokens (i j lab : string) : list token :=
  [TWord i; TSym "-"; TSym ">"; TWord j; TSym "["; TWord "label"; TSym "="; TQuoted lab; TSym ",";
   TWord "shape"; TSym "="; TWord "ellipse"; TSym ","; TWord "color"; TSym "="; TWord "red"; TSym ",";
   TWord "style"; TSym "="; TWord "filled"; TSym ","; TWord "fillcolor"; TSym "="; TWord "lightcoral"; TSym "]"].
Definition node_stmt (i lab : string) : statement :=
  SNode i [("shape", "record"); ("label", lab); ("style", "filled"); ("fillcolor", "lightblue")].
Definition edge_stmt (i j lab : string) : statement :=
  SEdge i j [("label", lab); ("shape", "ellipse"); ("color", "red"); ("style", "filled"); ("fillcolor", "lightcoral")].

Definition node_text (i lab : string) : string :=
  i +:+ "[shape=record, label=""" +:+ (lab +:+ """") +:+ ",style=filled,fillcolor=lightblue];" +:+ newline.
Definition arrow_text (i j lab : string) : string :=
  i +:+ "->" +:+ j +:+ " [label=""" +:+ (lab +:+ """") +:+ ",shape=ellipse,color=red,style=filled,fillcolor=lightcoral];" +:+ newline.

Lemma lex_node (n : nat) lab : quotable lab = true ->
  lex (LPlain "") (node_text (pretty n) lab) = (LPlain "", node_tokens (pretty n) lab ++ [TSym ";"]).
Proof.
  intros Hq. unfold node_text. rewrite (lexes_app _ _ _ (LPlain (pretty n)) [] (LPlain "") (node_tokens (pretty n) lab ++ [TSym ";"])); [done|apply lex_index|].
  set (w := pretty n). assert (Hw : w <> "") by apply pretty_nonempty. clearbody w. clear n.
  change (node_tokens w lab ++ [TSym ";"]) with (firstn 8 (node_tokens w lab) ++ ([TQuoted lab] ++ skipn 9 (node_tokens w lab ++ [TSym ";"]))).
  eapply (lexes_app _ _ _ (LQuote "")). { destruct w as [|c w]; [done|]. reflexivity. }
  eapply (lexes_app _ _ _ (LPlain "")). { by rewrite lex_quoted. }
  reflexivity.
Qed.
Lemma lex_arrow (n m : nat) lab : quotable lab = true ->
  lex (LPlain "") (arrow_text (pretty n) (pretty m) lab) = (LPlain "", edge_tokens (pretty n) (pretty m) lab ++ [TSym ";"]).
Proof.
  intros Hq. unfold arrow_text.
  rewrite (lexes_app _ _ _ (LPlain (pretty n)) [] (LPlain "") (edge_tokens (pretty n) (pretty m) lab ++ [TSym ";"])); [done|apply lex_index|].
  set (w := pretty n). assert (Hw : w <> "") by apply pretty_nonempty. clearbody w. clear n.
  pose proof (lex_index m) as Hm. set (u := pretty m) in *. assert (Hu : u <> "") by apply pretty_nonempty. clearbody u. clear m.
  change (edge_tokens w u lab ++ [TSym ";"]) with
    (firstn 3 (edge_tokens w u lab) ++ ([] ++ (firstn 4 (skipn 3 (edge_tokens w u lab)) ++ ([TQuoted lab] ++ skipn 8 (edge_tokens w u lab ++ [TSym ";"]))))).
  eapply (lexes_app _ _ _ (LPlain "")). { destruct w as [|c w]; [done|]. reflexivity. }
  eapply (lexes_app _ _ _ (LPlain u)). { exact Hm. }
  eapply (lexes_app _ _ _ (LQuote "")). { destruct u as [|c u]; [done|]. reflexivity. }
  eapply (lexes_app _ _ _ (LPlain "")). { by rewrite lex_quoted. }
  reflexivity.
Qed.

Lemma read_node (n : nat) lab : read_statement (node_tokens (pretty n) lab) = Some (node_stmt (pretty n) lab).
Proof.
  assert (Hn : pretty n <> "graph"). { intros H. pose proof (pretty_digits n) as Hd. by rewrite H in Hd. }
  unfold read_statement, node_tokens. change (sym "[" (TSym "[")) with true. cbn match.
  replace (bool_decide (pretty n = "graph")) with false by (symmetry; by apply bool_decide_eq_false). reflexivity.
Qed.
Lemma read_arrow i j lab : read_statement (edge_tokens i j lab) = Some (edge_stmt i j lab).
Proof. reflexivity. Qed.

Lemma read_body_stmt cur l r : Forall (fun t => t <> TSym ";" /\ t <> TSym "}") l ->
  read_body cur (l ++ TSym ";" :: r) = x ← read_statement (cur ++ l); xs ← read_body [] r; Some (x :: xs).
Proof.
  intros Hl. revert cur. induction Hl as [|t l [H1 H2] _ IH]; intros cur; cbn.
  { unfold sym. rewrite bool_decide_true by done. by rewrite app_nil_r. }
  unfold sym. rewrite !bool_decide_false by done. rewrite IH. by rewrite <- app_assoc.
Qed.

(** Statements one after the other. *)
Lemma lex_texts {A} (text : A -> string) (toks : A -> list token) l :
  Forall (fun x => lex (LPlain "") (text x) = (LPlain "", toks x ++ [TSym ";"])) l ->
  lex (LPlain "") (texts (text <$> l)) = (LPlain "", mjoin ((fun x => toks x ++ [TSym ";"]) <$> l)).
Proof. induction 1 as [|x l Hx _ IH]; [done|]. cbn [fmap list_fmap texts]. rewrite (lexes_app _ _ _ _ _ _ _ Hx IH). done. Qed.
Lemma read_stmts {A} (toks : A -> list token) (stmt : A -> statement) l r :
  Forall (fun x => read_statement (toks x) = Some (stmt x) /\ Forall (fun t => t <> TSym ";" /\ t <> TSym "}") (toks x)) l ->
  read_body [] (mjoin ((fun x => toks x ++ [TSym ";"]) <$> l) ++ r) = xs ← read_body [] r; Some ((stmt <$> l) ++ xs).
Proof.
  induction 1 as [|x l [H1 H2] _ IH]; [by cbn; destruct (read_body [] r)|].
  rewrite fmap_cons. change (mjoin (?a :: ?b)) with (a ++ mjoin b). rewrite <- !app_assoc. cbn [app]. rewrite read_body_stmt by done. cbn [app]. rewrite H1.
  cbn [mbind option_bind]. rewrite IH. by destruct (read_body [] r).
Qed.

Definition graph_stmt : statement :=
  SGraph [("size", "88,136"); ("ranksep", "3.0"); ("nodesep", "2.0"); ("fontname", "Helvetica"); ("fontsize", "8")].

Lemma read_graphviz {D E} (vtext : vrec D -> string) (etext : erec E -> string) (lab : vrec D -> string) (elab : erec E -> string) (g : digraph D E) :
  (forall v, vtext v = "[shape=record, label=""" +:+ (lab v +:+ """") +:+ ",style=filled,fillcolor=lightblue]") ->
  (forall e, etext e = "[label=""" +:+ (elab e +:+ """") +:+ ",shape=ellipse,color=red,style=filled,fillcolor=lightcoral]") ->
  (forall v, v ∈ dg_verts g -> quotable (lab v) = true) -> (forall e, e ∈ dg_edges g -> quotable (elab e) = true) ->
  read_dot (write_graphviz vtext etext g) = Some (graph_stmt :: ((fun v => node_stmt (pretty (v_index v)) (lab v)) <$> dg_verts g) ++
    ((fun e => edge_stmt (pretty (bg_index g (e_src e))) (pretty (bg_index g (e_tgt e))) (elab e)) <$> dg_edges g)).
Proof.
  intros Hv He Hqv Hqe.
  set (nt := fun v : vrec D => node_tokens (pretty (v_index v)) (lab v)).
  set (at_ := fun e : erec E => edge_tokens (pretty (bg_index g (e_src e))) (pretty (bg_index g (e_tgt e))) (elab e)).
  assert (Hlex : lex (LPlain "") (write_graphviz vtext etext g) = (LPlain "", [TWord "digraph"; TWord "G"; TSym "{"] ++
    ([TWord "graph"; TSym "["; TWord "size"; TSym "="; TQuoted "88,136"; TSym ","; TWord "ranksep"; TSym "="; TWord "3.0"; TSym ",";
      TWord "nodesep"; TSym "="; TWord "2.0"; TSym ","; TWord "fontname"; TSym "="; TQuoted "Helvetica"; TSym ",";
      TWord "fontsize"; TSym "="; TWord "8"; TSym "]"; TSym ";"] ++
     (mjoin ((fun v => nt v ++ [TSym ";"]) <$> dg_verts g) ++ (mjoin ((fun e => at_ e ++ [TSym ";"]) <$> dg_edges g) ++ [TSym "}"]))))).
  { unfold write_graphviz. rewrite <- app_assoc_s. eapply lexes_app; [reflexivity|]. eapply lexes_app; [reflexivity|].
    eapply lexes_app; [apply (lex_texts _ nt); apply list.Forall_forall; intros v Hin|].
    { unfold nt. rewrite Hv, !app_assoc_s. rewrite <- (lex_node (v_index v) (lab v)) by auto. unfold node_text. rewrite !app_assoc_s. done. }
    eapply lexes_app; [apply (lex_texts _ at_); apply list.Forall_forall; intros e Hin|reflexivity].
    unfold at_. rewrite He, !app_assoc_s. rewrite <- (lex_arrow (bg_index g (e_src e)) (bg_index g (e_tgt e)) (elab e)) by auto. unfold arrow_text. rewrite !app_assoc_s. done. }
  unfold read_dot, tokens. rewrite Hlex. cbn [flush mbind option_bind]. rewrite app_nil_r. cbn [app].
  change (bool_decide ("digraph" = "digraph") && sym "{" (TSym "{")) with true. cbn match.
  match goal with |- read_body [] (?a :: _) = _ => idtac end.
  match goal with |- read_body [] ?l = _ => change l with ([TWord "graph"; TSym "["; TWord "size"; TSym "="; TQuoted "88,136"; TSym ","; TWord "ranksep"; TSym "="; TWord "3.0"; TSym ",";
      TWord "nodesep"; TSym "="; TWord "2.0"; TSym ","; TWord "fontname"; TSym "="; TQuoted "Helvetica"; TSym ",";
      TWord "fontsize"; TSym "="; TWord "8"; TSym "]"] ++ TSym ";" :: 
     (mjoin ((fun v => nt v ++ [TSym ";"]) <$> dg_verts g) ++ (mjoin ((fun e => at_ e ++ [TSym ";"]) <$> dg_edges g) ++ [TSym "}"]))) end.
  rewrite read_body_stmt by (repeat constructor; done).
  rewrite (read_stmts nt (fun v => node_stmt (pretty (v_index v)) (lab v))).
  2:{ apply list.Forall_forall. intros v _. split; [apply read_node|]. repeat constructor; done. }
  rewrite (read_stmts at_ (fun e => edge_stmt (pretty (bg_index g (e_src e))) (pretty (bg_index g (e_tgt e))) (elab e))).
  2:{ apply list.Forall_forall. intros v _. split; [apply read_arrow|]. repeat constructor; done. }
  cbn [app]. change (read_body [] [TSym "}"]) with (Some ([] : list statement)). cbn [mbind option_bind]. rewrite app_nil_r. reflexivity.
Qed.

(** *** Pictures *)
Lemma find_unique {A} (P : A -> bool) (l : list A) x : x ∈ l -> P x = true -> (forall y, y ∈ l -> P y = true -> y = x) -> find P l = Some x.
Proof.
  intros Hx Hp Hu. destruct (find P l) as [y|] eqn:Hf.
  - apply find_some in Hf as [Hy Hpy]. f_equal. apply Hu; [by apply elem_of_list_In|done].
  - exfalso. apply elem_of_list_In in Hx. eapply find_none in Hf; [|exact Hx]. by rewrite Hf in Hp.
Qed.

Section boxes.
Context {D E : Type} (g : digraph D E) (einv : E -> E) (bx : vrec D -> box) (elab : erec E -> string).
Let bs := (fun v => (pretty (v_index v), bx v)) <$> dg_verts g.

Lemma boxes_read : (forall v, v ∈ dg_verts g -> read_box (label_text (bx v)) = Some (bx v)) ->
  read_boxes (graph_stmt :: ((fun v => node_stmt (pretty (v_index v)) (label_text (bx v))) <$> dg_verts g) ++
    ((fun e => edge_stmt (pretty (bg_index g (e_src e))) (pretty (bg_index g (e_tgt e))) (elab e)) <$> dg_edges g)) = Some bs.
Proof.
  intros Hb. cbn [read_boxes graph_stmt]. unfold bs. induction (dg_verts g) as [|v l IH].
  - cbn [fmap list_fmap app]. induction (dg_edges g) as [|e l IH]; [done|]. exact IH.
  - rewrite fmap_cons. cbn [app read_boxes node_stmt]. change (attr "label" _) with (Some (label_text (bx v))). cbn [mbind option_bind].
    rewrite (Hb v) by left. cbn [mbind option_bind]. rewrite IH by (intros w Hw; apply Hb; by right). done.
Qed.

Lemma box_name_read v : dg_wf einv g -> (forall v, (bx v).1.1 = v_name v) -> bg_alive g v = true ->
  box_name bs (pretty (bg_index g v)) = Some (bg_name g v).
Proof.
  intros Hwf Hname Ha. apply (bg_alive_vrec einv) in Ha as [r Hr]; [|done]. unfold bg_index, bg_name. rewrite Hr. cbn [fmap option_fmap option_map default].
  apply (bg_vrec_iff einv) in Hr as [Hr _]; [|done]. unfold box_name, bs.
  rewrite (find_unique _ _ (pretty (v_index r), bx r)).
  - cbn. by rewrite Hname.
  - apply elem_of_list_fmap. by exists r.
  - by apply bool_decide_eq_true.
  - intros y (r' & -> & Hr')%elem_of_list_fmap Heq%bool_decide_eq_true. cbn in Heq. apply (inj pretty) in Heq.
    assert (r' = r) as ->; [|done]. by apply (NoDup_fmap_inj v_index (dg_verts g)); [apply (wf_idx einv g Hwf)|..].
Qed.

Lemma arrows_read : dg_wf einv g -> (forall v, (bx v).1.1 = v_name v) ->
  read_arrows bs (graph_stmt :: ((fun v => node_stmt (pretty (v_index v)) (label_text (bx v))) <$> dg_verts g) ++
    ((fun e => edge_stmt (pretty (bg_index g (e_src e))) (pretty (bg_index g (e_tgt e))) (elab e)) <$> dg_edges g)) =
  Some ((fun e => (bg_name g (e_src e), bg_name g (e_tgt e), elab e)) <$> dg_edges g).
Proof.
  intros Hwf Hname. cbn [read_arrows graph_stmt].
  assert (H : forall le, (forall e, e ∈ le -> e ∈ dg_edges g) ->
    read_arrows bs ((fun e => edge_stmt (pretty (bg_index g (e_src e))) (pretty (bg_index g (e_tgt e))) (elab e)) <$> le) =
    Some ((fun e => (bg_name g (e_src e), bg_name g (e_tgt e), elab e)) <$> le)).
  { induction le as [|e le IH]; intros Hle; [done|]. assert (He : e ∈ dg_edges g) by (apply Hle; left).
    rewrite fmap_cons. cbn [read_arrows edge_stmt]. change (attr "label" _) with (Some (elab e)). cbn [mbind option_bind].
    rewrite !box_name_read by (done || by apply (wf_src_alive einv) || by apply (wf_tgt_alive einv)). cbn [mbind option_bind].
    rewrite IH by (intros e' He'; apply Hle; by right). done. }
  induction (dg_verts g) as [|v l IH] at 1; [|exact IH]. by apply H.
Qed.
End boxes.

Definition frame_box (io : iorder) (tname : tyid -> string) (v : vrec imap) : box :=
  (v_name v, pretty (foldl (fun c l => c + length l) 0 (lists_of io (v_id v) (v_data v))),
   (fun T => (tname T, pretty (length (default [] (v_data v !! T))))) <$> io (v_id v) (v_data v)).

Lemma frame_text_label io tname v :
  frame_text io tname v = "[shape=record, label=""" +:+ (label_text (frame_box io tname v) +:+ """") +:+ ",style=filled,fillcolor=lightblue]".
Proof.
  unfold frame_text, label_text, frame_box. cbn [fst snd]. rewrite !app_assoc_s.
  change ("[shape=record, label=""{{" +:+ ?x) with ("[shape=record, label=""" +:+ ("{{" +:+ x)).
  change ("}""" +:+ ?x) with ("}" +:+ ("""" +:+ x)). do 6 f_equal. f_equal. f_equal.
  rewrite <- !list_fmap_compose. apply list_fmap_ext. intros i T _. cbn. unfold row_text. cbn [fst snd]. by rewrite escape_spec.
Qed.
Lemma edge_text_label {E} (estr : E -> string) e :
  edge_text estr e = "[label=""" +:+ (estr (e_prop e) +:+ """") +:+ ",shape=ellipse,color=red,style=filled,fillcolor=lightcoral]".
Proof. unfold edge_text. by rewrite !app_assoc_s. Qed.

Section drawn.
Context {E : Type} (einv : E -> E) (io : iorder) (tname : tyid -> string) (estr : E -> string).
Local Notation dg s := (gs_dg (es_g s)).

Lemma drawn_picture (s : est E) : dg_wf einv (dg s) ->
  (forall f, contains_frame (es_g s) f = true -> plain f = true) -> (forall v T, v ∈ dg_verts (dg s) -> T ∈ io (v_id v) (v_data v) -> type_like (tname T) = true) ->
  (forall e, e ∈ dg_edges (dg s) -> quotable (estr (e_prop e)) = true) ->
  read_picture (write_envire_graph io tname estr s) = Some (frame_box io tname <$> dg_verts (dg s),
    (fun e => (bg_name (dg s) (e_src e), bg_name (dg s) (e_tgt e), estr (e_prop e))) <$> dg_edges (dg s)).
Proof.
  intros Hwf Hf Ht He.
  assert (Hok : forall v, v ∈ dg_verts (dg s) -> plain (frame_box io tname v).1.1 = true /\ plain (frame_box io tname v).1.2 = true /\
    Forall (fun x => type_like x.1 = true /\ plain x.2 = true) (frame_box io tname v).2).
  { intros v Hv. split; [|split]; cbn [frame_box fst snd].
    - apply Hf. rewrite (contains_frame_map einv) by done. apply bool_decide_eq_true. exists (v_id v). apply (wf_map einv _ Hwf). eauto.
    - apply plain_pretty.
    - apply list.Forall_forall. intros x (T & -> & HT)%elem_of_list_fmap. split; [by apply (Ht v)|apply plain_pretty]. }
  unfold read_picture, write_envire_graph.
  rewrite (read_graphviz _ _ (fun v => label_text (frame_box io tname v)) (fun e => estr (e_prop e)) (dg s)).
  - cbn [mbind option_bind]. rewrite boxes_read by (intros v Hv; destruct (Hok v Hv) as (? & ? & ?); by apply read_box_label).
    cbn [mbind option_bind]. rewrite (arrows_read (dg s) einv (frame_box io tname)) by done. cbn [mbind option_bind].
    rewrite <- list_fmap_compose. done.
  - apply frame_text_label.
  - apply edge_text_label.
  - intros v Hv. destruct (Hok v Hv) as (? & ? & ?). by apply label_quotable.
  - exact He.
Qed.

Lemma drawing_read_back (s : est E) : ereachable einv s -> iorder_ok io ->
  (forall f, contains_frame (es_g s) f = true -> plain f = true) -> (forall f T, items_in s f T <> [] -> type_like (tname T) = true) ->
  (forall a b p, get_edge_property (es_g s) a b = Ret p -> quotable (estr p) = true) ->
  exists boxes arrows, read_picture (write_envire_graph io tname estr s) = Some (boxes, arrows) /\
    NoDup ((fun b => b.1.1) <$> boxes) /\
    (forall f c rows, (f, c, rows) ∈ boxes <-> contains_frame (es_g s) f = true /\
       exists n ts, get_total_item_count io s f = Ret n /\ c = pretty n /\ get_item_types io s f = Ret ts /\
         rows = (fun T => (tname T, pretty (length (items_in s f T)))) <$> ts) /\
    NoDup ((fun a => (a.1.1, a.1.2)) <$> arrows) /\
    (forall a b x, (a, b, x) ∈ arrows <-> exists p, get_edge_property (es_g s) a b = Ret p /\ x = estr p).
Proof.
  intros Hs Hio Hf Ht He. assert (Hwf : dg_wf einv (dg s)) by by apply ereachable_wf.
  assert (Hmap : forall v, v ∈ dg_verts (dg s) -> dg_map (dg s) !! v_name v = Some (v_id v)).
  { intros v Hv. apply (wf_map einv _ Hwf). eauto. }
  assert (Hiof : forall v, v ∈ dg_verts (dg s) -> items_of (dg s) (v_name v) = v_data v).
  { intros v Hv. unfold items_of. rewrite (Hmap v Hv). by rewrite (proj2 (bg_vrec_iff einv (dg s) (v_id v) v Hwf)). }
  assert (Hedge : forall e, e ∈ dg_edges (dg s) ->
    get_edge_property (es_g s) (bg_name (dg s) (e_src e)) (bg_name (dg s) (e_tgt e)) = Ret (e_prop e)).
  { intros e Hin. rewrite (get_edge_property_eq einv) by done.
    destruct (wf_alive_map einv (dg s) (e_src e) Hwf (wf_src_alive einv _ _ Hwf Hin)) as (f1 & Hf1 & _).
    destruct (wf_alive_map einv (dg s) (e_tgt e) Hwf (wf_tgt_alive einv _ _ Hwf Hin)) as (f2 & Hf2 & _).
    rewrite (bg_name_map einv (dg s) f1 _ Hwf Hf1), (bg_name_map einv (dg s) f2 _ Hwf Hf2), Hf1, Hf2.
    by rewrite (proj2 (bg_edge_iff einv (dg s) (e_src e) (e_tgt e) e Hwf)). }
  eexists _, _. split.
  { apply drawn_picture; [done|done| |].
    - intros v T Hv HT. apply (Ht (v_name v) T). rewrite (items_in_eq einv), Hiof by done.
      apply iorder_elem in HT as [l Hl]; [|done]. rewrite Hl. cbn. apply (ereachable_inv einv) in Hs as [_ Hit].
      apply (Hit (v_name v) T l). by rewrite Hiof.
    - intros e Hin. eapply He. by apply Hedge. }
  split; [|split; [|split]].
  - rewrite <- list_fmap_compose. exact (wf_vname einv _ Hwf).
  - intros f c rows. rewrite elem_of_list_fmap.
    assert (Hrow : forall v, v ∈ dg_verts (dg s) -> frame_box io tname v =
      (v_name v, pretty (foldl (fun c l => c + length l) 0 (lists_of io (v_id v) (items_of (dg s) (v_name v)))),
       (fun T => (tname T, pretty (length (items_in s (v_name v) T)))) <$> io (v_id v) (items_of (dg s) (v_name v)))).
    { intros v Hv. unfold frame_box. rewrite Hiof by done. f_equal. apply list_fmap_ext. intros i T _.
      by rewrite (items_in_eq einv), Hiof. }
    assert (Hq : forall v, v ∈ dg_verts (dg s) ->
      get_total_item_count io s (v_name v) = Ret (foldl (fun c l => c + length l) 0 (lists_of io (v_id v) (items_of (dg s) (v_name v)))) /\
      get_item_types io s (v_name v) = Ret (io (v_id v) (items_of (dg s) (v_name v)))).
    { intros v Hv. unfold get_total_item_count, get_item_types. rewrite (get_vertex_some einv _ _ (v_id v)) by auto. cbn.
      by rewrite (items_at_some einv s (v_name v) (v_id v)) by auto. }
    split.
    + intros (v & Heq & Hv). rewrite Hrow in Heq by done. injection Heq as -> -> ->. split.
      { rewrite (contains_frame_map einv) by done. apply bool_decide_eq_true. rewrite Hmap by done. eauto. }
      destruct (Hq v Hv) as [H1 H2]. eauto 10.
    + intros [Hk (n & ts & Hn & -> & Hts & ->)]. rewrite (contains_frame_map einv) in Hk by done. apply bool_decide_eq_true in Hk as [u Hu].
      apply (wf_map einv _ Hwf) in Hu as (v & Hv & <- & <-). exists v. split; [|done]. rewrite Hrow by done.
      destruct (Hq v Hv) as [H1 H2]. rewrite H1 in Hn. rewrite H2 in Hts. injection Hn as <-. injection Hts as <-. done.
  - rewrite <- list_fmap_compose. cbn [compose fst snd].
    assert (Hnd : NoDup ((fun e => (e_src e, e_tgt e)) <$> dg_edges (dg s))) by apply (wf_pair einv _ Hwf).
    assert (Hn : forall u, bg_alive (dg s) u = true -> dg_map (dg s) !! bg_name (dg s) u = Some u).
    { intros u Hu. destruct (wf_alive_map einv (dg s) u Hwf Hu) as (f & Hfu & _). by rewrite (bg_name_map einv (dg s) f u Hwf Hfu). }
    eapply (NoDup_fmap_finer (fun e => (e_src e, e_tgt e))); [exact Hnd|]. intros x y Hx Hy Heq. cbn in Heq. injection Heq as H1 H2.
    pose proof (Hn _ (wf_src_alive einv _ _ Hwf Hx)) as X1. pose proof (Hn _ (wf_src_alive einv _ _ Hwf Hy)) as Y1.
    pose proof (Hn _ (wf_tgt_alive einv _ _ Hwf Hx)) as X2. pose proof (Hn _ (wf_tgt_alive einv _ _ Hwf Hy)) as Y2.
    rewrite H1 in X1. rewrite H2 in X2. congruence.
  - intros a b x. rewrite elem_of_list_fmap. split.
    + intros (e & Heq & Hin). injection Heq as -> -> ->. exists (e_prop e). split; [|done]. by apply Hedge.
    + intros (p & Hp & ->). rewrite (get_edge_property_eq einv) in Hp by done.
      destruct (dg_map (dg s) !! a) as [va|] eqn:Ha; [|done]. destruct (dg_map (dg s) !! b) as [vb|] eqn:Hb; [|done].
      destruct (bg_edge (dg s) va vb) as [e|] eqn:Hbe; [|done]. injection Hp as <-.
      apply (bg_edge_iff einv) in Hbe as (Hin & Hsrc & Htgt); [|done]. exists e. split; [|done].
      by rewrite Hsrc, Htgt, (bg_name_map einv _ a va Hwf Ha), (bg_name_map einv _ b vb Hwf Hb).
Qed.
End drawn.
