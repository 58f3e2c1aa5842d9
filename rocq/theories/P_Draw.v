(** Properties of the dot output: C89. *)
From stdpp Require Import prelude strings gmap pretty.
From Verif Require Import Outcome ItemClass Digraph Bfs TreeView GraphModel GraphOps SpecStore SpecObs GraphWf ItemsModel SpecItems
  ItemsThms DrawModel SpecDraw DrawThms SpecSketch SketchThms ExGraph ExTransform ExItems ExDraw.

(** ** C89: a drawn graph can be read back *)
(* [read_picture] is a reader of dot files and record labels.  Names of frames must be free of the characters with a meaning
   in record labels; the names of the item types may contain angle brackets.  [pretty]: decimal notation. *)
Theorem C89_drawing_read_back_partial {E} (einv : E -> E) (io : iorder) (tname : tyid -> string) (estr : E -> string) (s : est E) :
  ereachable einv s -> iorder_ok io ->
  (forall f, contains_frame (es_g s) f = true -> plain f = true) ->
  (forall f T, items_in s f T <> [] -> type_like (tname T) = true) ->
  (forall a b p, get_edge_property (es_g s) a b = Ret p -> quotable (estr p) = true) ->
  exists boxes arrows, read_picture (write_envire_graph io tname estr s) = Some (boxes, arrows) /\
    NoDup ((fun b => b.1.1) <$> boxes) /\
    (forall f c rows, (f, c, rows) ∈ boxes <-> contains_frame (es_g s) f = true /\
       exists n ts, get_total_item_count io s f = Ret n /\ c = pretty n /\ get_item_types io s f = Ret ts /\
         rows = (fun T => (tname T, pretty (length (items_in s f T)))) <$> ts) /\
    NoDup ((fun a => (a.1.1, a.1.2)) <$> arrows) /\
    (forall a b x, (a, b, x) ∈ arrows <-> exists p, get_edge_property (es_g s) a b = Ret p /\ x = estr p).
Proof. exact (drawing_read_back einv io tname estr s). Qed.
Print Assumptions C89_drawing_read_back_partial.

Example C89_case : let s := istate Z.opp iops1 in
  ereachable Z.opp s /\ iorder_ok xio /\ (forall f, contains_frame (es_g s) f = true -> plain f = true) /\
  (forall f T, items_in s f T <> [] -> type_like (xtname T) = true) /\
  (forall a b p, get_edge_property (es_g s) a b = Ret p -> quotable (xestr p) = true) /\
  read_picture (write_envire_graph xio xtname xestr s) = Some
    ([(fa, "4", [(xtname cA, "3"); (xtname cB, "1")]); (fb, "1", [(xtname cA, "1")]); (fc, "0", []); (fd, "0", [])],
     [(fa, fb, xestr 1); (fb, fa, xestr (-1)); (fb, fc, xestr 2); (fc, fb, xestr (-2))]).
Proof.
  cbv zeta. split; [apply iops1_reachable|]. split; [apply xio_ok|]. split.
  { apply names_plain; [apply iops1_reachable|by vm_compute]. }
  split; [intros; apply xtname_ok|]. split; [intros; apply xestr_ok|]. by vm_compute.
Qed.

(* The full claim, for any names of frames, is false: two different graphs have the same drawing. *)
Theorem C89_same_drawing_refuted : exists s1 s2 f, ereachable Z.opp s1 /\ ereachable Z.opp s2 /\
  contains_frame (es_g s1) f = true /\ contains_frame (es_g s2) f = false /\ get_total_item_count xio s1 f = Ret 2 /\
  write_envire_graph xio dtname xestr s1 = write_envire_graph xio dtname xestr s2.
Proof.
  exists (istate Z.opp dops1), (istate Z.opp (dops2 "a|2}| {A" cB)), fa. split; [apply dops1_reachable|].
  split; [apply istate_reachable; [ops_ok|by vm_compute]|]. by vm_compute.
Qed.
Print Assumptions C89_same_drawing_refuted.

(* Nor is the drawing of every graph a dot file: a quote in the name of a frame ends the label. *)
Theorem C89_quote_refuted : exists s, ereachable Z.opp s /\ contains_frame (es_g s) "a""b" = true /\
  read_dot (write_envire_graph xio dtname xestr s) = None.
Proof.
  exists (istate Z.opp (dops2 "a""b" cA)). split; [apply istate_reachable; [ops_ok|by vm_compute]|]. by vm_compute.
Qed.
Print Assumptions C89_quote_refuted.

(** The other graphs are drawn with one text per frame, toString of its property.  The frames can be told apart by the numbers
    of their nodes, [num]. *)
Theorem C89_sketch_read_back_partial {D E} (d0 : D) (einv : E -> E) (vstr : D -> string) (estr : E -> string) (s : gst D E) :
  reachable d0 einv s ->
  (forall f p, get_frame_property s f = Ret p -> plain (vstr p) = true) ->
  (forall a b p, get_edge_property s a b = Ret p -> quotable (estr p) = true) ->
  exists nodes links num, read_sketch (write_graph (fun v => vstr (v_data v)) estr s) = Some (nodes, links) /\
    NoDup nodes.*1 /\ NoDup links.*1 /\
    (forall f g, contains_frame s f = true -> contains_frame s g = true -> num f = num g -> f = g) /\
    (forall i x, (i, x) ∈ nodes <-> exists f p, get_frame_property s f = Ret p /\ i = num f /\ x = vstr p) /\
    (forall i j x, (i, j, x) ∈ links <-> exists a b p, get_edge_property s a b = Ret p /\ i = num a /\ j = num b /\ x = estr p).
Proof. exact (sketch_read_back einv vstr estr s d0). Qed.
Print Assumptions C89_sketch_read_back_partial.

Example C89_sketch_case :
  let s := xstate (ops1 ++ [ODisconnect fb; ORemoveFrame fb; OEmplaceFrame "e" 3; OAddEdge fa "e" 4%Z]) in
  reachable 0 Z.opp s /\
  read_sketch (write_graph (fun v : vrec nat => pretty (v_data v)) xestr s) = Some
    ([("0", "7"); ("2", "0"); ("3", "0"); ("4", "3")],
     [("0", "2", xestr (-9)); ("2", "0", xestr 9); ("3", "2", xestr 3); ("2", "3", xestr (-3)); ("0", "4", xestr 4); ("4", "0", xestr (-4))]).
Proof. cbv zeta. split; [apply xstate_reachable; [by repeat constructor|by vm_compute]|]. by vm_compute. Qed.
