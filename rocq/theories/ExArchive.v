(** Concrete archives used by the examples beside the theorems. *)
From Coq.Init Require Import Byte.
From stdpp Require Import prelude strings gmap.
From Coq Require Import Ascii.
From Verif Require Import ItemClass Outcome Digraph TreeView GraphModel GraphOps SpecStore SpecObs BufferModel SpecBuffer SerialModel SpecSerial
  ExSerial ArchiveModel SpecArchive.

(** ** Bytes *)
(* Example client of /repo/src/serialization/Serialization.hpp:61-134 that writes bytes: a number is written as that many ones and a zero. *)
Definition yenc (n : nat) : list byte := replicate n x01 ++ [x00].
(* Same client: reading a number. *)
Fixpoint ydec (w : list byte) : option (nat * list byte) :=
  match w with
  | [] => None
  | x00 :: w' => Some (0, w')
  | _ :: w' => match ydec w' with Some (n, r) => Some (S n, r) | None => None end
  end.
(* Same client: a string is written as its characters, each after a one, and a zero. *)
Fixpoint yencs (c : string) : list byte :=
  match c with EmptyString => [x00] | String a c' => x01 :: byte_of_ascii a :: yencs c' end.
(* Same client: reading a string. *)
Fixpoint ydecs (w : list byte) : option (string * list byte) :=
  match w with
  | x00 :: w' => Some (EmptyString, w')
  | _ :: b :: w' => match ydecs w' with Some (c, r) => Some (String (ascii_of_byte b) c, r) | None => None end
  | _ => None
  end.
(* Same client: everything the code calls. *)
Definition yenv : env (list string) unit unit byte bitem :=
  {| class_name := fun _ => bname;
     has_handle := fun p c => bool_decide (c ∈ p);
     load_all := fun p => p;
     load_lib := fun p _ => (p, false);
     enc_size := fun _ => yenc;
     dec_size := fun _ => ydec;
     enc_header := fun o c => (o, yencs c);
     dec_header := fun s w => match ydecs w with Some (c, r) => RGot c s r | None => RAbort end;
     enc_item := fun o _ i => WGot o (yenc i.1 ++ yenc i.2);
     dec_item := fun s _ w => match ydec w with
       | Some (k, r) => match ydec r with Some (x, r') => RGot (k, x) s r' | None => RAbort end
       | None => RAbort end |}.

Lemma ydec_enc n rest : ydec (yenc n ++ rest) = Some (n, rest).
Proof. induction n as [|n IH]; [done|]. change (yenc (S n) ++ rest) with (x01 :: yenc n ++ rest). cbn [ydec]. by rewrite IH. Qed.
Lemma ydecs_encs c rest : ydecs (yencs c ++ rest) = Some (c, rest).
Proof. induction c as [|a c IH]; [done|]. cbn [yencs app ydecs]. by rewrite IH, ascii_of_byte_of_ascii. Qed.
Lemma yenv_round_trips lim : round_trips yenv (fun _ _ => True) lim.
Proof.
  split.
  - intros v n rest _. apply ydec_enc.
  - intros o s c o' w rest _ [= <- <-]. exists s. cbn. by rewrite ydecs_encs.
  - intros o s c [k x] o' w rest _ [= <- <-]. exists s. cbn. by rewrite <- app_assoc, !ydec_enc.
Qed.
Lemma yenv_libraries_add : libraries_add yenv.
Proof. done. Qed.
Lemma yenv_handles_work : handles_work yenv.
Proof. intros o c i. by eexists _, _. Qed.

(* Same client: the archive starts with two fixed bytes (boost: signature and version). *)
Definition ypre : unit * list byte := (tt, [x16; x17]).
(* Same client: the check of these bytes. *)
Definition ydec_pre (w : list byte) : option (unit * list byte) := match w with x16 :: x17 :: r => Some (tt, r) | _ => None end.
(* Same client: the first byte is written alone, the rest as a block. *)
Definition ychunk (bs : list byte) : list write := match bs with [] => [] | b :: bs' => [WByte b; WBlock bs'] end.
Lemma ypre_ok : preamble_ok (fun _ _ => True) ypre ydec_pre.
Proof. intros rest. by exists tt. Qed.
Lemma ychunk_ok bs : all_bytes (ychunk bs) = bs.
Proof. destruct bs as [|b bs]; [done|]. cbn. by rewrite app_nil_r. Qed.

(** ** Graphs *)
(* Example client of /repo/src/graph/EnvireGraph.cpp:313-332: edge properties are integers, written as a sign and a number. *)
Definition bgenv : genv unit unit nat Z :=
  {| enc_num := fun o n => (o, [n]);
     dec_num := fun s w => match w with n :: w' => RGot n s w' | [] => RAbort end;
     enc_fid := enc_header benv;
     dec_fid := dec_header benv;
     enc_prop := fun o x => (o, [if bool_decide (x < 0)%Z then 1 else 0; Z.abs_nat x]);
     dec_prop := fun s w => match w with
       | k :: n :: w' => RGot (if Nat.eqb k 1 then - Z.of_nat n else Z.of_nat n)%Z s w' | _ => RAbort end |}.
Lemma bgenv_round_trips lim : graph_round_trips bgenv (fun _ _ => True) lim.
Proof.
  split.
  - intros o s n o' w rest _ _ [= <- <-]. by exists s.
  - intros o s f o' w rest. apply (rt_header _ _ _ (benv_round_trips lim)).
  - intros o s x o' w rest _ [= <- <-]. exists s. split; [|done]. cbn [bgenv dec_prop app]. f_equal. case_bool_decide; cbn; lia.
Qed.
(* Same client: the archive starts with a 22. *)
Definition bpre : unit * list nat := (tt, [22]).
(* Same client: the check of it. *)
Definition bdec_pre (w : list nat) : option (unit * list nat) := match w with 22 :: r => Some (tt, r) | _ => None end.
Lemma bpre_ok : preamble_ok (fun _ _ => True) bpre bdec_pre.
Proof. intros rest. by exists tt. Qed.
(* Same client: the order of the item map. *)
Definition bio : forder (I := bitem) := fun _ m => map_to_list m.
Lemma bio_ok : forder_ok bio.
Proof. intros v m. reflexivity. Qed.

(* Same client: the items of a frame. *)
Definition gitems : gmap iclass (list bitem) := list_to_map bitems.
(* Same client: three frames and two edges. *)
Definition gops : list (gop (gmap iclass (list bitem)) Z) :=
  [OEmplaceFrame "a" gitems; OAddEdge "a" "b" 3%Z; OEmplaceFrame "c" (<[CItem 1 := [(1, 4)]]> ∅); OAddEdge "c" "b" (-2)%Z]%string.
(* Same client: running calls on a new graph. *)
Definition grun (ops : list (gop (gmap iclass (list bitem)) Z)) := run ∅ Z.opp ((fun op => (fun _ _ _ l => l, op)) <$> ops) gst0.
(* Same client: the state after them. *)
Definition gstate (ops : list (gop (gmap iclass (list bitem)) Z)) : gst (gmap iclass (list bitem)) Z := (grun ops).1.1.
Lemma gstate_reachable ops : Forall op_noself ops -> (grun ops).2 = Ret tt -> reachable ∅ Z.opp (gstate ops).
Proof.
  intros Hns Hr. unfold reachable, gstate. unfold grun in *.
  destruct (run ∅ Z.opp _ gst0) as [[s ev] r] eqn:H. cbn in *. subst r. eexists _, ev, (Ret tt). split; [|split; [exact H|by left]].
  unfold hist_noself. apply Forall_fmap. eapply list.Forall_impl; [exact Hns|]. done.
Qed.

(* Same client: two frames, the first with an item of class A, the second with one of class B. *)
Definition lops : list (gop (gmap iclass (list bitem)) Z) :=
  [OEmplaceFrame "a" {[CItem 0 := [(0, 0)]]}; OEmplaceFrame "b" {[CItem 1 := [(1, 7)]]}]%string.

(* A way to look at every frame of a state. *)
Lemma all_frames (s : gst (gmap iclass (list bitem)) Z) (Q : gmap iclass (list bitem) -> Prop) :
  Forall Q (v_data <$> dg_verts (gs_dg s)) -> forall f m, get_frame_property s f = Ret m -> Q m.
Proof.
  intros H f m. unfold get_frame_property. destruct (get_vertex s f) as [v| | |]; cbn; [|done..].
  destruct (bg_vrec (gs_dg s) v) as [r|] eqn:Hr; [|done]. intros [= <-]. unfold bg_vrec in Hr. apply find_some in Hr as [Hr%elem_of_list_In _].
  rewrite list.Forall_forall in H. apply H. by apply elem_of_list_fmap_1.
Qed.

Lemma frame_lost :
  exists (e : env (list string) unit unit nat bitem) (ge : genv unit unit nat Z) pre dec_pre io s0 p q w s',
    libraries_add e /\ (forall lim, round_trips e (fun _ _ => True) lim) /\ (forall lim, graph_round_trips ge (fun _ _ => True) lim) /\
    preamble_ok (fun _ _ => True) pre dec_pre /\ forder_ok io /\ reachable ∅ Z.opp s0 /\
    (forall f m, get_frame_property s0 f = Ret m -> typed bcls m) /\
    save_to_file e ge bcls pre true io p s0 = (p, w, Ret tt) /\ load_from_file e ge bcls dec_pre false true q w gst0 = (q, s', [], Ret tt) /\
    get_frame_property s0 "b" = Ret {[CItem 1 := [(1, 7)]]} /\ has_handle e q "B" = true /\ contains_frame s' "b" = false /\
    contains_frame s0 "" = false /\ contains_frame s' "" = true.
Proof.
  exists benv, bgenv, bpre, bdec_pre, bio, (gstate lops), ["A"; "B"]%string, ["B"]%string.
  exists [22; 2; 0; 1; 97; 1; 1; 1; 65; 0; 0; 1; 98; 1; 1; 1; 66; 1; 7].
  exists (load_from_file benv bgenv bcls bdec_pre false true ["B"%string]
    [22; 2; 0; 1; 97; 1; 1; 1; 65; 0; 0; 1; 98; 1; 1; 1; 66; 1; 7] gst0).1.1.2.
  split; [exact benv_libraries_add|]. split; [exact benv_round_trips|]. split; [exact bgenv_round_trips|].
  split; [exact bpre_ok|]. split; [exact bio_ok|]. split; [apply gstate_reachable; [by repeat constructor|by vm_compute]|].
  split.
  { apply all_frames. change (v_data <$> dg_verts (gs_dg (gstate lops))) with
      [{[CItem 0 := [(0, 0)]]}; {[CItem 1 := [(1, 7)]]} : gmap iclass (list bitem)].
    repeat constructor; intros T is i [<- <-]%lookup_singleton_Some ->%elem_of_list_singleton; done. }
  by vm_compute.
Qed.

Lemma gops_frames : Forall (fun m => typed bcls m /\ fits 4 m) (v_data <$> dg_verts (gs_dg (gstate gops))).
Proof.
  assert ((v_data <$> dg_verts (gs_dg (gstate gops))) = [gitems; ∅; list_to_map [(CItem 1, [(1, 4)])]]) as -> by by vm_compute.
  assert (Hfit : forall l : list (iclass * list bitem), length l <= 4 -> Forall (fun x => length x.2 <= 4) l -> fits 4 (list_to_map l)).
  { intros l Hl HF. split.
    - etrans; [|exact Hl]. clear. induction l as [|[T is] l IH]; [done|]. cbn [list_to_map foldr length].
      rewrite map_size_insert. case_match; cbn in *; lia.
    - intros T is H%elem_of_list_to_map_2. rewrite list.Forall_forall in HF. exact (HF _ H). }
  constructor; [|constructor; [|constructor; [|constructor]]].
  - split; [apply list_typed; repeat constructor|apply Hfit; [cbn; lia|repeat constructor; cbn; lia]].
  - split; [intros T is i; by rewrite lookup_empty|]. split; [rewrite map_size_empty; lia|]. intros T is. by rewrite lookup_empty.
  - split; [apply list_typed; repeat constructor|apply Hfit; [cbn; lia|repeat constructor; cbn; lia]].
Qed.
Lemma contained (s : gst (gmap iclass (list bitem)) Z) f : contains_frame s f = true -> f ∈ (map_to_list (dg_map (gs_dg s))).*1.
Proof.
  unfold contains_frame, bg_vertex. destruct (dg_map (gs_dg s) !! f) as [v|] eqn:Hf; [|done]. intros _.
  apply elem_of_list_fmap. exists (f, v). split; [done|]. by apply elem_of_map_to_list.
Qed.
