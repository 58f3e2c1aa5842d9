(** A concrete archive format and concrete items used by the examples beside the theorems. *)
From stdpp Require Import prelude strings gmap.
From Coq Require Import Ascii.
From Verif Require Import ItemClass Outcome SerialModel SpecSerial.

(* Example client of /repo/src/serialization/Serialization.hpp:96-134: items with two classes, which are named A and B.  A number is
   its own byte; a string is preceded by its length; the state of the process is the list of the names that have a handle and no
   library can be loaded. *)
Definition bitem : Type := nat * nat.
(* Same client: the class of an item. *)
Definition bcls (i : bitem) : iclass := CItem i.1.
(* Same client: metadata. *)
Definition bname (T : iclass) : option string :=
  match T with CItem 0 => Some "A"%string | CItem 1 => Some "B"%string | _ => None end.
(* Same client: reading a header. *)
Definition bheader (w : list nat) : reading unit nat string :=
  match w with
  | [] => RAbort
  | n :: w' =>
      if Nat.leb n (length w') then RGot (string_of_list_ascii (map ascii_of_nat (firstn n w'))) tt (skipn n w') else RAbort
  end.
(* Same client: everything the code calls. *)
Definition benv : env (list string) unit unit nat bitem :=
  {| class_name := fun _ => bname;
     has_handle := fun p c => bool_decide (c ∈ p);
     load_all := fun p => p;
     load_lib := fun p _ => (p, false);
     enc_size := fun _ n => [n];
     dec_size := fun _ w => match w with n :: w' => Some (n, w') | [] => None end;
     enc_header := fun o c => (o, String.length c :: map nat_of_ascii (list_ascii_of_string c));
     dec_header := fun _ w => bheader w;
     enc_item := fun o _ i => WGot o [i.1; i.2];
     dec_item := fun s _ w => match w with k :: x :: w' => RGot (k, x) s w' | _ => RAbort end |}.

Lemma benv_round_trips lim : round_trips benv (fun _ _ => True) lim.
Proof.
  split; [done| |].
  - intros o [] c o' w rest _ [= <- <-]. exists tt. split; [|done]. cbn [benv dec_header bheader app].
    assert (Hl : length (map nat_of_ascii (list_ascii_of_string c)) = String.length c).
    { rewrite map_length. induction c as [|x c IH]; [done|]. cbn. by rewrite IH. }
    rewrite app_length, (proj2 (Nat.leb_le _ _)) by lia. rewrite <- Hl, firstn_app, skipn_app, firstn_all, skipn_all, Nat.sub_diag.
    rewrite firstn_O, skipn_O, app_nil_r, map_map.
    rewrite (map_ext _ id ascii_nat_embedding), map_id, string_of_list_ascii_of_string. done.
  - intros o s c [k x] o' w rest _ [= <- <-]. by exists s.
Qed.
Lemma benv_libraries_add : libraries_add benv.
Proof. done. Qed.
Lemma benv_handles_work : handles_work benv.
Proof. intros o c i. by eexists _, _. Qed.

(* Same client: one item of class A, two of class B, one that has no name. *)
Definition bitems : list (iclass * list bitem) :=
  [(CItem 0, [(0, 5)]); (CItem 2, [(2, 9)]); (CItem 1, [(1, 7); (1, 8)]); (CItem 3, [])].
(* Same client: what was loaded. *)
Definition bloaded (x : list string * unit * list nat * outcome (gmap iclass (list bitem))) (T : iclass) : option (list bitem) :=
  match x.2 with Ret m => m !! T | _ => None end.
(* Same client: the saved bytes. *)
Definition bbytes (l : list (iclass * list bitem)) : list nat :=
  (save_items benv bcls true ["A"%string; "B"%string] tt l).1.2.

Lemma list_typed {I} (cls : I -> iclass) (l : list (iclass * list I)) :
  Forall (fun x => Forall (fun i => type_index (cls i) = x.1) x.2) l -> typed cls (list_to_map l).
Proof.
  intros H T is i Hl Hi. apply elem_of_list_to_map_2 in Hl. rewrite list.Forall_forall in H.
  specialize (H _ Hl). rewrite list.Forall_forall in H. by apply H.
Qed.
