(** Vocabulary for the properties of the small classes. *)
From Coq Require Import Ascii.
From stdpp Require Import prelude strings gmap.
From Verif Require Import Outcome ItemClass BoxModel MiscModel.

(** One backslash before every angle bracket. *)
Fixpoint with_backslashes (s : string) : string :=
  match s with
  | EmptyString => EmptyString
  | String c t => if bool_decide (c = "<"%char \/ c = ">"%char) then String "\" (String c (with_backslashes t)) else String c (with_backslashes t)
  end.

(** Libraries loaded one after the other, and whether all of them could be loaded. *)
Fixpoint all_load {L} (load_library : L -> string -> L * bool) (names : list string) (l : L) : Prop :=
  match names with [] => True | n :: names => (load_library l n).2 = true /\ all_load load_library names (load_library l n).1 end.

(** The registration that counts: the last one of the type. *)
Fixpoint last_registered (t : iclass) (regs : list (iclass * metadata)) : option metadata :=
  match regs with
  | [] => None
  | (t', d) :: regs => match last_registered t regs with Some d' => Some d' | None => if bool_decide (t' = t) then Some d else None end
  end.
Definition registrations (regs : list (iclass * metadata)) : mapping := foldl (fun m r => add_mapping r.1 r.2 m) ∅ regs.

(** Callbacks connected and not disconnected later, in connection order. *)
Fixpoint still_connected (calls : list scall) : list nat :=
  match calls with
  | [] => []
  | SConnect cb :: calls => if bool_decide (SDisconnect cb ∈ calls) then still_connected calls else cb :: still_connected calls
  | SDisconnect _ :: calls => still_connected calls
  end.

(** Time, identifier, frame name and data of an item. *)
Definition content (o : objects) (p : iptr) : option (nat * nat * frameid * nat) := (fun i => (io_time i, io_uuid i, io_frame i, io_data i)) <$> ob_items o !! p.
Definition callbacks (o : objects) (p : iptr) : option (list nat) := (fun i => (sg_slots (io_signal i)).*2) <$> ob_items o !! p.
(** The box that is the boundary of an item. *)
Definition boundary (o : objects) (p : iptr) : option box := i ← ob_items o !! p; b ← io_boundary i; ob_boxes o !! b.
(** What a modification means: the value it sets. *)
Definition content_after (c : ichange) (x : nat * nat * frameid * nat) : nat * nat * frameid * nat :=
  let '(t, u, f, d) := x in
  match c with
  | ISetTime t' => (t', u, f, d)
  | ISetID u' => (t, u', f, d)
  | ISetFrame f' => (t, u, f', d)
  | ISetData d' => (t, u, f, d')
  | _ => x
  end.
Definition callbacks_after (c : ichange) (l : list nat) : list nat :=
  match c with
  | ISignal (SConnect cb) => l ++ [cb]
  | ISignal (SDisconnect cb) => filter (fun x => x <> cb) l
  | _ => l
  end.
(** A sequence of modifications of items. *)
Fixpoint changes (l : list (iptr * ichange)) (o : objects) : outcome objects :=
  match l with [] => Ret o | (p, c) :: l => obind (change_item p c o) (changes l) end.
