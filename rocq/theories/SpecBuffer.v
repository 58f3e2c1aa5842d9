(** Vocabulary for the properties of the binary buffers. *)
From Coq.Init Require Import Byte.
From stdpp Require Import prelude.
From Verif Require Import BufferModel.

(** The bytes of a write call and of a sequence of them. *)
Definition bytes_of (w : write) : list byte := match w with WByte b => [b] | WBlock bs => bs end.
Definition all_bytes (ws : list write) : list byte := ws ≫= bytes_of.

(** The number of bytes a read call asks for, and the read call that fits a write call. *)
Definition wanted (r : read) : nat := match r with RByte => 1 | RBlock n => n end.
Definition read_for (w : write) : read := match w with WByte _ => RByte | WBlock bs => RBlock (length bs) end.
