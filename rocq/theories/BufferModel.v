(** BinaryOutputBuffer and BinaryInputBuffer on top of std::streambuf. *)
From Coq.Init Require Import Byte.
From stdpp Require Import prelude.
From Verif Require Import Outcome.

(** BinaryOutputBuffer, /repo/src/serialization/BinaryBufferHelper.hpp:55-78: the vector and the put pointers, as offsets in its data. *)
Record obuf := OBuf { o_vec : list byte; o_pptr : nat; o_epptr : nat }.

(** Constructor, /repo/src/serialization/BinaryBufferHelper.hpp:58-61. *)
Definition obuf_new (v : list byte) : obuf := OBuf v 0 (length v).

(** Writing a byte through pptr; outside the vector undefined behaviour.  std::streambuf, used by
    /repo/src/serialization/BinaryBufferHelper.hpp:73. *)
Definition poke (b : byte) (o : obuf) : outcome obuf :=
  if bool_decide (o_pptr o < length (o_vec o)) then Ret (OBuf (<[o_pptr o := b]> (o_vec o)) (S (o_pptr o)) (o_epptr o)) else UB.

(** overflow, /repo/src/serialization/BinaryBufferHelper.hpp:66-74: resize by one, setp on the last byte, sputc again.  After setp there
    is room for one byte, so the inner sputc does not come back to overflow; were there none, the recursion would not end
    ([Fuel]).  The new byte is zero (std::vector::resize). *)
Definition overflow (b : byte) (o : obuf) : outcome obuf :=
  let v := o_vec o ++ [x00] in
  let o := OBuf v (length v - 1) (length v) in
  if bool_decide (o_pptr o < o_epptr o) then poke b o else Fuel.

(** std::streambuf::sputc (libstdc++), called from /repo/src/serialization/BinaryBufferHelper.hpp:73. *)
Definition sputc (b : byte) (o : obuf) : outcome obuf :=
  if bool_decide (o_pptr o < o_epptr o) then poke b o else overflow b o.

(** Copying a block of bytes through pptr, within std::streambuf::xsputn (libstdc++) under /repo/src/serialization/Serialization.cpp:46. *)
Fixpoint poke_all (bs : list byte) (o : obuf) : outcome obuf :=
  match bs with [] => Ret o | b :: bs => obind (poke b o) (poke_all bs) end.

(** std::streambuf::xsputn (libstdc++), reached from the archive in /repo/src/serialization/Serialization.cpp:46-47: fill what is left of the
    put area, then overflow with one byte, and again. *)
Fixpoint xsputn (fuel : nat) (bs : list byte) (o : obuf) : outcome obuf :=
  match fuel with
  | 0 => Fuel
  | S fuel =>
      let len := (o_epptr o - o_pptr o) `min` length bs in
      obind (poke_all (take len bs) o) (fun o =>
        match drop len bs with
        | [] => Ret o
        | b :: bs => obind (overflow b o) (fun o => xsputn fuel bs o)
        end)
  end.
(** One write call of the archive on the buffer, /repo/src/serialization/Serialization.cpp:46-47: a single byte or a block. *)
Inductive write := WByte (b : byte) | WBlock (bs : list byte).
(** See [write]; /repo/src/serialization/Serialization.cpp:46-47. *)
Definition do_write (o : obuf) (w : write) : outcome obuf :=
  match w with WByte b => sputc b o | WBlock bs => xsputn (S (length bs)) bs o end.
(** A sequence of writes, /repo/src/serialization/Serialization.cpp:46-47. *)
Fixpoint write_all (ws : list write) (o : obuf) : outcome obuf :=
  match ws with [] => Ret o | w :: ws => obind (do_write o w) (write_all ws) end.

(** Serialization::saveToBinary, /repo/src/serialization/Serialization.cpp:41-48: [ws] are the writes of archive and item.
    reserve does not change the content. *)
Definition save_to_binary (ws : list write) (v : list byte) : outcome (list byte) := obind (write_all ws (obuf_new v)) (fun o => Ret (o_vec o)).

(** BinaryInputBuffer, /repo/src/serialization/BinaryBufferHelper.hpp:40-49: the bytes and gptr; egptr is the end. *)
Record ibuf := IBuf { i_data : list byte; i_gptr : nat }.
(** Constructor, /repo/src/serialization/BinaryBufferHelper.hpp:43-48. *)
Definition ibuf_new (v : list byte) : ibuf := IBuf v 0.
(** std::streambuf::sbumpc: next byte, or end of data since underflow is not overridden (/repo/src/serialization/BinaryBufferHelper.hpp:40-49). *)
Definition sbumpc (i : ibuf) : ibuf * option byte :=
  match i_data i !! i_gptr i with Some b => (IBuf (i_data i) (S (i_gptr i)), Some b) | None => (i, None) end.
(** std::streambuf::xsgetn: as many of [n] bytes as there are (/repo/src/serialization/BinaryBufferHelper.hpp:40-49). *)
Definition sgetn (n : nat) (i : ibuf) : ibuf * list byte :=
  let bs := take n (drop (i_gptr i) (i_data i)) in (IBuf (i_data i) (i_gptr i + length bs), bs).
(** A sequence of block reads, /repo/src/serialization/Serialization.cpp:52-55. *)
Fixpoint read_all (ns : list nat) (i : ibuf) : ibuf * list (list byte) :=
  match ns with [] => (i, []) | n :: ns => let '(i, bs) := sgetn n i in let '(i, bss) := read_all ns i in (i, bs :: bss) end.
(** One read call of the archive on the buffer: the next byte or a block, /repo/src/serialization/Serialization.cpp:52-55. *)
Inductive read := RByte | RBlock (n : nat).
(** See [read]; the bytes obtained, /repo/src/serialization/Serialization.cpp:52-55. *)
Definition do_read (r : read) (i : ibuf) : ibuf * list byte :=
  match r with RByte => let '(i, b) := sbumpc i in (i, match b with Some b => [b] | None => [] end) | RBlock n => sgetn n i end.
(** A sequence of reads, /repo/src/serialization/Serialization.cpp:52-55. *)
Fixpoint read_mixed (rs : list read) (i : ibuf) : ibuf * list (list byte) :=
  match rs with [] => (i, []) | r :: rs => let '(i, bs) := do_read r i in let '(i, bss) := read_mixed rs i in (i, bs :: bss) end.
