(** Properties of the binary buffers: C52, C53. *)
From Coq.Init Require Import Byte.
From stdpp Require Import prelude.
From Verif Require Import Outcome BufferModel SpecBuffer BufferThms.

(** ** C52: binary buffers return the bytes written *)
Theorem C52_written ws : save_to_binary ws [] = Ret (all_bytes ws).
Proof. exact (saved_short ws [] (Nat.le_0_l _)). Qed.
Print Assumptions C52_written.

(* Reading in pieces of any sizes. *)
Theorem C52_read ns data : concat (read_all ns (ibuf_new data)).2 = take (sum_list ns) data.
Proof. exact (read_any ns (ibuf_new data)). Qed.
Print Assumptions C52_read.

(* After the last byte end of data is reported. *)
Theorem C52_read_back ns data : length data <= sum_list ns -> concat (read_all ns (ibuf_new data)).2 = data /\
  sbumpc (read_all ns (ibuf_new data)).1 = ((read_all ns (ibuf_new data)).1, None).
Proof. exact (read_all_bytes ns data). Qed.
Print Assumptions C52_read_back.

(* Reading pieces of the sizes written gives the pieces. *)
Theorem C52_same_pieces bss : exists i, read_all (length <$> bss) (ibuf_new (concat bss)) = (i, bss) /\
  i_data i = concat bss /\ i_gptr i = length (concat bss).
Proof. exact (read_back bss). Qed.
Print Assumptions C52_same_pieces.

(* Reading single bytes and blocks in any mixture. *)
Theorem C52_read_mixed rs data : concat (read_mixed rs (ibuf_new data)).2 = take (sum_list (wanted <$> rs)) data.
Proof. exact (mixed_any rs data). Qed.
Print Assumptions C52_read_mixed.

(* Each read call that fits the corresponding write call gets what was written; then end of data. *)
Theorem C52_round_trip ws : exists v i, (save_to_binary ws [] = Ret v) /\ (read_mixed (read_for <$> ws) (ibuf_new v)) = (i, bytes_of <$> ws) /\
  sbumpc i = (i, None) /\ forall n, (sgetn n i).2 = [].
Proof. exact (let '(ex_intro _ i H) := mixed_back ws in ex_intro _ (all_bytes ws) (ex_intro _ i (conj (saved_short ws [] (Nat.le_0_l _)) H))). Qed.
Print Assumptions C52_round_trip.

Example C52_case_mixed : let ws := [WByte x01; WBlock [xff; x00]; WByte x07; WBlock []; WBlock [x02; x03]] in
  read_for <$> ws = [RByte; RBlock 2; RByte; RBlock 0; RBlock 2] /\
  (read_mixed [RByte; RByte; RBlock 3; RByte; RByte] (ibuf_new (all_bytes ws))).2 = [[x01]; [xff]; [x00; x07; x02]; [x03]; []].
Proof. by vm_compute. Qed.

Example C52_case : save_to_binary [WBlock [x01; xff; x00]; WByte x07; WBlock []; WBlock [x02; x03]] [] = Ret [x01; xff; x00; x07; x02; x03] /\
  read_all [2; 0; 3; 9; 1] (ibuf_new [x01; xff; x00; x07; x02; x03]) = (IBuf [x01; xff; x00; x07; x02; x03] 6, [[x01; xff]; []; [x00; x07; x02]; [x03]; []]).
Proof. by vm_compute. Qed.

(** ** C53: saveToBinary replaces the previous content *)
(* Missing: a vector that held more bytes before, see below. *)
Theorem C53_replaced_partial ws old : length old <= length (all_bytes ws) -> save_to_binary ws old = Ret (all_bytes ws).
Proof. exact (saved_short ws old). Qed.
Print Assumptions C53_replaced_partial.

(* Whenever the vector held more bytes, their tail stays behind the new ones. *)
Theorem C53_stale_tail_refuted ws old : length (all_bytes ws) < length old ->
  save_to_binary ws old = Ret (all_bytes ws ++ drop (length (all_bytes ws)) old) /\ save_to_binary ws old <> Ret (all_bytes ws).
Proof. exact (saved_long ws old). Qed.
Print Assumptions C53_stale_tail_refuted.

Example C53_case : save_to_binary [WBlock [x01; x02]; WByte x03] [xaa; xbb] = Ret [x01; x02; x03] /\
  save_to_binary [WBlock [x01; x02]; WByte x03] [xaa; xbb; xcc; xdd; xee] = Ret [x01; x02; x03; xdd; xee].
Proof. by vm_compute. Qed.
