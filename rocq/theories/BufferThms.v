(** Proofs about the binary buffers. *)
From Coq.Init Require Import Byte.
From stdpp Require Import prelude.
From Verif Require Import Outcome BufferModel SpecBuffer.

(** Buffer after [done] was written over the old content [old]. *)
Definition holds (done old : list byte) (o : obuf) : Prop := o = OBuf (done ++ drop (length done) old) (length done) (length (done ++ drop (length done) old)).

Lemma poke_holds b ws old o : holds ws old o -> length ws < length old -> exists o', poke b o = Ret o' /\ holds (ws ++ [b]) old o'.
Proof.
  intros -> Hl. unfold poke. cbn [o_pptr o_vec o_epptr]. rewrite app_length, drop_length, bool_decide_true by lia.
  eexists; split; [done|]. unfold holds. rewrite !app_length, !drop_length. cbn [length].
  destruct (drop (length ws) old) as [|x l] eqn:E. { apply (f_equal length) in E. rewrite drop_length in E. cbn in E. lia. }
  rewrite insert_app_r_alt by lia. rewrite Nat.sub_diag. cbn [insert list_insert].
  replace (drop (length ws + 1) old) with l; [|by rewrite <-drop_drop, E].
  rewrite <-app_assoc. f_equal; lia.
Qed.

Lemma overflow_holds b ws old o : holds ws old o -> length old <= length ws -> exists o', overflow b o = Ret o' /\ holds (ws ++ [b]) old o'.
Proof.
  intros -> Hl. unfold overflow. cbn [o_pptr o_vec o_epptr]. rewrite (drop_ge old) by done. rewrite app_nil_r, app_length. cbn [length].
  replace (length ws + 1 - 1) with (length ws) by lia. rewrite bool_decide_true by lia. unfold poke. cbn [o_pptr o_vec o_epptr].
  rewrite app_length. cbn [length]. rewrite bool_decide_true by lia.
  eexists; split; [done|]. unfold holds. rewrite app_length. cbn [length]. rewrite drop_ge by lia. rewrite app_nil_r, app_length. cbn [length].
  rewrite insert_app_r_alt by lia. rewrite Nat.sub_diag. cbn [insert list_insert]. f_equal; lia.
Qed.

Lemma poke_all_holds bs ws old o : holds ws old o -> length ws + length bs <= length old ->
  exists o', poke_all bs o = Ret o' /\ holds (ws ++ bs) old o'.
Proof.
  revert ws o. induction bs as [|b bs IH]; intros ws o Ho Hl; cbn in *; [exists o; by rewrite app_nil_r|].
  destruct (poke_holds b ws old o Ho) as (o1 & E1 & H1); [lia|]. rewrite E1. cbn [obind].
  destruct (IH (ws ++ [b]) o1 H1) as (o2 & E2 & H2); [rewrite app_length; cbn; lia|]. exists o2. by rewrite <-app_assoc in H2.
Qed.

Lemma room ws old o : holds ws old o -> o_epptr o - o_pptr o = length old - length ws.
Proof. intros ->. cbn. rewrite app_length, drop_length. lia. Qed.

Lemma xsputn_holds fuel bs ws old o : holds ws old o -> length bs < fuel -> exists o', xsputn fuel bs o = Ret o' /\ holds (ws ++ bs) old o'.
Proof.
  revert bs ws o. induction fuel as [|fuel IH]; intros bs ws o Ho Hl; [lia|]. cbn [xsputn].
  rewrite (room ws old o Ho). set (len := (length old - length ws) `min` length bs).
  assert (Hlen : length (take len bs) = len) by (rewrite take_length; lia).
  assert (exists o', poke_all (take len bs) o = Ret o' /\ holds (ws ++ take len bs) old o') as (o1 & E1 & H1).
  { destruct (decide (length ws <= length old)) as [Hle|Hgt]; [apply poke_all_holds; [done|rewrite Hlen; lia]|].
    replace len with 0 by lia. exists o. rewrite take_0, app_nil_r. done. }
  rewrite E1. cbn [obind]. destruct (drop len bs) as [|b bs'] eqn:Ed.
  - exists o1. split; [done|]. rewrite <-(take_drop len bs), Ed, app_nil_r. done.
  - assert (Hd : len < length bs) by (apply (f_equal length) in Ed; rewrite drop_length in Ed; cbn in Ed; lia).
    destruct (overflow_holds b _ old o1 H1) as (o2 & E2 & H2); [rewrite app_length, Hlen; lia|]. rewrite E2. cbn [obind].
    destruct (IH bs' _ o2 H2) as (o3 & E3 & H3). { apply (f_equal length) in Ed; rewrite drop_length in Ed; cbn in Ed; lia. }
    exists o3. split; [done|]. rewrite <-!app_assoc in H3. cbn in H3. rewrite <-Ed, take_drop in H3. done.
Qed.

Lemma write_holds w ws old o : holds ws old o -> exists o', do_write o w = Ret o' /\ holds (ws ++ bytes_of w) old o'.
Proof.
  intros Ho. destruct w as [b|bs]; cbn [do_write bytes_of]; [|apply xsputn_holds; [done|lia]]. unfold sputc.
  pose proof (room ws old o Ho) as Hr. case_bool_decide; [apply poke_holds; [done|lia]|apply overflow_holds; [done|lia]].
Qed.
Lemma write_all_holds l ws old o : holds ws old o -> exists o', write_all l o = Ret o' /\ holds (ws ++ all_bytes l) old o'.
Proof.
  revert ws o. induction l as [|w l IH]; intros ws o Ho; [exists o; by rewrite app_nil_r|].
  destruct (write_holds w ws old o Ho) as (o1 & E1 & H1). cbn [write_all]. rewrite E1. cbn [obind].
  destruct (IH _ o1 H1) as (o2 & E2 & H2). exists o2. by rewrite <-app_assoc in H2.
Qed.

Lemma saved ws old : save_to_binary ws old = Ret (all_bytes ws ++ drop (length (all_bytes ws)) old).
Proof.
  unfold save_to_binary. destruct (write_all_holds ws [] old (obuf_new old)) as (o & E & ->); [done|]. rewrite E. cbn. done.
Qed.

Lemma sgetn_rest n i i' bs : sgetn n i = (i', bs) -> i_data i' = i_data i /\ drop (i_gptr i) (i_data i) = bs ++ drop (i_gptr i') (i_data i').
Proof.
  unfold sgetn. intros [= <- <-]. cbn. split; [done|]. rewrite <-drop_drop.
  set (l := drop (i_gptr i) (i_data i)). rewrite take_length. rewrite <-(take_drop n l) at 1. f_equal.
  destruct (decide (n <= length l)); [by rewrite Nat.min_l by lia|]. rewrite Nat.min_r, !drop_ge by lia. done.
Qed.
Lemma sgetn_all n i i' bs : sgetn n i = (i', bs) -> length (drop (i_gptr i) (i_data i)) >= n -> length bs = n.
Proof. unfold sgetn. intros [= <- <-]. rewrite take_length. lia. Qed.

Lemma read_back (bss : list (list byte)) : exists i, read_all (length <$> bss) (ibuf_new (concat bss)) = (i, bss) /\ i_data i = concat bss /\ i_gptr i = length (concat bss).
Proof.
  unfold ibuf_new. assert (Hgen : forall pre bss, exists i, read_all (length <$> bss) (IBuf (pre ++ concat bss) (length pre)) = (i, bss) /\
    i_data i = pre ++ concat bss /\ i_gptr i = length (pre ++ concat bss)).
  { clear. intros pre bss. revert pre. induction bss as [|bs bss IH]; intros pre.
    - cbn. eexists. split; [done|]. cbn. by rewrite app_nil_r.
    - cbn [fmap list_fmap read_all]. unfold sgetn. cbn [i_gptr i_data concat]. rewrite drop_app, take_app.
      destruct (IH (pre ++ bs)) as (i & E & D & G). rewrite <-app_assoc, app_length in E. rewrite E. exists i. rewrite <-app_assoc in D, G. done. }
  apply (Hgen [] bss).
Qed.
Lemma read_end i : i_gptr i = length (i_data i) -> sbumpc i = (i, None) /\ forall n, (sgetn n i).2 = [].
Proof.
  intros Hg. unfold sbumpc, sgetn. rewrite Hg. rewrite lookup_ge_None_2 by lia. split; [done|]. intros n. cbn. by rewrite drop_all, take_nil.
Qed.
Lemma read_one i b : i_data i !! i_gptr i = Some b -> sbumpc i = (IBuf (i_data i) (S (i_gptr i)), Some b).
Proof. intros Hb. unfold sbumpc. by rewrite Hb. Qed.
Lemma read_any ns i : concat (read_all ns i).2 = take (sum_list ns) (drop (i_gptr i) (i_data i)).
Proof.
  revert i. induction ns as [|n ns IH]; intros i; [done|]. cbn [read_all sum_list].
  destruct (sgetn n i) as [i1 bs] eqn:E. specialize (IH i1). destruct (read_all ns i1) as [i2 bss]. cbn [snd concat] in *. rewrite IH.
  unfold sgetn in E. injection E as <- <-. cbn. set (l := drop (i_gptr i) (i_data i)). rewrite <-drop_drop. fold l. rewrite take_length.
  destruct (decide (n <= length l)) as [Hn|Hn].
  - rewrite Nat.min_l by lia. by rewrite <-take_take_drop.
  - rewrite (drop_ge l) by lia. rewrite take_nil, app_nil_r, !take_ge by lia. done.
Qed.
Lemma read_position ns i : i_gptr i <= length (i_data i) ->
  i_data (read_all ns i).1 = i_data i /\ i_gptr (read_all ns i).1 = i_gptr i + length (concat (read_all ns i).2).
Proof.
  revert i. induction ns as [|n ns IH]; intros i Hi; [split; [done|cbn; lia]|]. cbn [read_all].
  destruct (sgetn n i) as [i1 bs] eqn:E. unfold sgetn in E. injection E as <- <-. specialize (IH (IBuf (i_data i) (i_gptr i + length (take n (drop (i_gptr i) (i_data i)))))).
  cbn [i_data i_gptr] in IH. rewrite take_length, drop_length in *. destruct IH as [D G]; [lia|].
  destruct (read_all ns _) as [i2 bss]. cbn [fst snd concat] in *. rewrite D, G, app_length, take_length, drop_length. split; [done|lia].
Qed.
Lemma read_all_bytes ns data : length data <= sum_list ns -> concat (read_all ns (ibuf_new data)).2 = data /\
  sbumpc (read_all ns (ibuf_new data)).1 = ((read_all ns (ibuf_new data)).1, None).
Proof.
  intros Hs. pose proof (read_any ns (ibuf_new data)) as Hr. cbn in Hr. rewrite drop_0, take_ge in Hr by done. split; [done|].
  destruct (read_position ns (ibuf_new data)) as [D G]; [cbn; lia|]. apply read_end. rewrite D, G, Hr. done.
Qed.
Lemma saved_short ws old : length old <= length (all_bytes ws) -> save_to_binary ws old = Ret (all_bytes ws).
Proof. intros Hl. rewrite saved. by rewrite drop_ge, app_nil_r. Qed.
Lemma saved_long ws old : length (all_bytes ws) < length old ->
  save_to_binary ws old = Ret (all_bytes ws ++ drop (length (all_bytes ws)) old) /\ save_to_binary ws old <> Ret (all_bytes ws).
Proof.
  intros Hl. rewrite saved. split; [done|]. intros [= E]. apply (f_equal length) in E. rewrite app_length, drop_length in E. lia.
Qed.

(** *** Reading bytes and blocks *)

Lemma do_read_eq r i : do_read r i = sgetn (wanted r) i.
Proof.
  destruct r as [|n]; [|done]. cbn [do_read wanted]. unfold sbumpc, sgetn.
  destruct (i_data i !! i_gptr i) as [b|] eqn:Hb.
  - rewrite (drop_S _ b) by done. cbn. f_equal. by rewrite Nat.add_comm.
  - apply lookup_ge_None in Hb. rewrite (drop_ge _ _ Hb). cbn. f_equal. rewrite Nat.add_0_r. by destruct i.
Qed.
Lemma read_mixed_eq rs i : read_mixed rs i = read_all (wanted <$> rs) i.
Proof.
  revert i. induction rs as [|r rs IH]; intros i; [done|]. cbn [read_mixed read_all fmap list_fmap]. rewrite do_read_eq.
  destruct (sgetn (wanted r) i) as [i1 bs]. by rewrite IH.
Qed.
Lemma mixed_back ws : exists i, read_mixed (read_for <$> ws) (ibuf_new (all_bytes ws)) = (i, bytes_of <$> ws) /\
  sbumpc i = (i, None) /\ forall n, (sgetn n i).2 = [].
Proof.
  rewrite read_mixed_eq. destruct (read_back (bytes_of <$> ws)) as (i & Hi & Hd & Hg).
  assert (Ha : all_bytes ws = concat (bytes_of <$> ws)).
  { clear. induction ws as [|w ws IH]; [done|]. cbn. by rewrite <- IH. }
  assert (Hl : wanted <$> (read_for <$> ws) = length <$> (bytes_of <$> ws)).
  { clear. induction ws as [|w ws IH]; [done|]. cbn. rewrite <- IH. by destruct w. }
  rewrite Ha, Hl. exists i. split; [exact Hi|]. apply read_end. by rewrite Hd.
Qed.
Lemma mixed_any rs data : concat (read_mixed rs (ibuf_new data)).2 = take (sum_list (wanted <$> rs)) data.
Proof. rewrite read_mixed_eq. exact (read_any _ (ibuf_new data)). Qed.
