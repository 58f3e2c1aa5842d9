(** Proofs about dispatchers. *)
From stdpp Require Import prelude strings.
From Verif Require Import Outcome ItemClass DispatcherModel SpecDispatch.

Section dispatch.
Context {H : Type} (react : H -> nat -> event -> H * list dcall).

Lemma calls_keep k calls d : (forall cb, DAdd k cb ∉ calls) -> d_cbs (foldl disp_call d calls) k = d_cbs d k.
Proof.
  revert d. induction calls as [|c calls IH]; intros d Hc; [done|]. cbn [foldl]. rewrite IH.
  - destruct c as [b|f|k' cb]; try done. cbn. rewrite bool_decide_false; [done|]. intros ->. apply (Hc cb). by left.
  - intros cb Hcb. apply (Hc cb). by right.
Qed.

Lemma call_back_all ev n i h d : (forall h cb cb', DAdd (kind_of ev) cb' ∉ (react h cb ev).2) ->
  length (d_cbs d (kind_of ev)) <= n + i ->
  exists h' d', call_back react (S n) ev i h d = (h', d', (fun cb => (cb, ev)) <$> drop i (d_cbs d (kind_of ev)), Ret tt).
Proof.
  intros Hr. revert i h d. induction n as [|n IH]; intros i h d Hl; cbn [call_back].
  - rewrite lookup_ge_None_2 by lia. rewrite drop_ge by lia. by eexists _, _.
  - destruct (d_cbs d (kind_of ev) !! i) as [cb|] eqn:Hi.
    + destruct (react h cb ev) as [h1 calls] eqn:Hrc.
      assert (Hk : d_cbs (foldl disp_call d calls) (kind_of ev) = d_cbs d (kind_of ev)).
      { apply calls_keep. intros cb'. specialize (Hr h cb cb'). by rewrite Hrc in Hr. }
      destruct (IH (S i) h1 (foldl disp_call d calls)) as (h' & d' & E); [rewrite Hk; lia|].
      cbn [call_back] in E. rewrite E. exists h', d'. rewrite Hk. rewrite (drop_S _ _ _ Hi). done.
    + rewrite drop_ge by by apply lookup_ge_None_1. by eexists _, _.
Qed.

Lemma notify_enabled ev fuel h d : (forall h cb cb', DAdd (kind_of ev) cb' ∉ (react h cb ev).2) -> d_enabled d = true ->
  length (d_cbs d (kind_of ev)) < fuel ->
  exists h' d', disp_notify react fuel ev h d = (h', d', (fun cb => (cb, ev)) <$> d_cbs d (kind_of ev), Ret tt).
Proof.
  intros Hr He Hl. unfold disp_notify. rewrite He. destruct fuel as [|n]; [lia|].
  destruct (call_back_all ev n 0 h d Hr) as (h' & d' & E); [lia|]. rewrite E. by exists h', d'.
Qed.

Lemma notify_disabled ev fuel h d : d_enabled d = false -> d_waiting d = Some false -> disp_notify react fuel ev h d = (h, d, [], Ret tt).
Proof. intros He Hw. unfold disp_notify. by rewrite He, Hw. Qed.

Lemma notify_uninitialised ev fuel h d : d_enabled d = false -> d_waiting d = None -> disp_notify react fuel ev h d = (h, d, [], UB).
Proof. intros He Hw. unfold disp_notify. by rewrite He, Hw. Qed.

(** * Quiet callbacks *)
Lemma call_back_quiet ev fuel i h d : quiet react -> exists h' tr r, call_back react fuel ev i h d = (h', d, tr, r).
Proof.
  intros Hq. revert i h. induction fuel as [|fuel IH]; intros i h; cbn [call_back]; [by eexists _, _, _|].
  destruct (d_cbs d (kind_of ev) !! i) as [cb|]; [|by eexists _, _, _].
  specialize (Hq h cb ev). destruct (react h cb ev) as [h1 calls]. cbn in Hq. subst calls. cbn [foldl].
  destruct (IH (S i) h1) as (h' & tr & r & E). rewrite E. by eexists _, _, _.
Qed.

Lemma notify_quiet ev fuel h d : quiet react -> d_enabled d = true -> length (d_cbs d (kind_of ev)) < fuel ->
  exists h', disp_notify react fuel ev h d = (h', d, (fun cb => (cb, ev)) <$> d_cbs d (kind_of ev), Ret tt).
Proof.
  intros Hq He Hl. destruct (notify_enabled ev fuel h d) as (h' & d' & E); [|done|done|].
  - intros h0 cb cb'. rewrite (Hq h0 cb ev). apply not_elem_of_nil.
  - exists h'. rewrite E. unfold disp_notify in E. rewrite He in E. destruct (call_back_quiet ev fuel 0 h d Hq) as (h2 & tr & r & E2).
    rewrite E2 in E. congruence.
Qed.

Lemma of_kind_eq k ev : of_kind k ev = true -> kind_of ev = k.
Proof. by destruct k, ev. Qed.
Lemma fan_out_cons cbs ev evs : fan_out cbs (ev :: evs) = ((fun cb => (cb, ev)) <$> cbs (kind_of ev)) ++ fan_out cbs evs.
Proof. unfold fan_out. rewrite bind_cons. f_equal. destruct ev; cbn; by rewrite ?app_nil_r. Qed.
Lemma notify_kind k ev fuel h d : of_kind k ev = true -> (forall h cb cb', DAdd k cb' ∉ (react h cb ev).2) -> d_enabled d = true ->
  length (d_cbs d k) < fuel ->
  exists h' d', disp_notify react fuel ev h d = (h', d', (fun cb => (cb, ev)) <$> d_cbs d k, Ret tt).
Proof. intros <-%of_kind_eq. apply notify_enabled. Qed.
Lemma run_forwards fuel evs h d : quiet react -> d_enabled d = true -> (forall ev, ev ∈ evs -> length (d_cbs d (kind_of ev)) < fuel) ->
  exists h', disp_run react fuel (DEvent <$> evs) h d = (h', d, fan_out (d_cbs d) evs, Ret tt).
Proof.
  intros Hq He. revert h. induction evs as [|ev evs IH]; intros h Hl; [by exists h|]. cbn [fmap list_fmap disp_run].
  destruct (notify_quiet ev fuel h d Hq He) as [h1 E1]; [apply Hl; by left|]. rewrite E1.
  destruct (IH h1) as [h2 E2]; [intros ev' Hev; apply Hl; by right|]. rewrite E2. exists h2. by rewrite fan_out_cons.
Qed.

(** * Waiting *)
Definition waiting_for (fs : list frameid) (d d' : dispatcher) : Prop :=
  d_enabled d' = false /\ d_waiting d' = Some true /\ d_frames d' = fs /\ d_cbs d' = d_cbs d.

Lemma wait_all fs d : fs <> [] -> waiting_for (d_frames d ++ fs) d (foldl (fun d f => disp_wait f d) d fs).
Proof.
  intros Hf. assert (Hgen : forall fs d, (fs <> [] \/ d_enabled d = false /\ d_waiting d = Some true) ->
    waiting_for (d_frames d ++ fs) d (foldl (fun d f => disp_wait f d) d fs)).
  { clear. induction fs as [|f fs IH]; intros d Hd.
    - destruct Hd as [Hd|[He Hw]]; [done|]. cbn. rewrite app_nil_r. done.
    - cbn [foldl]. destruct (IH (disp_wait f d)) as (A & B & C & D); [by right|]. repeat split; try done. rewrite C. cbn. by rewrite <-app_assoc. }
  apply Hgen. by left.
Qed.

Lemma occurrences_cons f x fs : occurrences f (x :: fs) = (if bool_decide (x = f) then 1 else 0) + occurrences f fs.
Proof. unfold occurrences. rewrite filter_cons. case_decide; case_bool_decide; done. Qed.
Lemma additions_cons f x evs : additions f (x :: evs) = (if bool_decide (x = EvFrameAdded f) then 1 else 0) + additions f evs.
Proof. unfold additions. rewrite filter_cons. case_decide; case_bool_decide; done. Qed.
Lemma occurrences_erase f g fs : occurrences f (erase_first g fs) = occurrences f fs - (if bool_decide (g = f) then 1 else 0).
Proof.
  induction fs as [|x fs IH]; cbn [erase_first]; [done|]. destruct (bool_decide_reflect (x = g)) as [->|Hx].
  - rewrite occurrences_cons. case_bool_decide; lia.
  - rewrite !occurrences_cons, IH. repeat case_bool_decide; try lia. congruence.
Qed.

Lemma all_arrived_nil fs : all_arrived fs [] -> fs = [].
Proof.
  destruct fs as [|f fs]; [done|]. intros Ha. specialize (Ha f). rewrite occurrences_cons, bool_decide_true in Ha by done.
  unfold additions in Ha. cbn in Ha. lia.
Qed.
Lemma all_arrived_other fs ev evs : (forall f, ev <> EvFrameAdded f) -> all_arrived fs (ev :: evs) <-> all_arrived fs evs.
Proof. intros Ho. unfold all_arrived. setoid_rewrite additions_cons. split; intros Ha f; specialize (Ha f); rewrite bool_decide_false in * by done; lia. Qed.
Lemma all_arrived_erase fs g evs : all_arrived fs (EvFrameAdded g :: evs) <-> all_arrived (erase_first g fs) evs.
Proof.
  unfold all_arrived. setoid_rewrite additions_cons. setoid_rewrite occurrences_erase. split; intros Ha f; specialize (Ha f).
  - case_bool_decide as H1; case_bool_decide as H2; try lia. congruence.
  - case_bool_decide as H1; case_bool_decide as H2; try lia. congruence.
Qed.

(** Nothing is forwarded while an entry is missing. *)
Lemma withheld fuel fs evs h d d0 : waiting_for fs d0 d -> fs <> [] -> ~ all_arrived fs evs ->
  exists fs' d', disp_run react fuel (DEvent <$> evs) h d = (h, d', [], Ret tt) /\ waiting_for fs' d0 d' /\ fs' <> [] /\
    forall evs', all_arrived fs (evs ++ evs') <-> all_arrived fs' evs'.
Proof.
  revert fs d. induction evs as [|ev evs IH]; intros fs d Hw Hf Ha; [by exists fs, d|].
  cbn [fmap list_fmap disp_run]. destruct Hw as (He & Hwt & Hfs & Hc).
  assert (Hd : (exists g, ev = EvFrameAdded g) \/ ~ exists g, ev = EvFrameAdded g) by (destruct ev; eauto; right; naive_solver).
  destruct Hd as [[g ->]|Hno].
  - unfold disp_notify. rewrite He, Hwt. unfold check_waiting. rewrite Hfs. rewrite all_arrived_erase in Ha.
    rewrite bool_decide_false.
    + destruct (IH (erase_first g fs) (Disp (d_enabled d) (d_waiting d) (erase_first g fs) (d_cbs d))) as (fs' & d' & E & A & B & C).
      * done.
      * intros E. apply Ha. rewrite E. intros f. unfold occurrences. cbn. lia.
      * done.
      * rewrite E. exists fs', d'. split; [done|]. split; [done|]. split; [done|]. intros evs'. cbn [app]. rewrite all_arrived_erase. apply C.
    + intros E. apply nil_length_inv in E. apply Ha. rewrite E. intros f. unfold occurrences. cbn. lia.
  - assert (Hev : forall f, ev <> EvFrameAdded f) by (intros f ->; apply Hno; by exists f).
    assert (En : disp_notify react fuel ev h d = (h, d, [], Ret tt)).
    { unfold disp_notify. rewrite He, Hwt. destruct ev; try done. by destruct (Hev f). }
    rewrite En. rewrite all_arrived_other in Ha by done. destruct (IH fs d) as (fs' & d' & E & A & B & C); [done|done|done|].
    rewrite E. exists fs', d'. split; [done|]. split; [done|]. split; [done|]. intros evs'. cbn [app]. rewrite all_arrived_other by done. apply C.
Qed.

Lemma run_waits fuel fs steps h d : disp_run react fuel ((DCall ∘ DWait <$> fs) ++ steps) h d = disp_run react fuel steps h (foldl (fun d f => disp_wait f d) d fs).
Proof. revert d. induction fs as [|f fs IH]; intros d; [done|]. cbn. apply IH. Qed.

Lemma run_app fuel s1 s2 h d h1 d1 t1 : disp_run react fuel s1 h d = (h1, d1, t1, Ret tt) ->
  disp_run react fuel (s1 ++ s2) h d = let '(h2, d2, t2, r) := disp_run react fuel s2 h1 d1 in (h2, d2, t1 ++ t2, r).
Proof.
  revert h d t1. induction s1 as [|[c|ev] s1 IH]; intros h d t1; cbn [app disp_run].
  - intros [= -> -> <-]. by destruct (disp_run react fuel s2 h1 d1) as [[[? ?] ?] ?].
  - apply IH.
  - destruct (disp_notify react fuel ev h d) as [[[h0 d0] t0] [ []|e| |]]; try done.
    destruct (disp_run react fuel s1 h0 d0) as [[[h3 d3] t3] r3] eqn:E3. intros [= -> -> <- ->].
    rewrite (IH _ _ _ E3). destruct (disp_run react fuel s2 h1 d1) as [[[? ?] ?] ?]. by rewrite app_assoc.
Qed.

Lemma wait_withholds fuel fs evs h d : fs <> [] -> ~ all_arrived (d_frames d ++ fs) evs ->
  exists d', disp_run react fuel ((DCall ∘ DWait <$> fs) ++ (DEvent <$> evs)) h d = (h, d', [], Ret tt) /\ d_enabled d' = false.
Proof.
  intros Hf Ha. rewrite run_waits. pose proof (wait_all fs d Hf) as Hw.
  destruct (withheld fuel _ evs h _ d Hw) as (fs' & d' & E & (A & _) & _); [by destruct (d_frames d), fs|done|]. by exists d'.
Qed.

Lemma wait_forwards fuel fs e1 e e2 h d : quiet react -> fs <> [] -> (forall k, length (d_cbs d k) < fuel) ->
  ~ all_arrived (d_frames d ++ fs) e1 -> all_arrived (d_frames d ++ fs) (e1 ++ [e]) ->
  exists h', disp_run react fuel ((DCall ∘ DWait <$> fs) ++ (DEvent <$> e1 ++ e :: e2)) h d =
    (h', Disp true (Some false) [] (d_cbs d), fan_out (d_cbs d) e2, Ret tt).
Proof.
  intros Hq Hf Hl Ha1 Ha2. rewrite run_waits. pose proof (wait_all fs d Hf) as Hw.
  destruct (withheld fuel _ e1 h _ d Hw) as (fs' & d' & E & (A & B & C & D) & Hne & Hrest); [by destruct (d_frames d), fs|done|].
  rewrite fmap_app. rewrite (run_app _ _ _ _ _ _ _ _ E). cbn [fmap list_fmap disp_run]. apply Hrest in Ha2.
  assert (Hd : (exists g, e = EvFrameAdded g) \/ ~ exists g, e = EvFrameAdded g) by (destruct e; eauto; right; naive_solver).
  destruct Hd as [[g ->]|Hno].
  - apply all_arrived_erase in Ha2. apply all_arrived_nil in Ha2. unfold disp_notify. rewrite A, B. unfold check_waiting. rewrite C, Ha2.
    rewrite bool_decide_true by done.
    destruct (run_forwards fuel e2 h (Disp true (Some false) [] (d_cbs d')) Hq) as [h' E2]; [done|intros ev _; cbn; rewrite D; apply Hl|].
    exists h'. unfold disp_enable. cbn. cbn in E2. rewrite D in E2. rewrite D, E2. done.
  - apply all_arrived_other in Ha2; [|intros f ->; apply Hno; by exists f]. by apply all_arrived_nil in Ha2.
Qed.

(** * Histories *)
Lemma notify_cbs fuel ev h d k : (forall h cb ev cb', DAdd k cb' ∉ (react h cb ev).2) ->
  d_cbs (disp_notify react fuel ev h d).1.1.2 k = d_cbs d k.
Proof.
  intros Hr. unfold disp_notify. destruct (d_enabled d).
  - assert (Hcb : forall fuel i h d, d_cbs (call_back react fuel ev i h d).1.1.2 k = d_cbs d k).
    { clear h d fuel. induction fuel as [|fuel IH]; intros i h d; cbn [call_back]; [done|].
      destruct (d_cbs d (kind_of ev) !! i) as [cb|]; [|done]. pose proof (Hr h cb ev) as Hc. destruct (react h cb ev) as [h1 calls].
      specialize (IH (S i) h1 (foldl disp_call d calls)). destruct (call_back react fuel ev (S i) h1 (foldl disp_call d calls)) as [[[? ?] ?] ?].
      cbn in *. rewrite IH. by apply calls_keep. }
    apply Hcb.
  - destruct (d_waiting d) as [[]|]; try done. destruct ev; try done. unfold check_waiting. by case_bool_decide.
Qed.

Lemma run_registered fuel steps h d k : (forall h cb ev cb', DAdd k cb' ∉ (react h cb ev).2) -> (disp_run react fuel steps h d).2 = Ret tt ->
  d_cbs (disp_run react fuel steps h d).1.1.2 k = d_cbs d k ++ registered k steps.
Proof.
  intros Hr. revert h d. induction steps as [|[c|ev] steps IH]; intros h d; cbn [disp_run].
  - cbn. by rewrite app_nil_r.
  - intros Hret. rewrite (IH _ _ Hret). destruct c as [b|f|k' cb]; try done. cbn [registered disp_call disp_add d_cbs].
    destruct (bool_decide_reflect (k = k')) as [->|Hk]; [rewrite bool_decide_true by done; by rewrite <-app_assoc|by rewrite bool_decide_false by done].
  - pose proof (notify_cbs fuel ev h d k Hr) as Hn. destruct (disp_notify react fuel ev h d) as [[[h0 d0] t0] [ []|e| |]]; cbn; try done.
    specialize (IH h0 d0). destruct (disp_run react fuel steps h0 d0) as [[[h3 d3] t3] r3]. cbn in *. intros Hret. by rewrite (IH Hret), Hn.
Qed.

(** The flag is initialised by the constructor with publisher, and never becomes undefined. *)
Lemma calls_init calls d : d_waiting d <> None -> d_waiting (foldl disp_call d calls) <> None.
Proof. revert d. induction calls as [|c calls IH]; intros d Hd; [done|]. cbn [foldl]. apply IH. by destruct c. Qed.
Lemma notify_init fuel ev h d : d_waiting d <> None ->
  d_waiting (disp_notify react fuel ev h d).1.1.2 <> None /\ (disp_notify react fuel ev h d).2 <> UB.
Proof.
  intros Hd. unfold disp_notify. destruct (d_enabled d).
  - revert Hd. generalize 0. revert h d. induction fuel as [|fuel IH]; intros h d i Hd; cbn [call_back]; [done|].
    destruct (d_cbs d (kind_of ev) !! i) as [cb|]; [|done]. destruct (react h cb ev) as [h1 calls].
    specialize (IH h1 (foldl disp_call d calls) (S i) (calls_init calls d Hd)).
    by destruct (call_back react fuel ev (S i) h1 (foldl disp_call d calls)) as [[[? ?] ?] ?].
  - destruct (d_waiting d) as [[]|] eqn:Hw; try done; destruct ev; cbn; rewrite ?Hw; try done.
    unfold check_waiting. case_bool_decide; cbn; by rewrite ?Hw.
Qed.
Lemma run_no_ub fuel steps h d : d_waiting d <> None -> (disp_run react fuel steps h d).2 <> UB.
Proof.
  revert h d. induction steps as [|[c|ev] steps IH]; intros h d Hd; cbn [disp_run]; [done|..].
  - apply IH. by apply (calls_init [c]).
  - destruct (notify_init fuel ev h d Hd) as [A B]. destruct (disp_notify react fuel ev h d) as [[[h0 d0] t0] [ []|e| |]]; cbn in *; try done.
    specialize (IH h0 d0 A). by destruct (disp_run react fuel steps h0 d0) as [[[h3 d3] t3] r3].
Qed.

(** A dispatcher on which nobody waits stays disabled. *)
Lemma calls_no_wait calls d : (forall f, DWait f ∉ calls) -> d_waiting d = Some false -> d_waiting (foldl disp_call d calls) = Some false.
Proof.
  revert d. induction calls as [|c calls IH]; intros d Hn Hd; [done|]. cbn [foldl]. apply IH.
  - intros f Hf. apply (Hn f). by right.
  - destruct c as [b|f|k cb]; try done. destruct (Hn f). left.
Qed.
Lemma notify_no_wait fuel ev h d : (forall h cb ev f, DWait f ∉ (react h cb ev).2) -> d_waiting d = Some false ->
  d_waiting (disp_notify react fuel ev h d).1.1.2 = Some false.
Proof.
  intros Hr Hd. unfold disp_notify. destruct (d_enabled d).
  - revert Hd. generalize 0. revert h d. induction fuel as [|fuel IH]; intros h d i Hd; cbn [call_back]; [done|].
    destruct (d_cbs d (kind_of ev) !! i) as [cb|]; [|done]. pose proof (Hr h cb ev) as Hc. destruct (react h cb ev) as [h1 calls].
    specialize (IH h1 (foldl disp_call d calls) (S i) (calls_no_wait calls d Hc Hd)).
    by destruct (call_back react fuel ev (S i) h1 (foldl disp_call d calls)) as [[[? ?] ?] ?].
  - by rewrite Hd.
Qed.
Lemma run_no_wait fuel steps h d : (forall h cb ev f, DWait f ∉ (react h cb ev).2) -> never_waits steps -> d_waiting d = Some false ->
  d_waiting (disp_run react fuel steps h d).1.1.2 = Some false.
Proof.
  intros Hr. revert h d. induction steps as [|s steps IH]; intros h d Hn Hd; [done|].
  assert (Hn' : never_waits steps). { intros f Hf. apply (Hn f). by right. }
  destruct s as [c|ev]; cbn [disp_run].
  - apply IH; [done|]. destruct c as [b|f|k cb]; try done. destruct (Hn f). left.
  - pose proof (notify_no_wait fuel ev h d Hr Hd) as Hd0. destruct (disp_notify react fuel ev h d) as [[[h0 d0] t0] [ []|e| |]]; cbn in *; try done.
    specialize (IH h0 d0 Hn' Hd0). by destruct (disp_run react fuel steps h0 d0) as [[[h3 d3] t3] r3].
Qed.
Lemma run_off fuel rest h d : events_only rest -> d_enabled d = false -> d_waiting d = Some false ->
  exists d', disp_run react fuel rest h d = (h, d', [], Ret tt) /\ d_enabled d' = false.
Proof.
  revert d. induction rest as [|s rest IH]; intros d Hn He Hw; cbn [disp_run]; [by exists d|].
  assert (Hn' : events_only rest). { intros b f. split; intros Hf; [apply (proj1 (Hn b f))|apply (proj2 (Hn b f))]; by right. }
  destruct s as [[b|f|k cb]|ev].
  - destruct (proj1 (Hn b "")). left.
  - destruct (proj2 (Hn true f)). left.
  - by apply IH.
  - rewrite (notify_disabled ev fuel h d He Hw). destruct (IH d Hn' He Hw) as (d' & -> & ?). by exists d'.
Qed.
Lemma run_stays_off fuel steps rest h h1 d1 t1 : (forall h cb ev f, DWait f ∉ (react h cb ev).2) -> never_waits steps -> events_only rest ->
  disp_run react fuel steps h disp_new = (h1, d1, t1, Ret tt) ->
  exists d', disp_run react fuel (steps ++ DCall (DEnable false) :: rest) h disp_new = (h1, d', t1, Ret tt) /\ d_enabled d' = false.
Proof.
  intros Hr Hn Ho E. pose proof (run_no_wait fuel steps h disp_new Hr Hn eq_refl) as Hw. rewrite E in Hw. cbn in Hw.
  rewrite (run_app _ _ _ _ _ _ _ _ E). cbn [disp_run disp_call].
  destruct (run_off fuel rest h1 (disp_enable false d1) Ho eq_refl Hw) as (d' & -> & ?). exists d'. by rewrite app_nil_r.
Qed.
End dispatch.

(** * Typed item dispatchers *)
Lemma item_run_plain cls d evs : item_run cls (CItem d) evs = (fun ev => (ev, true)) <$> filter (about_item cls (CItem d)) evs.
Proof.
  unfold item_run. induction evs as [|ev evs IH]; [done|]. rewrite bind_cons, IH, filter_cons.
  assert (Hi : forall i, bool_decide (type_index (cls i) = CItem d) = is_a (cls i) (CItem d)).
  { intros i. unfold is_a. destruct (cls i) as [d'|n d']; cbn; repeat case_bool_decide; naive_solver. }
  destruct ev as [| | | | |f i|f i]; cbn [item_notify]; try (rewrite decide_False by (cbn; tauto); done).
  all: rewrite Hi; case_decide as Hd; cbn [about_item] in Hd;
    [apply Is_true_true in Hd; by rewrite Hd|apply Is_true_false in Hd; by rewrite Hd].
Qed.
Lemma item_run_derived cls n d evs : item_run cls (CDerived n d) evs = [].
Proof.
  unfold item_run. induction evs as [|ev evs IH]; [done|]. rewrite bind_cons, IH.
  destruct ev as [| | | | |f i|f i]; cbn [item_notify]; try done; by rewrite bool_decide_false by by destruct (cls i).
Qed.
