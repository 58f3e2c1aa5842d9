(** Threads that share a graph (C57, C58, C73). *)
From stdpp Require Import prelude strings gmap.
From Verif Require Import Outcome ListLib Digraph TreeView GraphModel GraphWf GraphStep SpecObs GraphThms MiscModel LockModel SpecLock.

Section threads.
Context {G V : Type} (fn : wcall -> body G V).
Implicit Types (u : user V) (p : prog G V) (w : world G V) (vs : list V) (g : G).
Local Notation uprog := (user_prog fn).

(* Running a thread alone until it has unlocked as often as [n] says. *)
Fixpoint section (n : nat) (p : prog G V) (g : G) (vs : list V) : option (G * prog G V * list V) :=
  match p with
  | PDone => None
  | PMicro f k => let '(g', v) := f g in section n (k v) g' vs
  | PLog v k => section n k g (vs ++ [v])
  | PAcq k => section (S n) k g vs
  | PRel k => match n with 0 => None | 1 => Some (g, k, vs) | S n' => section n' k g vs end
  end.

Lemma guarded_safe c : safe_unlocked c -> guarded c = true.
Proof. intros H. destruct c; try reflexivity. by destruct (H o t). Qed.

Lemma section_body n b k g vs : 0 < n -> section n (body_prog b k) g vs = section n (k (alone b g).2) (alone b g).1 vs.
Proof.
  revert n k g. induction b as [v|f j IH|c b IHb j IH]; intros n k g Hn; cbn [body_prog alone].
  - done.
  - cbn [section]. destruct (f g) as [g' v]. by apply IH.
  - destruct (guarded c).
    + cbn [section]. rewrite IHb by lia. cbn [section]. destruct n as [|n]; [lia|]. destruct (alone b g) as [g' v]. cbn [fst snd]. by apply IH.
    + rewrite IHb by done. destruct (alone b g) as [g' v]. cbn [fst snd]. by apply IH.
Qed.

Lemma section_user n u g vs : 0 < n -> disciplined n u ->
  exists g' u' vs', until_unlocked fn n u g vs = Some (g', u', vs') /\ section n (uprog u) g vs = Some (g', uprog u', vs') /\ disciplined 0 u'.
Proof.
  revert n g vs. induction u as [|c k IH|c k IH|u IH|u IH]; intros n g vs Hn Hd; cbn [disciplined] in Hd; cbn [until_unlocked user_prog].
  - lia.
  - destruct Hd as [_ Hd]. destruct (guarded c).
    + cbn [section]. rewrite section_body by lia. cbn [section]. destruct n as [|n]; [lia|].
      destruct (alone (fn c) g) as [g' v]. cbn [fst snd]. by apply IH.
    + rewrite section_body by lia. cbn [section]. destruct (alone (fn c) g) as [g' v]. cbn [fst snd]. by apply IH.
  - destruct Hd as [_ Hd]. rewrite section_body by lia. cbn [section]. destruct (alone (fn c) g) as [g' v]. cbn [fst snd]. by apply IH.
  - cbn [section]. apply IH; [lia|done].
  - cbn [section]. destruct n as [|[|n]]; [lia| |].
    + by exists g, u, vs.
    + apply IH; [lia|done].
Qed.

Lemma turn_user u g vs : disciplined 0 u ->
  (u = UEnd /\ uprog u = PDone) \/
  exists p g' u' vs', uprog u = PAcq p /\ turn fn u g vs = Some (g', u', vs') /\ section 1 p g vs = Some (g', uprog u', vs') /\ disciplined 0 u'.
Proof.
  destruct u as [|c k|c k|u|u]; cbn [disciplined]; intros Hd.
  - by left.
  - destruct Hd as [[Hg|?] Hd]; [|lia]. right. cbn [user_prog turn]. rewrite (guarded_safe c Hg). destruct (alone (fn c) g) as [g' v] eqn:Ha.
    eexists _, g', (k v), (vs ++ [v]). split; [done|]. split; [done|]. split; [|done]. rewrite section_body by lia. by rewrite Ha.
  - destruct Hd as [? _]. lia.
  - right. destruct (section_user 1 u g vs) as (g' & u' & vs' & H1 & H2 & H3); [lia|done|]. by exists (uprog u), g', u', vs'.
  - done.
Qed.

Lemma turns_app o1 o2 g (us : list (user V * list V)) : turns fn (o1 ++ o2) g us =
  match turns fn o1 g us with Some (g', us') => turns fn o2 g' us' | None => None end.
Proof.
  revert g us. induction o1 as [|i o1 IH]; intros g us; [done|]. cbn [turns app].
  destruct (us !! i) as [[u vs]|]; [|done]. destruct (turn fn u g vs) as [[[g' u'] vs']|]; [|done]. apply IH.
Qed.

(* The thread that runs users' programs. *)
Definition uthread (x : user V * list V) : prog G V * list V := (uprog x.1, x.2).

(* Between turns. *)
Definition quiet (g0 : G) (us0 : list (user V)) (w : world G V) : Prop :=
  w_mutex w = None /\ exists us, turns fn (w_turns w) g0 ((fun u => (u, [])) <$> us0) = Some (w_graph w, us) /\
    w_threads w = uthread <$> us /\ Forall (fun x => disciplined 0 x.1) us.
(* During a turn of the owner: if the owner goes on alone, the turn ends as if nobody had interfered. *)
Definition busy (g0 : G) (us0 : list (user V)) (w : world G V) : Prop :=
  exists i n order us p vs g1 us1, w_mutex w = Some (i, S n) /\ w_turns w = order ++ [i] /\
    turns fn order g0 ((fun u => (u, [])) <$> us0) = Some (g1, us) /\ Forall (fun x => disciplined 0 x.1) us /\
    us1 = us /\ w_threads w = <[i := (p, vs)]> (uthread <$> us) /\ i < length us /\
    exists u' vs' g', turns fn [i] g1 us = Some (g', <[i := (u', vs')]> us) /\ disciplined 0 u' /\
      section (S n) p (w_graph w) vs = Some (g', uprog u', vs').

Lemma quiet_start g us : Forall (disciplined 0) us -> quiet g us (world_start fn g us).
Proof.
  intros Hd. split; [done|]. exists ((fun u => (u, [])) <$> us). split; [done|]. split.
  - cbn. rewrite <- list_fmap_compose. done.
  - apply list.Forall_fmap. eapply list.Forall_impl; [done|]. done.
Qed.

Lemma quiet_step g0 us0 w i : quiet g0 us0 w ->
  (wstep i w = Ended /\ (w_threads w !! i = None \/ ended w i)) \/ (exists w', wstep i w = Went w' /\ busy g0 us0 w' /\ ~ accessing w i).
Proof.
  intros (Hm & us & Ht & Hth & Hd). unfold wstep. destruct (w_threads w !! i) as [[p vs]|] eqn:Hi.
  2:{ left. split; [done|]. by left. }
  rewrite Hth, list_lookup_fmap in Hi. destruct (us !! i) as [[u vs1]|] eqn:Hu; [|done]. cbn in Hi. injection Hi as <- <-.
  assert (Hdu : disciplined 0 u) by (rewrite list.Forall_forall in Hd; apply (Hd (u, vs1)); by eapply elem_of_list_lookup_2).
  destruct (turn_user u (w_graph w) vs1 Hdu) as [[-> Hp]|(k & g' & u' & vs' & Hp & Hturn & Hs & Hd')].
  - left. rewrite Hp. split; [done|]. right. exists vs1. by rewrite Hth, list_lookup_fmap, Hu.
  - right. rewrite Hp, Hm. eexists. split; [reflexivity|]. split.
    + exists i, 0, (w_turns w), us, k, vs1, (w_graph w), us. do 4 (split; [done|]). split; [done|].
      split; [cbn; by rewrite Hth|]. split; [by eapply lookup_lt_Some|].
      exists u', vs', g'. split; [|done]. cbn [turns]. by rewrite Hu, Hturn.
    + intros (f & j & vs2 & Ha). rewrite Hth, list_lookup_fmap, Hu in Ha. unfold uthread in Ha. cbn in Ha. rewrite Hp in Ha. done.
Qed.

Lemma busy_step g0 us0 w i : busy g0 us0 w -> exists j n, w_mutex w = Some (j, n) /\
  ((i <> j /\ (wstep i w = Ended \/ wstep i w = Waits) /\ ~ accessing w i) \/
   (i = j /\ exists w', wstep i w = Went w' /\ (busy g0 us0 w' \/ quiet g0 us0 w'))).
Proof.
  intros (j & n & order & us & p & vs & g1 & us1 & Hm & Hto & Ht & Hd & _ & Hth & Hlt & u' & vs' & g' & Hturn & Hd' & Hs).
  exists j, (S n). split; [done|]. destruct (decide (i = j)) as [->|Hne].
  - right. split; [done|]. assert (Hi : w_threads w !! j = Some (p, vs)).
    { rewrite Hth. apply list_lookup_insert. by rewrite fmap_length. }
    unfold wstep. rewrite Hi. destruct p as [|f k|k|k|v k]; cbn [section] in Hs; [done| | | |].
    + destruct (f (w_graph w)) as [g2 v]. eexists. split; [reflexivity|]. left.
      exists j, n, order, us, (k v), vs, g1, us. split; [exact Hm|]. do 3 (split; [done|]). split; [done|].
      split; [cbn; by rewrite Hth, list_insert_insert|]. split; [done|]. by exists u', vs', g'.
    + rewrite Hm, Nat.eqb_refl. eexists. split; [reflexivity|]. left.
      exists j, (S n), order, us, k, vs, g1, us. split; [done|]. do 3 (split; [done|]). split; [done|].
      split; [cbn; by rewrite Hth, list_insert_insert|]. split; [done|]. by exists u', vs', g'.
    + rewrite Hm, Nat.eqb_refl. eexists. split; [reflexivity|]. destruct n as [|n].
      * right. injection Hs as -> -> ->. split; [done|]. exists (<[j := (u', vs')]> us). split.
        -- cbn [w_turns w_graph]. rewrite Hto, turns_app, Ht. done.
        -- split; [cbn; by rewrite Hth, list_insert_insert, list_fmap_insert|]. apply Forall_insert; done.
      * left. exists j, n, order, us, k, vs, g1, us. split; [done|]. do 3 (split; [done|]). split; [done|].
        split; [cbn; by rewrite Hth, list_insert_insert|]. split; [done|]. by exists u', vs', g'.
    + eexists. split; [reflexivity|]. left. exists j, n, order, us, k, (vs ++ [v]), g1, us. split; [exact Hm|]. do 3 (split; [done|]).
      split; [done|]. split; [cbn; by rewrite Hth, list_insert_insert|]. split; [done|]. by exists u', vs', g'.
  - left. split; [done|]. assert (Hi : w_threads w !! i = uthread <$> us !! i).
    { rewrite Hth, list_lookup_insert_ne by done. by rewrite list_lookup_fmap. }
    destruct (us !! i) as [[u vs1]|] eqn:Hu.
    2:{ split; [left; unfold wstep; by rewrite Hi|]. intros (f & k & vs2 & Ha). by rewrite Hi in Ha. }
    assert (Hdu : disciplined 0 u) by (rewrite list.Forall_forall in Hd; apply (Hd (u, vs1)); by eapply elem_of_list_lookup_2).
    unfold uthread in Hi. cbn in Hi. destruct (turn_user u (w_graph w) vs1 Hdu) as [[-> Hp]|(k & ? & ? & ? & Hp & _)]; cbn in Hi; rewrite ?Hp in Hi.
    + split; [left; unfold wstep; by rewrite Hi|]. intros (f & k & vs2 & Ha). by rewrite Hi in Ha.
    + split; [right|].
      * unfold wstep. rewrite Hi, Hm. destruct (Nat.eqb_spec j i); [congruence|done].
      * intros (f & k2 & vs2 & Ha). by rewrite Hi in Ha.
Qed.

Definition inv (g0 : G) (us0 : list (user V)) (w : world G V) : Prop := quiet g0 us0 w \/ busy g0 us0 w.

Lemma inv_run g0 us0 sched w : inv g0 us0 w -> exists w', wrun sched w = Some w' /\ inv g0 us0 w'.
Proof.
  revert w. induction sched as [|i sched IH]; intros w Hi; [by exists w|]. cbn [wrun]. destruct Hi as [Hq|Hb].
  - destruct (quiet_step g0 us0 w i Hq) as [[-> _]|(w' & -> & Hb & _)]; apply IH; [by left|by right].
  - destruct (busy_step g0 us0 w i Hb) as (j & n & _ & [(_ & [-> | ->] & _)|(_ & w' & -> & H)]); apply IH; try (by right).
    destruct H; [by right|by left].
Qed.

Lemma inv_start g us sched w : Forall (disciplined 0) us -> wrun sched (world_start fn g us) = Some w -> inv g us w.
Proof.
  intros Hd Hr. destruct (inv_run g us sched (world_start fn g us)) as (w' & Hw & Hi); [left; by apply quiet_start|]. congruence.
Qed.

(** *** C57 *)
Lemma never_undefined g us sched : Forall (disciplined 0) us -> exists w, wrun sched (world_start fn g us) = Some w.
Proof.
  intros Hd. destruct (inv_run g us sched (world_start fn g us)) as (w' & Hw & Hi); [left; by apply quiet_start|]. by exists w'.
Qed.

Lemma serialisable g us sched w : Forall (disciplined 0) us -> wrun sched (world_start fn g us) = Some w -> w_mutex w = None ->
  exists us', turns fn (w_turns w) g ((fun u => (u, [])) <$> us) = Some (w_graph w, us') /\
    w_threads w = (fun x => (user_prog fn x.1, x.2)) <$> us'.
Proof.
  intros Hd Hr Hm. destruct (inv_start g us sched w Hd Hr) as [(_ & us' & Ht & Hth & _)|(i & n & ? & ? & ? & ? & ? & ? & Hm' & _)].
  - by exists us'.
  - congruence.
Qed.

Lemma owner_goes p i n vs w : w_mutex w = Some (i, S n) -> w_threads w !! i = Some (p, vs) ->
  is_Some (section (S n) p (w_graph w) vs) ->
  exists m w', wrun (replicate m i) w = Some w' /\ w_mutex w' = None /\ w_turns w' = w_turns w.
Proof.
  revert n vs w. induction p as [|f k IH|p IH|p IH|v p IH]; intros n vs w Hm Hi [x Hs]; cbn [section] in Hs.
  - done.
  - destruct (f (w_graph w)) as [g' v] eqn:Hf.
    destruct (IH v n vs (World g' (w_mutex w) (<[i := (k v, vs)]> (w_threads w)) (w_turns w))) as (m & w' & Hr & H1 & H2).
    + exact Hm.
    + cbn. apply list_lookup_insert. by eapply lookup_lt_Some.
    + by exists x.
    + exists (S m), w'. split; [|done]. cbn [replicate wrun]. unfold wstep. by rewrite Hi, Hf.
  - destruct (IH (S n) vs (World (w_graph w) (Some (i, S (S n))) (<[i := (p, vs)]> (w_threads w)) (w_turns w))) as (m & w' & Hr & H1 & H2).
    + done.
    + cbn. apply list_lookup_insert. by eapply lookup_lt_Some.
    + by exists x.
    + exists (S m), w'. split; [|done]. cbn [replicate wrun]. unfold wstep. by rewrite Hi, Hm, Nat.eqb_refl.
  - destruct n as [|n].
    + exists 1. eexists. cbn [replicate wrun]. unfold wstep. rewrite Hi, Hm, Nat.eqb_refl. done.
    + destruct (IH n vs (World (w_graph w) (Some (i, S n)) (<[i := (p, vs)]> (w_threads w)) (w_turns w))) as (m & w' & Hr & H1 & H2).
      * done.
      * cbn. apply list_lookup_insert. by eapply lookup_lt_Some.
      * by exists x.
      * exists (S m), w'. split; [|done]. cbn [replicate wrun]. unfold wstep. by rewrite Hi, Hm, Nat.eqb_refl.
  - destruct (IH n (vs ++ [v]) (World (w_graph w) (w_mutex w) (<[i := (p, vs ++ [v])]> (w_threads w)) (w_turns w))) as (m & w' & Hr & H1 & H2).
    + done.
    + cbn. apply list_lookup_insert. by eapply lookup_lt_Some.
    + by exists x.
    + exists (S m), w'. split; [|done]. cbn [replicate wrun]. unfold wstep. by rewrite Hi.
Qed.

Lemma owner_unlocks g us sched w i n : Forall (disciplined 0) us -> wrun sched (world_start fn g us) = Some w ->
  w_mutex w = Some (i, n) ->
  exists m w', wrun (replicate m i) w = Some w' /\ w_mutex w' = None /\ w_turns w' = w_turns w.
Proof.
  intros Hd Hr Hm. destruct (inv_start g us sched w Hd Hr) as [(Hm' & _)|Hb]; [congruence|].
  destruct Hb as (j & k & order & us2 & p & vs & g1 & us1 & Hm' & Hto & Ht & Hd2 & _ & Hth & Hlt & u' & vs' & g' & Hturn & Hd' & Hs).
  rewrite Hm in Hm'. injection Hm' as -> ->.
  eapply owner_goes; [exact Hm| |by eexists]. rewrite Hth. apply list_lookup_insert. by rewrite fmap_length.
Qed.

Lemma access_locked g us sched w i : Forall (disciplined 0) us -> wrun sched (world_start fn g us) = Some w ->
  accessing w i -> exists n, w_mutex w = Some (i, n).
Proof.
  intros Hd Hr Ha. destruct (inv_start g us sched w Hd Hr) as [Hq|Hb].
  - destruct (quiet_step g us w i Hq) as [[_ [H|[vs H]]]|(w' & _ & _ & Hn)]; [| |done]; destruct Ha as (f & k & vs2 & Ha); congruence.
  - destruct (busy_step g us w i Hb) as (j & n & Hm & [(_ & _ & Hn)|(-> & _)]); [done|]. by exists n.
Qed.

Lemma somebody_goes g us sched w i : Forall (disciplined 0) us -> wrun sched (world_start fn g us) = Some w ->
  i < length us -> ~ ended w i -> exists j, can_go w j.
Proof.
  intros Hd Hr Hlt He. destruct (inv_start g us sched w Hd Hr) as [Hq|Hb].
  - exists i. destruct (quiet_step g us w i Hq) as [[_ [H|H]]|(w' & H & _)]; [|done|by exists w'].
    exfalso. destruct Hq as (_ & us' & Ht & Hth & _).
    assert (Hlen : length us' = length us).
    { clear -Ht. revert Ht. generalize (w_turns w) as o. rewrite <- (fmap_length (fun u => (u, @nil V)) us).
      generalize ((fun u => (u, @nil V)) <$> us) as us1. revert g. intros g us1 o. revert g us1.
      induction o as [|i o IH]; intros g us1; cbn [turns]; [by intros [= _ ->]|].
      destruct (us1 !! i) as [[u vs]|]; [|done]. destruct (turn fn u g vs) as [[[g' u'] vs']|]; [|done].
      intros H%IH. by rewrite insert_length in H. }
    apply lookup_ge_None in H. rewrite Hth, fmap_length in H. lia.
  - destruct (busy_step g us w 0 Hb) as (j & n & Hm & _). destruct (busy_step g us w j Hb) as (j' & n' & Hm' & H).
    rewrite Hm in Hm'. injection Hm' as <- <-. destruct H as [(? & _)|(_ & w' & H & _)]; [done|]. exists j. by exists w'.
Qed.

(* At the end. *)
Lemma all_ended g us sched w : Forall (disciplined 0) us -> wrun sched (world_start fn g us) = Some w ->
  (forall i, i < length us -> ended w i) -> w_mutex w = None.
Proof.
  intros Hd Hr He. destruct (w_mutex w) as [[i n]|] eqn:Hm; [|done]. exfalso.
  destruct (inv_start g us sched w Hd Hr) as [(Hm' & _)|Hb]; [congruence|].
  destruct (busy_step g us w i Hb) as (j & n' & Hm' & H). rewrite Hm in Hm'. injection Hm' as <- <-.
  destruct H as [(? & _)|(_ & w' & H & _)]; [done|].
  destruct Hb as (j & k & order & us2 & p & vs & g1 & us1 & Hm' & Hto & Ht & Hd2 & _ & Hth & Hlt & _).
  rewrite Hm in Hm'. injection Hm' as <- ->.
  assert (Hlen : length us2 = length us).
  { clear -Ht. revert Ht. rewrite <- (fmap_length (fun u => (u, @nil V)) us).
    generalize ((fun u => (u, @nil V)) <$> us) as us1. revert g. induction order as [|i o IH]; intros g us1; cbn [turns]; [by intros [= _ ->]|].
    destruct (us1 !! i) as [[u vs]|]; [|done]. destruct (turn fn u g vs) as [[[g' u'] vs']|]; [|done].
    intros H%IH. by rewrite insert_length in H. }
  destruct (He i) as [vs2 He2]; [lia|]. unfold wstep in H. by rewrite He2 in H.
Qed.

(** *** C58: under lock() and unlock() *)
Lemma turns_cons i o g (us : list (user V * list V)) : turns fn (i :: o) g us =
  match turns fn [i] g us with Some (g', us') => turns fn o g' us' | None => None end.
Proof. exact (turns_app [i] o g us). Qed.

Lemma turns_others o g (us : list (user V * list V)) g' us' i : turns fn o g us = Some (g', us') -> i ∉ o -> us' !! i = us !! i.
Proof.
  revert g us. induction o as [|j o IH]; intros g us Ht Hn; cbn [turns] in Ht; [by injection Ht as <- <-|].
  apply not_elem_of_cons in Hn as [Hne Hn]. destruct (us !! j) as [[u vs]|]; [|done].
  destruct (turn fn u g vs) as [[[g1 u1] vs1]|]; [|done]. rewrite (IH _ _ Ht Hn). by rewrite list_lookup_insert_ne.
Qed.

Lemma locked_call_value g us sched w i c vs : Forall (disciplined 0) us -> wrun sched (world_start fn g us) = Some w ->
  us !! i = Some (ULock (UCall c (fun _ => UUnlock UEnd))) -> w_threads w !! i = Some (PDone, vs) -> w_mutex w = None ->
  exists o1 o2 g1 us1, w_turns w = o1 ++ i :: o2 /\ turns fn o1 g ((fun u => (u, [])) <$> us) = Some (g1, us1) /\
    vs = [snd (alone (fn c) g1)].
Proof.
  intros Hd Hr Hu Hi Hm. destruct (serialisable g us sched w Hd Hr Hm) as (us' & Ht & Hth).
  destruct (decide (i ∈ w_turns w)) as [Hin|Hout].
  2:{ exfalso. pose proof (turns_others _ _ _ _ _ i Ht Hout) as H. rewrite list_lookup_fmap, Hu in H. cbn in H.
      rewrite Hth, list_lookup_fmap, H in Hi. done. }
  apply list.elem_of_list_split_l in Hin as (o1 & o2 & Ho & Hn1). rewrite Ho in Ht. rewrite turns_app in Ht.
  destruct (turns fn o1 g _) as [[g1 us1]|] eqn:Ht1; [|done].
  exists o1, o2, g1, us1. split; [done|]. split; [done|].
  pose proof (turns_others _ _ _ _ _ i Ht1 Hn1) as H. rewrite list_lookup_fmap, Hu in H. cbn in H.
  cbn [turns] in Ht. rewrite H in Ht. cbn [turn until_unlocked] in Ht. destruct (alone (fn c) g1) as [g2 v]. cbn [snd].
  assert (Hn2 : i ∉ o2).
  { assert (H2 : <[i := (UEnd, [v])]> us1 !! i = Some (UEnd, [v])) by (apply list_lookup_insert; by eapply lookup_lt_Some).
    clear -Ht H2. cbn [app] in Ht. revert Ht H2. generalize (<[i := (UEnd, [v])]> us1) as us2. revert g2.
    induction o2 as [|j o2 IH]; intros g2 us2 Ht H2; [apply not_elem_of_nil|]. cbn [turns] in Ht.
    destruct (decide (j = i)) as [->|Hne]; [by rewrite H2 in Ht|]. apply not_elem_of_cons. split; [done|].
    destruct (us2 !! j) as [[u vs]|]; [|done]. destruct (turn fn u g2 vs) as [[[g3 u3] vs3]|]; [|done].
    eapply IH; [exact Ht|]. by rewrite list_lookup_insert_ne. }
  pose proof (turns_others _ _ _ _ _ i Ht Hn2) as H2. rewrite list_lookup_insert in H2 by (by eapply lookup_lt_Some).
  rewrite Hth, list_lookup_fmap, H2 in Hi. cbn in Hi. by injection Hi as <-.
Qed.
End threads.

(** ** containsEdge *)
Section edge.
Context {D E : Type} (d0 : D) (einv : E -> E).
Implicit Types s : gst D E.

(* The accesses together are what the function does. *)
Lemma contains_edge_alone s o t : alone (small_graph d0 (WContainsEdge o t)) s = (s, CBool (contains_edge s o t)).
Proof.
  cbn. unfold contains_edge. destruct (get_vertex s o) as [vo|x| |]; cbn; try done.
  destruct (get_vertex s t) as [vt|x| |]; cbn; done.
Qed.

Lemma contains_edge_race s a b s' ev : dg_wf einv (gs_dg s) -> contains_frame s a = true -> contains_frame s b = true ->
  remove_frame a s = (s', ev, Ret tt) ->
  let us := [UCall (WContainsEdge a b) (fun _ => UEnd); UCall (WRemoveFrame a) (fun _ => UEnd)] in
  (exists w, wrun [0; 0; 1] (world_start (small_graph d0) s us) = Some w /\ accessing w 0 /\ accessing w 1) /\
  (exists w, wrun [0; 0; 1; 1; 1; 1; 0; 0] (world_start (small_graph d0) s us) = Some w /\
    w_threads w = [(PDone, [CBool UB]); (PDone, [CUnit (Ret tt)])] /\ w_graph w = s').
Proof.
  intros Hwf Ha Hb Hrem us.
  assert (Hv : forall f, contains_frame s f = true -> exists v, dg_map (gs_dg s) !! f = Some v /\ get_vertex s f = Ret v).
  { intros f Hf. destruct (get_vertex_cases einv s f Hwf) as [(v & Hm & Hg)|[Hm Hg]]; [by exists v|].
    unfold contains_frame, bg_vertex in Hf. destruct (dg_map (gs_dg s) !! f); done. }
  destruct (Hv a Ha) as (va & Hma & Hga). destruct (Hv b Hb) as (vb & Hmb & Hgb).
  assert (Hdead : contains_edge_v s' va vb = UB).
  { rewrite (remove_frame_eq einv a va) in Hrem by done. case_bool_decide; [done|]. injection Hrem as <- _.
    unfold contains_edge_v, find_edge. cbn [gs_set_dg gs_dg].
    destruct (bg_alive (bg_remove_vertex va a (gs_dg s)) va) eqn:Hal; [|done].
    apply bg_alive_iff in Hal. cbn in Hal. apply elem_of_list_fmap in Hal as (r & Heq & [Hne _]%elem_of_list_filter). congruence. }
  split.
  - eexists. unfold us, world_start. cbn -[remove_frame get_vertex contains_edge_v]. rewrite Hga. cbn -[remove_frame get_vertex contains_edge_v]. rewrite Hgb. cbn -[remove_frame get_vertex contains_edge_v]. split; [reflexivity|].
    split; by eexists _, _, _.
  - eexists. unfold us, world_start. cbn -[remove_frame get_vertex contains_edge_v]. rewrite Hga. cbn -[remove_frame get_vertex contains_edge_v]. rewrite Hgb. cbn -[remove_frame get_vertex contains_edge_v]. rewrite Hrem. cbn -[remove_frame get_vertex contains_edge_v]. rewrite Hdead. cbn -[remove_frame get_vertex contains_edge_v].
    split; [reflexivity|]. done.
Qed.
End edge.

(** ** EnvireManager *)
Lemma get_instance_alone name m : alone (get_instance_body name) m = get_instance name m.
Proof.
  cbn. unfold get_instance. destruct (mg_graphs m !! name) as [[g|]|] eqn:Hm; cbn.
  - by rewrite Hm.
  - by rewrite Hm.
  - by rewrite lookup_insert.
Qed.

Lemma get_instance_race name m : mg_graphs m !! name = None ->
  exists w, wrun [0; 1; 0; 1; 0; 1] (World m None [(instances_prog [name], []); (instances_prog [name], [])] []) = Some w /\
    w_threads w = [(PDone, [Some (mg_next m)]); (PDone, [Some (S (mg_next m))])].
Proof.
  intros Hm. eexists. cbn. rewrite Hm. cbn. rewrite lookup_insert. cbn. split; [reflexivity|]. done.
Qed.

Section manager.
Context (m0 : manager).

(* Instances that are there stay. *)
Definition keeps (m : manager) : Prop := forall n g, mg_graphs m0 !! n = Some (Some g) -> mg_graphs m !! n = Some (Some g).
Definition right_value (n : string) (v : option nat) : Prop := forall g, mg_graphs m0 !! n = Some (Some g) -> v = Some g.
Definition fresh_name (n : string) : Prop := forall g, mg_graphs m0 !! n <> Some (Some g).

Inductive phase : prog manager (option nat) -> list string -> Prop :=
| PhCall ns : phase (instances_prog ns) ns
| PhCreate n ns : fresh_name n ->
    phase (PMicro (fun m => (Manager (<[n := Some (mg_next m)]> (mg_graphs m)) (S (mg_next m)), Some (mg_next m)))
            (fun v => PLog v (instances_prog ns))) (n :: ns)
| PhLog n v ns : right_value n v -> phase (PLog v (instances_prog ns)) (n :: ns).

Definition thread_inv (ns : list string) (t : prog manager (option nat) * list (option nat)) : Prop :=
  exists n1 n2, ns = n1 ++ n2 /\ phase t.1 n2 /\ Forall2 right_value n1 t.2.

Lemma manager_step nss (w w' : world manager (option nat)) i : keeps (w_graph w) -> Forall2 thread_inv nss (w_threads w) ->
  wstep i w = Went w' -> keeps (w_graph w') /\ Forall2 thread_inv nss (w_threads w').
Proof.
  intros Hk Ht Hs. unfold wstep in Hs. destruct (w_threads w !! i) as [[p vs]|] eqn:Hi; [|done].
  destruct (Forall2_lookup_r _ _ _ _ _ Ht Hi) as (ns & Hns & n1 & n2 & -> & Hp & Hv). cbn in Hp, Hv.
  assert (Hput : forall p' vs', thread_inv (n1 ++ n2) (p', vs') -> Forall2 thread_inv nss (<[i := (p', vs')]> (w_threads w))).
  { intros p' vs' Hinv. rewrite <- (list_insert_id nss i (n1 ++ n2)) by done. by apply Forall2_insert. }
  inversion Hp as [ns Hp1 Hn2|n ns Hf Hp1 Hn2|n v ns Hr Hp1 Hn2]; subst p; [|subst n2..].
  - destruct n2 as [|n n2]; subst ns; cbn in Hs; [done|].
    destruct (mg_graphs (w_graph w) !! n) as [x|] eqn:Hx; injection Hs as <-; cbn.
    + split; [done|]. apply Hput. exists n1, (n :: n2). split; [done|]. split; [|done]. cbn. destruct x as [g|].
      * apply PhLog. intros g' Hg'. apply Hk in Hg'. congruence.
      * apply PhCreate. intros g' Hg'. apply Hk in Hg'. congruence.
    + split.
      * intros n' g' Hg'. cbn. apply Hk in Hg'. rewrite lookup_insert_ne; [done|]. intros ->. congruence.
      * apply Hput. exists n1, (n :: n2). split; [done|]. split; [|done]. apply PhCreate. intros g' Hg'. apply Hk in Hg'. congruence.
  - cbn in Hs. injection Hs as <-. cbn. split.
    + intros n' g' Hg'. cbn. rewrite lookup_insert_ne; [by apply Hk|]. intros ->. by destruct (Hf g').
    + apply Hput. exists n1, (n :: ns). split; [done|]. split; [|done]. apply PhLog. intros g' Hg'. by destruct (Hf g').
  - cbn in Hs. injection Hs as <-. cbn. split; [done|]. apply Hput. exists (n1 ++ [n]), ns. split; [by rewrite <- app_assoc|].
    split; [constructor|]. cbn. apply Forall2_app; [done|]. by constructor.
Qed.

Lemma manager_run nss sched (w w' : world manager (option nat)) : keeps (w_graph w) -> Forall2 thread_inv nss (w_threads w) ->
  wrun sched w = Some w' -> Forall2 thread_inv nss (w_threads w').
Proof.
  revert w. induction sched as [|i sched IH]; intros w Hk Ht; cbn [wrun]; [by intros [= <-]|].
  destruct (wstep i w) as [w1| | |] eqn:Hs; [|by apply IH|by apply IH|done].
  destruct (manager_step nss w w1 i Hk Ht Hs) as [Hk1 Ht1]. by apply IH.
Qed.

Lemma created_before nss sched w i k ns p vs n g v :
  wrun sched (World m0 None ((fun ns => (instances_prog ns, [])) <$> nss) []) = Some w ->
  nss !! i = Some ns -> w_threads w !! i = Some (p, vs) ->
  ns !! k = Some n -> vs !! k = Some v -> mg_graphs m0 !! n = Some (Some g) -> v = Some g.
Proof.
  intros Hr Hi Hp Hk Hv Hg.
  assert (Hall : Forall2 thread_inv nss (w_threads w)).
  { eapply manager_run; [| |exact Hr]; [by intros ???|]. cbn. apply Forall2_fmap_r, Forall_Forall2_diag, list.Forall_forall.
    intros x _. exists [], x. split; [done|]. split; constructor. }
  destruct (Forall2_lookup_lr _ _ _ _ _ _ Hall Hi Hp) as (n1 & n2 & -> & _ & Hvs). cbn in Hvs.
  rewrite lookup_app_l in Hk by (rewrite (Forall2_length _ _ _ Hvs); by eapply lookup_lt_Some).
  by apply (Forall2_lookup_lr _ _ _ _ _ _ Hvs Hk Hv).
Qed.
End manager.
