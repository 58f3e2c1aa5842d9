(** Saving and loading items (C50, C51, C71). *)
From stdpp Require Import prelude strings gmap.
From Verif Require Import ItemClass Outcome ListLib SerialModel SpecSerial.

Section serial.
Context {P O S A I : Type} (e : env P O S A I) (cls : I -> iclass).
Local Notation ity := (ity cls).
Local Notation grows := (grows e).
Local Notation registered := (registered e).
Implicit Types (p q : P) (is : list I) (l : list (iclass * list I)).

Lemma grows_refl p : grows p p.
Proof. done. Qed.
Lemma grows_trans p1 p2 p3 : grows p1 p2 -> grows p2 p3 -> grows p1 p3.
Proof. intros [H1 H2] [H3 H4]. split; auto. Qed.
Lemma grows_registered p p' T : grows p p' -> registered p T -> registered p' T.
Proof. intros [H1 H2] (c & ? & ?). exists c. auto. Qed.

Section lib.
Hypothesis Hlib : libraries_add e.

Lemma is_serializable_spec p T p' b : is_serializable e p T = (p', b) ->
  grows p p' /\ (b = true -> registered p' T) /\ (registered p T -> p' = p /\ b = true).
Proof.
  destruct Hlib as [Hall Hone]. unfold is_serializable. destruct (class_name e p T) as [c|] eqn:Hc.
  - rewrite Hc. destruct (has_handle e p c) eqn:Hh.
    { intros [= <- <-]. split; [done|]. split; [|done]. intros _. by exists c. }
    pose proof (Hone p c) as Hg. destruct (load_lib e p c) as [p2 ok]. cbn in Hg. destruct ok.
    + intros [= <- <-]. split; [done|]. split.
      * intros Hh2. exists c. split; [by apply Hg|done].
      * intros (c' & Hc' & ?). congruence.
    + intros [= <- <-]. split; [done|]. split; [done|]. intros (c' & Hc' & ?). congruence.
  - pose proof (Hall p) as Hga. destruct (class_name e (load_all e p) T) as [c|] eqn:Hc1.
    2:{ intros [= <- <-]. split; [done|]. split; [done|]. intros (c' & Hc' & ?). congruence. }
    destruct (has_handle e (load_all e p) c) eqn:Hh.
    { intros [= <- <-]. split; [done|]. split; [intros _; by exists c|]. intros (c' & Hc' & ?). congruence. }
    pose proof (Hone (load_all e p) c) as Hg. destruct (load_lib e (load_all e p) c) as [p2 ok]. cbn in Hg.
    assert (Hg2 : grows p p2) by by eapply grows_trans.
    destruct ok; intros [= <- <-]; (split; [done|]); (split; [|intros (c' & Hc' & ?); congruence]); [|done].
    intros Hh2. exists c. split; [by apply Hg|done].
Qed.

(* A save that succeeds wrote a header and an item. *)
Lemma ser_save_inv p o i p' o' w r : ser_save e cls p o i = (p', o', w, r) ->
  grows p p' /\ (r = Ret true -> exists c o1 w1 w2, class_name e p' (ity i) = Some c /\ has_handle e p' c = true /\
    enc_header e o c = (o1, w1) /\ enc_item e o1 c i = WGot o' w2 /\ w = w1 ++ w2).
Proof.
  unfold ser_save. destruct (is_serializable e p (ity i)) as [p1 b] eqn:Hs.
  destruct (is_serializable_spec _ _ _ _ Hs) as (Hg & Hb & _).
  destruct b; [|by intros [= <- <- <- <-]].
  destruct (class_name e p1 (ity i)) as [c|] eqn:Hc; [|by intros [= <- <- <- <-]].
  destruct (has_handle e p1 c) eqn:Hh; [|by intros [= <- <- <- <-]].
  destruct (enc_header e o c) as [o1 w1] eqn:He.
  destruct (enc_item e o1 c i) as [o2 w2|o2 w2|] eqn:Hi; intros [= <- <- <- <-]; (split; [done|]); intros ?; [|done..].
  exists c, o1, w1, w2. done.
Qed.

Lemma ser_save_ok p o i : handles_work e -> registered p (ity i) ->
  exists o' w, ser_save e cls p o i = (p, o', w, Ret true).
Proof.
  intros Hw Hr. unfold ser_save. destruct (is_serializable e p (ity i)) as [p1 b] eqn:Hs.
  destruct (is_serializable_spec _ _ _ _ Hs) as (_ & _ & H). destruct (H Hr) as [-> ->].
  destruct Hr as (c & -> & ->). destruct (enc_header e o c) as [o1 w1]. destruct (Hw o1 c i) as (o2 & w2 & ->). by eexists _, _.
Qed.

Lemma serializable_iff_saved p o i : handles_work e ->
  exists o' w, ser_save e cls p o i = (fst (is_serializable e p (ity i)), o', w, Ret (snd (is_serializable e p (ity i)))) /\
    (snd (is_serializable e p (ity i)) = false -> o' = o /\ w = []).
Proof.
  intros Hw. unfold ser_save. destruct (is_serializable e p (ity i)) as [p1 b] eqn:Hs.
  destruct (is_serializable_spec _ _ _ _ Hs) as (_ & Hb & _). destruct b; cbn [fst snd]; [|by eexists _, _].
  destruct (Hb eq_refl) as (c & -> & ->). destruct (enc_header e o c) as [o1 w1]. destruct (Hw o1 c i) as (o2 & w2 & ->).
  by eexists _, _.
Qed.

Section trip.
Context (sync : O -> S -> Prop) (lim : nat).
Hypothesis Hrt : round_trips e sync lim.

Lemma ser_trip p o i p' o' w s q rest : ser_save e cls p o i = (p', o', w, Ret true) -> sync o s ->
  (forall c, class_name e p' (ity i) = Some c -> has_handle e p' c = true -> has_handle e q c = true) ->
  exists s', ser_load e q s (w ++ rest) = (q, s', rest, Ret (Some i)) /\ sync o' s'.
Proof.
  intros Hs Hsync Hq. destruct (ser_save_inv _ _ _ _ _ _ _ Hs) as [_ H].
  destruct (H eq_refl) as (c & o1 & w1 & w2 & Hc & Hh & He & Hi & ->).
  rewrite <- app_assoc. destruct (rt_header _ _ _ Hrt _ _ _ _ _ (w2 ++ rest) Hsync He) as (s1 & Hd & Hs1).
  destruct (rt_item _ _ _ Hrt _ _ _ _ _ _ rest Hs1 Hi) as (s2 & Hd2 & Hs2).
  exists s2. split; [|done]. unfold ser_load. rewrite Hd, (Hq c Hc Hh), Hd2. done.
Qed.

(* Without a handle the item stays in the archive. *)
Lemma payload_left p o i p' o' w s q rest : ser_save e cls p o i = (p', o', w, Ret true) -> sync o s ->
  (forall c, class_name e p' (ity i) = Some c -> has_handle e q c = false /\ snd (load_lib e q c) = false) ->
  exists q' s' c o1 w1 w2, enc_header e o c = (o1, w1) /\ enc_item e o1 c i = WGot o' w2 /\ w = w1 ++ w2 /\
    ser_load e q s (w ++ rest) = (q', s', w2 ++ rest, Ret None).
Proof.
  intros Hs Hsync Hq. destruct (ser_save_inv _ _ _ _ _ _ _ Hs) as [_ H].
  destruct (H eq_refl) as (c & o1 & w1 & w2 & Hc & Hh & He & Hi & ->).
  destruct (rt_header _ _ _ Hrt _ _ _ _ _ (w2 ++ rest) Hsync He) as (s1 & Hd & Hs1).
  destruct (Hq c Hc) as [Hn Hl]. exists (fst (load_lib e q c)), s1, c, o1, w1, w2. do 3 (split; [done|]).
  unfold ser_load. rewrite <- app_assoc, Hd, Hn. destruct (load_lib e q c) as [q1 ok]. cbn in Hl. subst ok. done.
Qed.

Lemma save_list_grows p o is p' o' w r : save_list e cls p o is = (p', o', w, r) -> grows p p'.
Proof.
  revert p o w. induction is as [|i is IH]; intros p o w; cbn [save_list]; [by intros [= <- <- <- <-]|].
  destruct (ser_save e cls p o i) as [[[p1 o1] w1] r1] eqn:Hs. destruct (ser_save_inv _ _ _ _ _ _ _ Hs) as [Hg _].
  destruct r1 as [[]|x| |]; try by intros [= <- <- <- <-].
  destruct (save_list e cls p1 o1 is) as [[[p2 o2] w2] r2] eqn:Hl. intros [= <- <- <- <-].
  eapply grows_trans; [done|]. by eapply IH.
Qed.

Lemma list_trip p o is p' o' w s q rest : save_list e cls p o is = (p', o', w, Ret tt) -> sync o s ->
  (forall i c, i ∈ is -> class_name e p' (ity i) = Some c -> has_handle e p' c = true -> has_handle e q c = true) ->
  exists s', load_list e (length is) q s (w ++ rest) = (q, s', rest, Ret is) /\ sync o' s'.
Proof.
  revert p o w s. induction is as [|i is IH]; intros p o w s Hs Hsync Hq; cbn [save_list] in Hs.
  { injection Hs as <- <- <-. by exists s. }
  destruct (ser_save e cls p o i) as [[[p1 o1] w1] r1] eqn:Hs1. destruct r1 as [[]|x| |]; try done.
  destruct (save_list e cls p1 o1 is) as [[[p2 o2] w2] r2] eqn:Hl. injection Hs as <- <- <- ->.
  pose proof (save_list_grows _ _ _ _ _ _ _ Hl) as Hg.
  destruct (ser_trip _ _ _ _ _ _ s q (w2 ++ rest) Hs1 Hsync) as (s1 & Hload & Hsync1).
  { intros c Hc Hh. apply (Hq i c); [left|by apply Hg..]. }
  destruct (IH p1 o1 w2 s1 Hl Hsync1) as (s2 & Hload2 & Hsync2); [intros j c Hj; apply Hq; by right|].
  exists s2. split; [|done]. cbn [length load_list]. rewrite <- app_assoc, Hload, Hload2. done.
Qed.

Lemma save_list_ok p o is : handles_work e -> (forall i, i ∈ is -> registered p (ity i)) ->
  exists o' w, save_list e cls p o is = (p, o', w, Ret tt).
Proof.
  intros Hw. revert o. induction is as [|i is IH]; intros o Hr; [by eexists _, _|]. cbn [save_list].
  destruct (ser_save_ok p o i Hw) as (o1 & w1 & ->); [apply Hr; by left|].
  destruct (IH o1) as (o2 & w2 & ->); [intros j Hj; apply Hr; by right|]. by eexists _, _.
Qed.

(* The lists that were marked, with the marks made in the first loop. *)
Lemma mark_lists_spec p l p' ms : mark_lists e cls p l = (p', ms) ->
  grows p p' /\ ms.*1 = l.*2 /\
  forall is b, (is, b) ∈ ms -> b = true -> exists i is', is = i :: is' /\ registered p' (ity i).
Proof.
  revert p ms. induction l as [|[T is] l IH]; intros p ms; cbn [mark_lists].
  { intros [= <- <-]. split; [done|]. split; [done|]. intros ?? []%elem_of_nil. }
  destruct is as [|i is].
  - destruct (mark_lists e cls p l) as [p2 r] eqn:Hm. intros [= <- <-]. destruct (IH _ _ Hm) as (Hg & Heq & Hr).
    split; [done|]. split; [cbn; by rewrite Heq|]. intros is b [[= -> ->]|Hin]%elem_of_cons; [done|]. by apply Hr.
  - destruct (is_serializable e p (ity i)) as [p1 b] eqn:Hs. destruct (is_serializable_spec _ _ _ _ Hs) as (Hg1 & Hb & _).
    destruct (mark_lists e cls p1 l) as [p2 r] eqn:Hm. intros [= <- <-]. destruct (IH _ _ Hm) as (Hg & Heq & Hr).
    split; [by eapply grows_trans|]. split; [cbn; by rewrite Heq|].
    intros is' b' [[= -> ->]|Hin]%elem_of_cons; [|by apply Hr]. intros ->. exists i, is. split; [done|].
    eapply grows_registered; [done|]. by apply Hb.
Qed.

Lemma mark_lists_registered p l p' ms T i is : mark_lists e cls p l = (p', ms) -> (T, i :: is) ∈ l -> registered p (ity i) ->
  (i :: is, true) ∈ ms.
Proof.
  revert p ms. induction l as [|[T' is'] l IH]; intros p ms; cbn [mark_lists]; [by intros _ ?%elem_of_nil|].
  destruct is' as [|j is'].
  - destruct (mark_lists e cls p l) as [p2 r] eqn:Hm. intros [= <- <-] [?|Hin]%elem_of_cons Hr; [done|].
    right. by eapply IH.
  - destruct (is_serializable e p (ity j)) as [p1 b] eqn:Hs. destruct (is_serializable_spec _ _ _ _ Hs) as (Hg1 & _ & Hb).
    destruct (mark_lists e cls p1 l) as [p2 r] eqn:Hm. intros [= <- <-] [[= -> -> ->]|Hin]%elem_of_cons Hr.
    + destruct (Hb Hr) as [_ ->]. left.
    + right. eapply IH; [done|done|]. by eapply grows_registered.
Qed.

(* The lists to be saved. *)
Definition marked (ms : list (list I * bool)) : list (list I) := (filter (fun m => m.2 = true) ms).*1.

Lemma marked_cons is b ms : marked ((is, b) :: ms) = if b then is :: marked ms else marked ms.
Proof. unfold marked. rewrite filter_cons. destruct b; [by rewrite decide_True|by rewrite decide_False]. Qed.
Lemma elem_of_marked is ms : is ∈ marked ms <-> (is, true) ∈ ms.
Proof.
  unfold marked. rewrite elem_of_list_fmap. split.
  - intros ([? []] & -> & [? ?]%elem_of_list_filter); done.
  - intros H. exists (is, true). split; [done|]. apply elem_of_list_filter. done.
Qed.

Lemma save_lists_grows v p o ms p' o' w r : save_lists e cls v p o ms = (p', o', w, r) -> grows p p'.
Proof.
  revert p o w. induction ms as [|[is b] ms IH]; intros p o w; cbn [save_lists]; [by intros [= <- <- <- <-]|].
  destruct b; [|apply IH]. destruct (save_list e cls p o is) as [[[p1 o1] w1] r1] eqn:Hs.
  pose proof (save_list_grows _ _ _ _ _ _ _ Hs) as Hg. destruct r1 as [[]|x| |]; try by intros [= <- <- <- <-].
  destruct (save_lists e cls v p1 o1 ms) as [[[p2 o2] w2] r2] eqn:Hl. intros [= <- <- <- <-].
  eapply grows_trans; [done|]. by eapply IH.
Qed.

Lemma lists_trip v p o ms p' o' w s q rest m k : save_lists e cls v p o ms = (p', o', w, Ret tt) -> sync o s ->
  (forall is i c, is ∈ marked ms -> i ∈ is ->
     class_name e p' (ity i) = Some c -> has_handle e p' c = true -> has_handle e q c = true) ->
  (forall is, is ∈ marked ms -> length is <= lim) ->
  exists s', load_lists e cls v (length (marked ms) + k) q s (w ++ rest) m =
    load_lists e cls v k q s' rest (foldl (fun m is => insert_list cls is m) m (marked ms)) /\ sync o' s'.
Proof.
  revert p o w s m. induction ms as [|[is b] ms IH]; intros p o w s m Hs Hsync Hq Hlim; cbn [save_lists] in Hs.
  { injection Hs as <- <- <-. by exists s. }
  rewrite marked_cons in *. destruct b.
  - destruct (save_list e cls p o is) as [[[p1 o1] w1] r1] eqn:Hs1. destruct r1 as [[]|x| |]; try done.
    destruct (save_lists e cls v p1 o1 ms) as [[[p2 o2] w2] r2] eqn:Hl. injection Hs as <- <- <- ->.
    pose proof (save_lists_grows _ _ _ _ _ _ _ _ Hl) as Hg.
    destruct (list_trip _ _ _ _ _ _ s q (w2 ++ rest) Hs1 Hsync) as (s1 & Hload & Hsync1).
    { intros i c Hi Hc Hh. apply (Hq is i c); [left|done|by apply Hg..]. }
    destruct (IH p1 o1 w2 s1 (insert_list cls is m) Hl Hsync1) as (s2 & Hload2 & Hsync2).
    { intros is' i c H. apply Hq. by right. }
    { intros is' H. apply Hlim. by right. }
    exists s2. split; [|done]. cbn [length Nat.add load_lists foldl].
    rewrite <- !app_assoc, (rt_size _ _ _ Hrt) by (apply Hlim; left). rewrite Hload. exact Hload2.
  - by eapply IH.
Qed.

(* Inserting lists of different types. *)
Lemma insert_lists_lookup (ls : list (list I)) m T :
  (forall is, is ∈ ls -> exists i is', is = i :: is') -> NoDup ((fun is => ity <$> head is) <$> ls) ->
  (forall is i, is ∈ ls -> head is = Some i -> m !! ity i = None) ->
  foldl (fun m is => insert_list cls is m) m ls !! T =
  match list_find (fun is => ity <$> head is = Some T) ls with Some (_, is) => Some is | None => m !! T end.
Proof.
  revert m. induction ls as [|is ls IH]; intros m Hne Hnd Hm; [done|].
  cbn in Hnd. apply list.NoDup_cons in Hnd as [Hni Hnd].
  destruct (Hne is (elem_of_list_here _ _)) as (i & is' & ->). cbn [foldl insert_list].
  rewrite (Hm (i :: is') i (elem_of_list_here _ _) eq_refl). rewrite IH.
  - cbn [list_find head fmap option_fmap option_map].
    assert (Hnone : ity i = T -> list_find (fun is => ity <$> head is = Some T) ls = None).
    { intros <-. apply list_find_None, list.Forall_forall. intros is Hin Heq. apply Hni.
      apply elem_of_list_fmap. exists is. cbn. by rewrite Heq. }
    destruct (decide (Some (ity i) = Some T)) as [Heq|Hneq].
    + injection Heq as Heq. rewrite (Hnone Heq), <- Heq, lookup_insert. done.
    + destruct (list_find _ ls) as [[k is]|]; [done|]. cbn. rewrite lookup_insert_ne; [done|congruence].
  - intros is H. apply Hne. by right.
  - done.
  - intros is j Hin Hj. rewrite lookup_insert_ne; [apply (Hm is); [by right|done]|].
    intros Heq. apply Hni. apply elem_of_list_fmap. exists is. cbn. rewrite Hj. cbn. by rewrite Heq.
Qed.

Lemma marked_sublist l (ms : list (list I * bool)) : ms.*1 = l.*2 ->
  (forall T is i, (T, is) ∈ l -> head is = Some i -> ity i = T) ->
  (forall is, (is, true) ∈ ms -> exists i is', is = i :: is') ->
  sublist ((fun is => ity <$> head is) <$> marked ms) (Some <$> l.*1).
Proof.
  revert l. induction ms as [|[is b] ms IH]; intros [|[T is0] l]; cbn [fmap list_fmap fst snd]; intros Heq Hty Hne; try done.
  injection Heq as -> Heq. rewrite marked_cons.
  assert (IHl : sublist ((fun is => ity <$> head is) <$> marked ms) (Some <$> l.*1)).
  { apply IH; [done| |].
    - intros T' is' i' H. apply Hty. by right.
    - intros is' H. apply Hne. by right. }
  destruct b; [|by apply sublist_cons].
  destruct (Hne is0 (elem_of_list_here _ _)) as (i & is' & ->). cbn [fmap list_fmap head option_fmap option_map].
  rewrite (Hty T (i :: is') i (elem_of_list_here _ _) eq_refl). by apply sublist_skip.
Qed.

Lemma sublist_NoDup {B} (l k : list B) : sublist l k -> NoDup k -> NoDup l.
Proof.
  induction 1 as [|x l k Hs IH|x l k Hs IH]; intros Hn; [done| |].
  - apply list.NoDup_cons in Hn as [Hx Hn]. apply list.NoDup_cons. split; [|by apply IH]. intros H. apply Hx.
    eapply elem_of_submseteq; [exact H|]. by apply sublist_submseteq.
  - apply list.NoDup_cons in Hn as [Hx Hn]. by apply IH.
Qed.

(* What the lists to be saved are. *)
Lemma marked_spec p l p' ms m : mark_lists e cls p l = (p', ms) -> l ≡ₚ map_to_list m -> typed cls m ->
  NoDup ((fun is => ity <$> head is) <$> marked ms) /\
  (forall is, is ∈ marked ms -> exists i is' , is = i :: is' /\ m !! ity i = Some is /\ registered p' (ity i)) /\
  (forall T is, m !! T = Some is -> is <> [] -> registered p T -> is ∈ marked ms).
Proof.
  intros Hm Hl Hty. destruct (mark_lists_spec _ _ _ _ Hm) as (Hg & Heq & Hr).
  assert (Hin : forall T is, (T, is) ∈ l <-> m !! T = Some is) by (intros T is; rewrite Hl; apply elem_of_map_to_list).
  assert (Hhead : forall T is i, (T, is) ∈ l -> head is = Some i -> ity i = T).
  { intros T is i H%Hin Hh. apply (Hty T is i H). destruct is; [done|]. injection Hh as ->. left. }
  assert (Hne : forall is, (is, true) ∈ ms -> exists i is', is = i :: is').
  { intros is H. destruct (Hr is true H eq_refl) as (i & is' & -> & _). by exists i, is'. }
  split; [|split].
  - eapply sublist_NoDup; [by eapply marked_sublist|]. apply NoDup_fmap_2; [apply _|]. rewrite Hl. apply NoDup_fst_map_to_list.
  - intros is H%elem_of_marked. destruct (Hr is true H eq_refl) as (i & is' & -> & Hreg). exists i, is'. split; [done|]. split; [|done].
    assert (H2 : i :: is' ∈ l.*2) by (rewrite <- Heq; apply elem_of_list_fmap; by exists (i :: is', true)).
    apply elem_of_list_fmap in H2 as ([T is] & Heq2 & H2). cbn in Heq2. subst is.
    rewrite (Hhead _ _ i H2 eq_refl). by apply Hin.
  - intros T is Hlook Hnn Hreg. apply elem_of_marked. destruct is as [|i is]; [done|].
    eapply mark_lists_registered; [done|by apply Hin|]. by rewrite (Hhead T (i :: is) i) by (done || by apply Hin).
Qed.

Lemma marked_length p l p' ms m : mark_lists e cls p l = (p', ms) -> l ≡ₚ map_to_list m -> length (marked ms) <= size m.
Proof.
  intros Hm Hl. destruct (mark_lists_spec _ _ _ _ Hm) as (_ & Heq & _). unfold marked. rewrite fmap_length.
  etrans; [apply filter_length|]. rewrite <- (fmap_length fst), Heq, fmap_length, Hl. done.
Qed.

Lemma loaded_lookup p l p' ms m T is : mark_lists e cls p l = (p', ms) -> l ≡ₚ map_to_list m -> typed cls m ->
  foldl (fun m is => insert_list cls is m) ∅ (marked ms) !! T = Some is <-> m !! T = Some is /\ is ∈ marked ms.
Proof.
  intros Hm Hl Hty. destruct (marked_spec _ _ _ _ _ Hm Hl Hty) as (Hnd & Hin & _).
  rewrite insert_lists_lookup; [|intros is' H; destruct (Hin is' H) as (i & is2 & -> & _); by exists i, is2|done|].
  2:{ intros ?? _ _. apply lookup_empty. }
  split.
  - destruct (list_find _ _) as [[k is']|] eqn:Hf; [|by rewrite lookup_empty]. intros [= ->].
    apply list_find_Some in Hf as (Hk & Hh & _). apply elem_of_list_lookup_2 in Hk. split; [|done].
    destruct (Hin is Hk) as (i & is' & -> & Hlook & _). cbn in Hh. injection Hh as <-. done.
  - intros [Hlook Hmk]. destruct (Hin is Hmk) as (i & is' & -> & Hlook2 & _).
    assert (HT : T = ity i) by (symmetry; apply (Hty T _ i Hlook); left). subst T.
    destruct (list_find _ _) as [[k is2]|] eqn:Hf.
    + apply list_find_Some in Hf as (Hk & Hh & _). apply elem_of_list_lookup_2 in Hk.
      destruct (Hin is2 Hk) as (j & is3 & -> & Hlook3 & _). cbn in Hh. injection Hh as Hij. rewrite Hij in Hlook3. congruence.
    + apply list_find_None in Hf. rewrite list.Forall_forall in Hf. by destruct (Hf _ Hmk).
Qed.

(** *** C50 *)
Lemma items_trip v p o l m p' o' w s q rest : typed cls m -> fits lim m -> l ≡ₚ map_to_list m ->
  save_items e cls v p o l = (p', o', w, Ret tt) -> sync o s ->
  (forall T is c, m !! T = Some is -> is <> [] -> class_name e p' T = Some c -> has_handle e p' c = true -> has_handle e q c = true) ->
  exists s' m', load_items e cls v q s (w ++ rest) = (q, s', rest, Ret m') /\ sync o' s' /\
    (forall T is, m' !! T = Some is -> m !! T = Some is /\ is <> [] /\ registered p' T) /\
    (forall T is, m !! T = Some is -> is <> [] -> registered p T -> m' !! T = Some is).
Proof.
  intros Hty [Hsz Hlen] Hl Hsave Hsync Hq. unfold save_items in Hsave.
  destruct (mark_lists e cls p l) as [p1 ms] eqn:Hm.
  destruct (save_lists e cls v p1 o ms) as [[[p2 o2] w2] r] eqn:Hs. injection Hsave as <- <- <- ->.
  destruct (marked_spec _ _ _ _ _ Hm Hl Hty) as (_ & Hin & Hreg).
  pose proof (save_lists_grows _ _ _ _ _ _ _ _ Hs) as Hg.
  destruct (lists_trip v p1 o ms p2 o2 w2 s q rest ∅ 0 Hs Hsync) as (s' & Hload & Hsync').
  { intros is i c Hmk Hi. destruct (Hin is Hmk) as (j & is' & -> & Hlook & _). apply (Hq (ity i) (j :: is') c); [|done].
    by rewrite (Hty _ _ i Hlook Hi : ity i = ity j). }
  { intros is H. destruct (Hin is H) as (i & is' & -> & Hlook & _). by eapply Hlen. }
  exists s', (foldl (fun m is => insert_list cls is m) ∅ (marked ms)). split; [|split; [done|split]].
  - unfold load_items. replace (length (filter _ ms)) with (length (marked ms)) by (unfold marked; by rewrite fmap_length).
    rewrite <- app_assoc, (rt_size _ _ _ Hrt) by (etrans; [by eapply marked_length|done]).
    rewrite Nat.add_0_r in Hload. rewrite Hload. done.
  - intros T is [Hlook Hmk]%(loaded_lookup p l p1 ms m T is Hm Hl Hty).
    destruct (Hin is Hmk) as (i & is' & -> & Hlook2 & Hr). assert (HT : ity i = T) by (apply (Hty T _ i Hlook); left).
    subst T. split; [done|]. split; [done|]. by eapply grows_registered.
  - intros T is Hlook Hne Hr. apply (loaded_lookup p l p1 ms m T is Hm Hl Hty). split; [done|]. by eapply Hreg.
Qed.

Lemma items_trip_exact v p o l m o' w s q rest : typed cls m -> fits lim m -> l ≡ₚ map_to_list m ->
  save_items e cls v p o l = (p, o', w, Ret tt) -> sync o s ->
  (forall T is c, m !! T = Some is -> is <> [] -> class_name e p T = Some c -> has_handle e p c = true -> has_handle e q c = true) ->
  exists s' m', load_items e cls v q s (w ++ rest) = (q, s', rest, Ret m') /\ sync o' s' /\
    (forall T is, m' !! T = Some is <-> m !! T = Some is /\ is <> [] /\ registered p T).
Proof.
  intros Hty Hfit Hl Hs Hsync Hq. destruct (items_trip v p o l m p o' w s q rest Hty Hfit Hl Hs Hsync Hq) as (s' & m' & H1 & H2 & H3 & H4).
  exists s', m'. split; [done|]. split; [done|]. intros T is. split; [apply H3|]. intros (? & ? & ?). by apply H4.
Qed.

(* Saving does not fail unless a handle does. *)
Lemma save_items_ok v p o l m : handles_work e -> typed cls m -> l ≡ₚ map_to_list m ->
  exists p' o' w, save_items e cls v p o l = (p', o', w, Ret tt).
Proof.
  intros Hw Hty Hl. unfold save_items. destruct (mark_lists e cls p l) as [p1 ms] eqn:Hm.
  destruct (marked_spec _ _ _ _ _ Hm Hl Hty) as (_ & Hin & _).
  assert (Hall : forall is, is ∈ marked ms -> forall i, i ∈ is -> registered p1 (ity i)).
  { intros is Hmk i Hi. destruct (Hin is Hmk) as (j & is' & -> & Hlook & Hr).
    assert (HT : ity i = ity j) by (apply (Hty _ _ i Hlook); done). by rewrite HT. }
  assert (H : exists o' w, save_lists e cls v p1 o ms = (p1, o', w, Ret tt)); [|destruct H as (o' & w & ->); by eexists _, _, _].
  clear -Hlib Hall Hw. revert o. induction ms as [|[is b] ms IH]; intros o; [by eexists _, _|]. cbn [save_lists].
  rewrite marked_cons in Hall. destruct b; [|by apply IH].
  destruct (save_list_ok p1 o is Hw) as (o1 & w1 & ->); [apply Hall; left|].
  destruct (IH (fun is' H => Hall is' (elem_of_list_further _ _ _ H)) o1) as (o2 & w2 & ->). by eexists _, _.
Qed.

(** *** C51 *)
Lemma mark_lists_app p l1 l2 : mark_lists e cls p (l1 ++ l2) =
  let '(p1, m1) := mark_lists e cls p l1 in let '(p2, m2) := mark_lists e cls p1 l2 in (p2, m1 ++ m2).
Proof.
  revert p. induction l1 as [|[T is] l1 IH]; intros p; cbn [mark_lists app]; [by destruct (mark_lists e cls p l2)|].
  destruct (match is with [] => (p, false) | i :: _ => is_serializable e p (ity i) end) as [p1 b]. rewrite IH.
  destruct (mark_lists e cls p1 l1) as [p2 m1]. destruct (mark_lists e cls p2 l2) as [p3 m2]. done.
Qed.
Lemma save_lists_app v p o m1 m2 : save_lists e cls v p o (m1 ++ m2) =
  let '(p1, o1, w1, r) := save_lists e cls v p o m1 in
  match r with
  | Ret _ => let '(p2, o2, w2, r2) := save_lists e cls v p1 o1 m2 in (p2, o2, w1 ++ w2, r2)
  | _ => (p1, o1, w1, r)
  end.
Proof.
  revert p o. induction m1 as [|[is b] m1 IH]; intros p o; cbn [save_lists app].
  { by destruct (save_lists e cls v p o m2) as [[[p2 o2] w2] r2]. }
  destruct b; [|apply IH]. destruct (save_list e cls p o is) as [[[p1 o1] w1] r1]. destruct r1 as [[]|x| |]; [|done..].
  rewrite IH. destruct (save_lists e cls v p1 o1 m1) as [[[p2 o2] w2] r2]. destruct r2 as [[]|x| |]; [|done..].
  destruct (save_lists e cls v p2 o2 m2) as [[[p3 o3] w3] r3]. by rewrite <- !app_assoc.
Qed.

(* The type without a handle comes last and has one item: everything else is loaded. *)
Lemma last_single_dropped v p o l m T i p' o' w s q rest : typed cls m -> fits lim m -> l ++ [(T, [i])] ≡ₚ map_to_list m ->
  save_items e cls v p o (l ++ [(T, [i])]) = (p', o', w, Ret tt) -> sync o s ->
  (forall T' is c, T' <> T -> m !! T' = Some is -> is <> [] -> class_name e p' T' = Some c -> has_handle e p' c = true ->
     has_handle e q c = true) ->
  (forall c, class_name e p' T = Some c -> has_handle e q c = false /\ snd (load_lib e q c) = false) ->
  exists q' s' rest' m', load_items e cls v q s (w ++ rest) = (q', s', rest', Ret m') /\ m' !! T = None /\
    (forall T' is, m' !! T' = Some is -> m !! T' = Some is /\ is <> [] /\ registered p' T') /\
    (forall T' is, T' <> T -> m !! T' = Some is -> is <> [] -> registered p T' -> m' !! T' = Some is).
Proof.
  intros Hty [Hsz Hlen] Hl Hsave Hsync Hq HqT.
  assert (HmT : m !! T = Some [i]).
  { apply elem_of_map_to_list. rewrite <- Hl. apply elem_of_app. right. left. }
  assert (HT : ity i = T) by (apply (Hty T _ i HmT); left).
  assert (Hl1 : l ≡ₚ map_to_list (delete T m)).
  { apply (Permutation_cons_inv (a := (T, [i]))). rewrite <- (map_to_list_insert _ _ _ (lookup_delete m T)).
    rewrite insert_delete by done. rewrite <- Hl. apply Permutation_cons_append. }
  assert (Hty1 : typed cls (delete T m)).
  { intros T' is j [_ H]%lookup_delete_Some. by apply Hty. }
  unfold save_items in Hsave. rewrite mark_lists_app in Hsave. cbn [mark_lists] in Hsave.
  destruct (mark_lists e cls p l) as [p1 ms] eqn:Hm. destruct (is_serializable e p1 (ity i)) as [p2 b] eqn:Hser.
  destruct (is_serializable_spec _ _ _ _ Hser) as (Hg1 & Hb & _). rewrite save_lists_app in Hsave.
  destruct (save_lists e cls v p2 o ms) as [[[p3 o3] w3] r3] eqn:Hs. pose proof (save_lists_grows _ _ _ _ _ _ _ _ Hs) as Hg2.
  destruct r3 as [[]|x| |]; [|done..].
  destruct (save_lists e cls v p3 o3 [([i], b)]) as [[[p4 o4] w4] r4] eqn:Hs4. injection Hsave as <- <- <- ->.
  pose proof (save_lists_grows _ _ _ _ _ _ _ _ Hs4) as Hg3.
  destruct (marked_spec _ _ _ _ _ Hm Hl1 Hty1) as (_ & Hin & Hreg).
  destruct (lists_trip v p2 o ms p3 o3 w3 s q (w4 ++ rest) ∅ (if b then 1 else 0) Hs Hsync) as (s1 & Hload & Hsync1).
  { intros is j c Hmk Hj Hc Hh. destruct (Hin is Hmk) as (k & is' & -> & Hlook & _).
    apply lookup_delete_Some in Hlook as [HneT Hlook]. assert (Hjk : ity j = ity k) by (by apply (Hty _ _ j Hlook)).
    rewrite Hjk in Hc. apply (Hq (ity k) (k :: is') c); [congruence|done|done|by apply Hg3..]. }
  { intros is H. destruct (Hin is H) as (k & is' & -> & Hlook & _). apply lookup_delete_Some in Hlook as [_ Hlook]. by eapply Hlen. }
  set (m' := foldl (fun m is => insert_list cls is m) ∅ (marked ms)) in *.
  assert (Hm' : forall T' is, m' !! T' = Some is <-> delete T m !! T' = Some is /\ is ∈ marked ms)
    by (intros T' is; by eapply loaded_lookup).
  assert (Hcount : length (filter (fun m => m.2 = true) (ms ++ [([i], b)])) = length (marked ms) + (if b then 1 else 0)).
  { rewrite filter_app, app_length. unfold marked. rewrite fmap_length. f_equal.
    destruct b; cbn; [by rewrite decide_True|by rewrite decide_False]. }
  assert (Hsize : length (marked ms) + (if b then 1 else 0) <= lim).
  { assert (length (marked ms) <= size (delete T m)) by by eapply marked_length.
    assert (size m = Datatypes.S (size (delete T m))).
    { rewrite <- (insert_delete m T [i] HmT) at 1. rewrite map_size_insert_None; [done|apply lookup_delete]. }
    destruct b; lia. }
  assert (Hlast : exists q' s' rest', load_lists e cls v (if b then 1 else 0) q s1 (w4 ++ rest) m' = (q', s', rest', Ret m')).
  { destruct b; [|by eexists _, _, _]. cbn [save_lists save_list] in Hs4.
    destruct (ser_save e cls p3 o3 i) as [[[p5 o5] w5] r5] eqn:Hs5.
    destruct r5 as [[]|x| |]; try done. injection Hs4 as <- <- <-. rewrite !app_nil_r in *.
    destruct (payload_left p3 o3 i p5 o5 w5 s1 q rest Hs5 Hsync1) as (q' & s' & c & o6 & w6 & w7 & _ & _ & _ & Hld);
      [intros c Hc; rewrite HT in Hc; by apply HqT|].
    exists q', s', (w7 ++ rest). cbn [load_lists]. rewrite <- app_assoc, (rt_size _ _ _ Hrt) by (cbn; lia).
    cbn [length load_list]. rewrite Hld. cbn [obind]. done. }
  destruct Hlast as (q' & s' & rest' & Hlast). exists q', s', rest', m'. split; [|split; [|split]].
  - unfold load_items. rewrite Hcount, <- app_assoc, (rt_size _ _ _ Hrt) by done. rewrite <- app_assoc, Hload. exact Hlast.
  - apply eq_None_not_Some. intros [is [H _]%Hm']. by rewrite lookup_delete in H.
  - intros T' is [[HneT Hlook]%lookup_delete_Some Hmk]%Hm'. destruct (Hin is Hmk) as (k & is' & -> & Hlook2 & Hr).
    assert (HT' : ity k = T') by (apply (Hty T' _ k Hlook); left). subst T'. split; [done|]. split; [done|].
    eapply grows_registered; [|exact Hr]. by do 2 (eapply grows_trans; [done|]).
  - intros T' is HneT Hlook Hne Hr. apply Hm'. assert (Hd : delete T m !! T' = Some is) by (by rewrite lookup_delete_ne).
    split; [done|]. by eapply Hreg.
Qed.

End trip.
End lib.

(** *** C71 *)
Lemma typed_load T p s (w : list A) p' s' w' b x : ser_load_typed e cls T p s w = (p', s', w', Ret (b, x)) ->
  (forall i, x = Some i -> b = true /\ is_a (cls i) T = true) /\ (b = false -> x = None).
Proof.
  unfold ser_load_typed. destruct (ser_load e p s w) as [[[p1 s1] w1] r]. intros [= <- <- <- Hr].
  destruct r as [[j|]|y| |]; cbn in Hr; try done; injection Hr as <- <-.
  - split; [|done]. intros i. destruct (is_a (cls j) T) eqn:Ha; [|done]. intros [= ->]. done.
  - done.
Qed.
Lemma typed_load_wrong T p s (w : list A) p' s' w' i : ser_load e p s w = (p', s', w', Ret (Some i)) -> is_a (cls i) T = false ->
  ser_load_typed e cls T p s w = (p', s', w', Ret (true, None)).
Proof. intros Hl Ha. unfold ser_load_typed. rewrite Hl. cbn. by rewrite Ha. Qed.
End serial.
