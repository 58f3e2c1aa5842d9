(** Lemmas about event handlers that run inside the item functions of a graph. *)
From stdpp Require Import prelude strings gmap gmultiset.
From Verif Require Import ListLib Outcome ItemClass Digraph Bfs TreeView GraphModel GraphOps GraphWf GraphStep
  SpecStore SpecObs GraphStore GraphRefine GraphThms GraphThms2 GraphEmit SpecReplica SpecQueue QueueThms
  ItemsModel SpecItems ItemsData ItemsOps GraphCopy ItemsLog ItemsCopy ItemsThms ItemHandlerModel SpecItemHandler.

Section calls.
Context {E : Type}.
Implicit Types s : est E.

Lemma find_set_data (g : digraph imap E) v m r : bg_vrec g v = Some r ->
  bg_alive g v = true /\ exists r', bg_vrec (bg_set_data v m g) v = Some r' /\ v_data r' = m.
Proof.
  destruct g as [vs ? ? ? ? ? ? ?]. unfold bg_vrec, bg_alive, bg_set_data. cbn [dg_verts].
  induction vs as [|x vs IH]; [done|]. cbn. destruct (Nat.eqb (v_id x) v) eqn:Hx; cbn.
  - intros _. split; [done|]. rewrite Hx. eauto.
  - rewrite Hx. cbn. apply IH.
Qed.

Lemma write_read s v m m' : items_at s v = Ret m ->
  exists s', write_items v m' s = (s', [], Ret tt) /\ items_at s' v = Ret m'.
Proof.
  unfold items_at. destruct (bg_vrec _ v) as [r|] eqn:Hr; [|done]. intros _.
  destruct (find_set_data (gs_dg (es_g s)) v m' r Hr) as (Ha & r' & Hr' & Hd).
  eexists. split; [unfold write_items, lift, set_frame_data; rewrite Ha; done|]. unfold gs_set_dg; cbn [gs_dg es_g]. by rewrite Hr', Hd.
Qed.

Context (h : event -> call (est E) unit) (touched : event -> est E -> gset vid) (I : est E -> Prop).

(** The notification as the last step. *)
Lemma cbind_then_handled {A} (m : call (est E) A) (k k' : A -> call (est E) unit) s :
  (forall s s' ev r, m s = (s', ev, r) -> ev = []) ->
  (forall a s, k' a s = then_handled h (k a s)) ->
  cbind m k' s = then_handled h (cbind m k s).
Proof.
  intros Hm Hk. unfold cbind. destruct (m s) as [[s1 ev] r] eqn:Hs. apply Hm in Hs as ->.
  destruct r as [a|x| |]; try done. rewrite Hk. destruct (k a s1) as [[s2 ev2] r2]. cbn [app].
  by destruct (then_handled h (s2, ev2, r2)) as [[??]?].
Qed.

Lemma quiet_cread {A} (f : est E -> outcome A) s s' ev r : cread f s = (s', ev, r) -> ev = [].
Proof. unfold cread. by intros [= <- <- <-]. Qed.
Lemma quiet_write v m s s' ev r : write_items v m s = (s', ev, r) -> ev = [].
Proof. unfold write_items, lift, set_frame_data. destruct (bg_alive _ _); by intros [= <- <- <-]. Qed.
Lemma quiet_set_item i f s s' ev r : set_item_frame i f s = (s', ev, r) -> ev = [].
Proof. unfold set_item_frame. destruct (es_heap s !! i); by intros [= <- <- <-]. Qed.
Lemma notify_then_handled e s : ihnotify h e s = then_handled h (cnotify e s).
Proof. unfold ihnotify, cbind, cnotify. cbn. by destruct (h e s) as [[??]?]. Qed.

Ltac quiet := first [apply quiet_cread | apply quiet_write | apply quiet_set_item].
Ltac step := apply cbind_then_handled; [quiet|intros ? ?].

Lemma add_item_to_frame_after f i s : add_item_to_frame_h h f i s = then_handled h (add_item_to_frame f i s).
Proof. unfold add_item_to_frame_h, add_item_to_frame. repeat step. apply notify_then_handled. Qed.

Lemma add_item_after i s : add_item_h h i s = then_handled h (add_item i s).
Proof. unfold add_item_h, add_item. step. apply add_item_to_frame_after. Qed.

Lemma remove_item_after i s : remove_item_h h i s = then_handled h (remove_item i s).
Proof.
  unfold remove_item_h, remove_item. do 3 step. destruct (erase_first _ _) as [l'|].
  - do 3 step. apply cbind_then_handled; [|intros; apply notify_then_handled].
    destruct (Nat.eqb _ _); [|by intros ???? [= <- <- <-]].
    intros sa sb ev r Hb. apply cbind_inv in Hb as [(sc & ev5 & aa & ev6 & H5 & H6 & ->)|Hb].
    + apply quiet_cread in H5 as ->. by apply quiet_write in H6 as ->.
    + destruct Hb as [(xx & Hb & _)|[[Hb _]|[Hb _]]]; by apply quiet_cread in Hb.
  - unfold cread, then_handled. done.
Qed.

Lemma base_remove_frame_after f s : base_remove_frame_h h f s = then_handled h (lift (remove_frame f) s).
Proof.
  unfold base_remove_frame_h, remove_frame, lift. destruct s as [g hp]. unfold cbind, cread, cmodify, cnotify, ihnotify. cbn.
  destruct (get_vertex g f); try done. destruct (bg_alive _ _); [|done]. case_bool_decide; [done|]. cbn.
  by destruct (h _ _) as [[??]?].
Qed.

(** *** clearFrame *)

Lemma holds_perm s v l l' : l ≡ₚ l' -> holds s v l -> holds s v l'.
Proof. intros Hl (m & Hm & Hc). exists m. split; [done|]. by rewrite Hc. Qed.

Lemma respects_perm v e l l' : l ≡ₚ l' -> respects h touched I v e l -> respects h touched I v e l'.
Proof. intros Hl Hr s m HI Hm Hh. apply Hr; [done..|]. by apply (holds_perm _ _ l'). Qed.

Lemma interleaved_app f l1 l2 evs1 evs2 : length evs1 = length l1 ->
  interleaved f (l1 ++ l2) (evs1 ++ evs2) = interleaved f l1 evs1 ++ interleaved f l2 evs2.
Proof.
  revert evs1. induction l1 as [|i l1 IH]; intros [|ev evs1] Hl; try done. cbn. injection Hl as Hl. rewrite IH by done.
  by rewrite <- app_assoc.
Qed.

(** The loop over [l] with [R] the items that come after it. *)
Definition looped (f : frameid) (v : vid) (l R : list iptr) (fin : est E -> Prop) (x : est E * list event * outcome unit) : Prop :=
  (exists evs, length evs = length l /\ x.1.2 = interleaved f l evs /\ x.2 = Ret tt /\ I x.1.1 /\ fin x.1.1) \/
  (exists pre i post evs sh ev e, l = pre ++ i :: post /\ length evs = length pre /\
     h (EvItemRemoved f i) sh = (x.1.1, ev, Throw e) /\ x.2 = Throw e /\ holds sh v (post ++ R) /\
     x.1.2 = interleaved f (pre ++ [i]) (evs ++ [ev]) /\ I x.1.1 /\ holds x.1.1 v (post ++ R)).

Lemma delete_insert_perm (m : imap) k l : concat (map_to_list (<[k := l]> m)).*2 ≡ₚ l ++ concat (map_to_list (delete k m)).*2.
Proof.
  rewrite <- insert_delete_insert. rewrite map_to_list_insert by apply lookup_delete. done.
Qed.

Lemma clear_list_looped f v k R l s m : kept I v -> I s -> items_at s v = Ret m -> concat (map_to_list (delete k m)).*2 ≡ₚ R ->
  (forall pre i post, l = pre ++ i :: post -> respects h touched I v (EvItemRemoved f i) (post ++ R)) ->
  looped f v l R (fun s' => exists m', items_at s' v = Ret m' /\ delete k m' = delete k m) (clear_list_h h touched f v k l s).
Proof.
  intros HK. revert s m. induction l as [|i l IH]; intros s m HI Hm HR Hresp; cbn [clear_list_h].
  - left. exists []. cbn. repeat split; try done. by exists m.
  - erewrite cbind_read_ret by done. destruct (write_read s v m (<[k := l]> m) Hm) as (s1 & Hw & Hm1).
    assert (HI1 : I s1) by (pose proof (proj1 (HK s HI) (<[k := l]> m)) as H; by rewrite Hw in H).
    erewrite cbind_ret by done. cbn [app].
    assert (Hh1 : holds s1 v (l ++ R)).
    { exists (<[k := l]> m). split; [done|]. by rewrite delete_insert_perm, HR. }
    destruct (Hresp [] i l eq_refl s1 _ HI1 Hm1 Hh1) as (Ht & Hm2 & HI2 & Hub & Hfu).
    unfold cbind at 1. unfold ihnotify_using, ihnotify, cbind at 1, cnotify. destruct (h (EvItemRemoved f i) s1) as [[s2 ev] r] eqn:Hhe. cbn in Hm2, HI2, Hub, Hfu.
    destruct r as [[]|e| |]; try done.
    + rewrite bool_decide_false by done.
      destruct (IH s2 (<[k := l]> m)) as [(evs & Hlen & Hev & Hr & HI3 & m' & Hm' & Hd)|
          (pre & j & post & evs & sh & ev' & e & -> & Hlen & Hsh & Hr & Hh & Hev & HI3 & Hho)].
      * done.
      * done.
      * by rewrite delete_insert_delete.
      * intros pre j post ->. by apply (Hresp (i :: pre)).
      * destruct (clear_list_h _ _ f v k l s2) as [[s3 ev3] r3]. cbn in Hev, Hr, HI3, Hm'. subst ev3 r3. left.
        exists (ev :: evs). cbn. rewrite Hlen. split; [done|]. split; [done|]. split; [done|]. split; [done|]. exists m'. split; [done|].
        by rewrite Hd, delete_insert_delete.
      * destruct (clear_list_h _ _ f v k _ s2) as [[s3 ev3] r3]. cbn in Hev, Hr, HI3, Hho, Hsh. subst ev3 r3. right.
        exists (i :: pre), j, post, (ev :: evs), sh, ev', e. cbn. rewrite Hlen. done.
    + right. exists [], i, l, [], s1, ev, e. cbn. rewrite app_nil_r. repeat split; try done.
      exists (<[k := l]> m). split; [done|]. by rewrite delete_insert_perm, HR.
Qed.

Definition at_key (m : imap) (k : tyid) : list iptr := default [] (m !! k).

Lemma at_keys (m : imap) ks : ks ≡ₚ (map_to_list m).*1 -> concat (map_to_list m).*2 ≡ₚ concat (at_key m <$> ks).
Proof.
  intros ->. rewrite <- list_fmap_compose. apply reflexive_eq. f_equal. apply list_fmap_ext. intros n [k l] Hk%elem_of_list_lookup_2%elem_of_map_to_list.
  unfold at_key. cbn. by rewrite Hk.
Qed.

Lemma keys_delete (m : imap) k ks : k :: ks ≡ₚ (map_to_list m).*1 -> ks ≡ₚ (map_to_list (delete k m)).*1.
Proof.
  intros Hks. assert (Hk : k ∈ (map_to_list m).*1) by (rewrite <- Hks; set_solver).
  apply elem_of_list_fmap in Hk as ([k' l] & -> & Hl%elem_of_map_to_list). cbn in *.
  rewrite <- (map_to_list_delete m k' l Hl) in Hks. cbn in Hks. by apply (inj _) in Hks.
Qed.

Lemma clear_types_looped f v ks s m : kept I v -> I s -> items_at s v = Ret m -> ks ≡ₚ (map_to_list m).*1 ->
  (forall pre i post, concat (at_key m <$> ks) = pre ++ i :: post -> respects h touched I v (EvItemRemoved f i) post) ->
  looped f v (concat (at_key m <$> ks)) [] (fun s' => items_at s' v = Ret ∅) (clear_types_h h touched f v ks s).
Proof.
  intros HK. revert s m. induction ks as [|k ks IH]; intros s m HI Hm Hks Hresp; cbn [clear_types_h].
  - left. exists []. cbn. repeat split; try done. rewrite Hm. f_equal. apply map_to_list_empty_iff.
    symmetry in Hks. apply Permutation_nil_r in Hks. by apply fmap_nil_inv in Hks.
  - assert (Hks' := keys_delete _ _ _ Hks).
    assert (Heq : at_key (delete k m) <$> ks = at_key m <$> ks).
    { apply list_fmap_ext. intros n k' Hk'%elem_of_list_lookup_2. unfold at_key. rewrite lookup_delete_ne; [done|]. intros <-.
      assert (NoDup (k :: ks)) as [Hn _]%list.NoDup_cons by (rewrite Hks; apply NoDup_fst_map_to_list). done. }
    assert (HR := at_keys _ _ Hks'). rewrite Heq in HR. cbn [fmap list_fmap concat] in Hresp |- *.
    set (R := concat (at_key m <$> ks)) in *. set (l := at_key m k) in *.
    erewrite cbind_read_ret by done. change (default [] (m !! k)) with l.
    destruct (clear_list_looped f v k R l s m HK HI Hm HR) as [(evs & Hlen & Hev & Hr & HI3 & m' & Hm' & Hd)|
          (pre & j & post & evs & sh & ev' & e & -> & Hlen & Hsh & Hr & Hh & Hev & HI3 & Hho)].
    { intros pre i post Hl. apply (Hresp pre). rewrite Hl. by rewrite <- app_assoc. }
    + unfold cbind at 1. destruct (clear_list_h _ _ f v k l s) as [[s1 ev1] r1]. cbn in Hev, Hr, HI3, Hm'. subst ev1 r1.
      erewrite cbind_read_ret by done. destruct (write_read s1 v m' (delete k m') Hm') as (s2 & Hw & Hm2).
      assert (HI2 : I s2) by (pose proof (proj1 (HK s1 HI3) (delete k m')) as H; by rewrite Hw in H).
      erewrite cbind_ret by done. cbn [app]. rewrite Hd in Hm2.
      destruct (IH s2 (delete k m) HI2 Hm2 Hks') as [(evs2 & Hlen2 & Hev2 & Hr2 & HI4 & Hm3)|
          (pre & j & post & evs2 & sh & ev' & e & Hl & Hlen2 & Hsh & Hr2 & Hh & Hev2 & HI4 & Hho)].
      { intros pre i post Hp. rewrite Heq in Hp. apply (Hresp (l ++ pre)). unfold R. rewrite Hp. by rewrite <- app_assoc. }
      * rewrite Heq in Hlen2, Hev2. fold R in Hlen2, Hev2. left. exists (evs ++ evs2). destruct (clear_types_h _ _ f v ks s2) as [[s3 ev3] r3]. cbn in Hev2, Hr2, HI4, Hm3 |- *. subst.
        rewrite !app_length, Hlen, Hlen2. rewrite interleaved_app by done. done.
      * rewrite Heq in Hl. fold R in Hl. right. exists (l ++ pre), j, post, (evs ++ evs2), sh, ev', e.
        destruct (clear_types_h _ _ f v ks s2) as [[s3 ev3] r3]. cbn in Hev2, Hr2, Hsh, HI4, Hho |- *. subst ev3 r3.
        rewrite !app_length, Hlen, Hlen2, Hl, <- !app_assoc. rewrite (interleaved_app f l) by done. done.
    + unfold cbind at 1. destruct (clear_list_h _ _ f v k _ s) as [[s1 ev1] r1]. cbn in Hev, Hr, Hsh, HI3, Hho. subst ev1 r1.
      right. exists pre, j, (post ++ R), evs, sh, ev', e. rewrite !app_nil_r. cbn. by rewrite <- app_assoc.
Qed.

Lemma clear_frame_looped io f v s m : kept I v -> I s -> iorder_ok io -> get_vertex (es_g s) f = Ret v -> items_at s v = Ret m ->
  let l := concat (lists_of io v m) in
  (forall pre i post, l = pre ++ i :: post -> respects h touched I v (EvItemRemoved f i) post) ->
  looped f v l [] (fun s' => items_at s' v = Ret ∅) (clear_frame_h h touched io f s).
Proof.
  intros HK HI Hio Hf Hm l Hresp. unfold clear_frame_h.
  assert (Hv : check_frame_valid s f = Ret tt /\ bg_vertex (gs_dg (es_g s)) f = v).
  { unfold get_vertex in Hf. unfold check_frame_valid. destruct (Nat.eqb _ null_vertex); [done|]. by injection Hf as ->. }
  destruct Hv as [Hc Hv]. erewrite cbind_read_ret by done. erewrite cbind_read_ret by (by rewrite Hv).
  erewrite cbind_read_ret by done. apply clear_types_looped; [done|done|done|apply Hio|done].
Qed.

End calls.

Section reach.
Context {E : Type} (einv : E -> E).
Local Notation dg_wf := (dg_wf (D := imap) einv).
Local Notation dg s := (gs_dg (es_g s)).
Local Notation ereachable := (ereachable einv).
Implicit Types s : est E.

Lemma all_items_at io s f v m : get_vertex (es_g s) f = Ret v -> items_at s v = Ret m -> all_items io s f = concat (lists_of io v m).
Proof.
  intros Hf Hm. unfold all_items, visit_items. unfold get_vertex in Hf. unfold check_frame_valid.
  destruct (Nat.eqb _ null_vertex); [done|]. injection Hf as ->. cbn. by rewrite Hm.
Qed.

Lemma reachable_items s f v : ereachable s -> get_vertex (es_g s) f = Ret v -> items_at s v = Ret (items_of (dg s) f).
Proof. intros Hr Hf. apply (items_at_some einv); [by apply ereachable_wf|by apply get_vertex_inv]. Qed.

Section clear.
Context (h : event -> call (est E) unit) (touched : event -> est E -> gset vid) (I : est E -> Prop).

Lemma clear_frame_handled io s f v : ereachable s -> kept I v -> I s -> iorder_ok io -> get_vertex (es_g s) f = Ret v ->
  (forall pre i post, all_items io s f = pre ++ i :: post -> respects h touched I v (EvItemRemoved f i) post) ->
  looped h I f v (all_items io s f) [] (fun s' => items_at s' v = Ret ∅) (clear_frame_h h touched io f s).
Proof.
  intros Hr HK HI Hio Hf. assert (Hm := reachable_items s f v Hr Hf). rewrite (all_items_at io s f v _ Hf Hm). by apply clear_frame_looped.
Qed.

Lemma clear_frame_done io s f v s' ev : ereachable s -> kept I v -> I s -> iorder_ok io -> get_vertex (es_g s) f = Ret v ->
  (forall pre i post, all_items io s f = pre ++ i :: post -> respects h touched I v (EvItemRemoved f i) post) ->
  clear_frame_h h touched io f s = (s', ev, Ret tt) ->
  I s' /\ holds s' v [] /\ (forall T, contains_items_v s' v T = Ret false) /\
  exists evs, length evs = length (all_items io s f) /\ ev = interleaved f (all_items io s f) evs.
Proof.
  intros Hr HK HI Hio Hf Hresp Hc. destruct (clear_frame_handled io s f v Hr HK HI Hio Hf Hresp) as [(evs & Hlen & Hev & Hx & HI' & Hfin)|
          (pre & j & post & evs & sh & ev' & e & Hl & Hlen & Hsh & Hx & Hh & Hev & HI' & Hho)]; rewrite Hc in *; [|done].
  cbn in Hev, HI', Hfin. subst ev. split; [done|]. split; [|split].
  - exists ∅. split; [done|]. by rewrite map_to_list_empty.
  - intros T. unfold contains_items_v. rewrite Hfin. done.
  - by exists evs.
Qed.

Lemma clear_frame_thrown io s f v s' ev x : ereachable s -> kept I v -> I s -> iorder_ok io -> get_vertex (es_g s) f = Ret v ->
  (forall pre i post, all_items io s f = pre ++ i :: post -> respects h touched I v (EvItemRemoved f i) post) ->
  clear_frame_h h touched io f s = (s', ev, Throw x) ->
  I s' /\ exists pre i post evs, all_items io s f = pre ++ i :: post /\ holds s' v post /\
    length evs = S (length pre) /\ ev = interleaved f (pre ++ [i]) evs.
Proof.
  intros Hr HK HI Hio Hf Hresp Hc. destruct (clear_frame_handled io s f v Hr HK HI Hio Hf Hresp) as [(evs & Hlen & Hev & Hx & HI' & Hfin)|
          (pre & j & post & evs & sh & ev' & e & Hl & Hlen & Hsh & Hx & Hh & Hev & HI' & Hho)]; rewrite Hc in *; [done|].
  cbn in Hev, HI', Hho. split; [done|]. rewrite app_nil_r in Hho. exists pre, j, post, (evs ++ [ev']). rewrite app_length, Hlen. cbn. repeat split; try done. lia.
Qed.

Lemma clear_frame_defined io s f v : ereachable s -> kept I v -> I s -> iorder_ok io -> get_vertex (es_g s) f = Ret v ->
  (forall pre i post, all_items io s f = pre ++ i :: post -> respects h touched I v (EvItemRemoved f i) post) ->
  (clear_frame_h h touched io f s).2 = Ret tt \/
  exists i sh x, i ∈ all_items io s f /\ (h (EvItemRemoved f i) sh).2 = Throw x /\ (clear_frame_h h touched io f s).2 = Throw x.
Proof.
  intros Hr HK HI Hio Hf Hresp. destruct (clear_frame_handled io s f v Hr HK HI Hio Hf Hresp) as [(evs & Hlen & Hev & Hx & HI' & Hfin)|
          (pre & j & post & evs & sh & ev' & e & Hl & Hlen & Hsh & Hx & Hh & Hev & HI' & Hho)]; [by left|].
  right. exists j, sh, e. rewrite Hsh, Hl. split; [set_solver|done].
Qed.


Lemma clear_frame_touched io s f v i l : ereachable s -> iorder_ok io -> get_vertex (es_g s) f = Ret v -> all_items io s f = i :: l ->
  (forall sh, (h (EvItemRemoved f i) sh).2 = Ret tt) -> (forall sh, v ∈ touched (EvItemRemoved f i) sh) ->
  (clear_frame_h h touched io f s).2 = UB.
Proof.
  intros Hr Hio Hf Hall Hret Ht. assert (Hm := reachable_items s f v Hr Hf). rewrite (all_items_at io s f v _ Hf Hm) in Hall.
  set (m := items_of (dg s) f) in *. unfold clear_frame_h.
  assert (Hv : check_frame_valid s f = Ret tt /\ bg_vertex (gs_dg (es_g s)) f = v).
  { unfold get_vertex in Hf. unfold check_frame_valid. destruct (Nat.eqb _ null_vertex); [done|]. by injection Hf as ->. }
  destruct Hv as [Hc Hv]. erewrite cbind_read_ret by done. erewrite cbind_read_ret by (by rewrite Hv).
  erewrite cbind_read_ret by done. unfold lists_of in Hall. destruct (io v m) as [|k ks] eqn:Hks; [done|]. cbn in Hall.
  assert (Hk : is_Some (m !! k)) by (apply (iorder_elem io v m k Hio); rewrite Hks; set_solver). destruct Hk as [l0 Hl0].
  rewrite Hl0 in Hall. cbn in Hall.
  destruct (ereachable_inv einv s Hr) as [Hwf Hit]. destruct (Hit f k l0 Hl0) as [Hne _]. destruct l0 as [|i0 l0]; [done|].
  injection Hall as -> _. cbn [clear_types_h]. erewrite cbind_read_ret by done. rewrite Hl0. cbn [from_option id clear_list_h].
  unfold cbind at 1. erewrite cbind_read_ret by done. destruct (write_read s v m (<[k := l0]> m) Hm) as (s1 & Hw & Hm1).
  erewrite cbind_ret by exact Hw. unfold cbind at 1, ihnotify_using, ihnotify, cbind at 1, cnotify.
  specialize (Hret s1). destruct (h (EvItemRemoved f i) s1) as [[s2 ev] r]. cbn in Hret. subst r. by rewrite bool_decide_true.
Qed.

End clear.

Section silent.
Context (h : event -> call (est E) unit) (touched : event -> est E -> gset vid).
(** Without handlers the functions are those without handlers. *)
Hypothesis Hh : forall e s, h e s = (s, [], Ret tt).
Hypothesis Ht : forall e s, touched e s = ∅.

Lemma using_silent v e s : ihnotify_using h touched v e s = cnotify e s.
Proof. unfold ihnotify_using, ihnotify, cbind, cnotify. rewrite Hh. cbn. rewrite bool_decide_false; [done|]. rewrite Ht. set_solver. Qed.

Lemma cbind_ext {St A B} (m m' : call St A) (k k' : A -> call St B) (s : St) :
  m s = m' s -> (forall a (s : St), k a s = k' a s) -> cbind m k s = cbind m' k' s.
Proof. intros Hm Hk. unfold cbind. rewrite Hm. destruct (m' s) as [[s1 ev] [a|x| |]]; try done. by rewrite Hk. Qed.

Lemma clear_list_silent f v k l s : clear_list_h h touched f v k l s = clear_list f v k l s.
Proof.
  revert s. induction l as [|i l IH]; intros s; [done|]. cbn [clear_list_h clear_list].
  apply cbind_ext; [done|intros m s1]. apply cbind_ext; [done|intros _ s2]. apply cbind_ext; [apply using_silent|intros _ s3]. apply IH.
Qed.

Lemma clear_types_silent f v ks s : clear_types_h h touched f v ks s = clear_types f v ks s.
Proof.
  revert s. induction ks as [|k ks IH]; intros s; [done|]. cbn [clear_types_h clear_types].
  apply cbind_ext; [done|intros m s1]. apply cbind_ext; [apply clear_list_silent|intros _ s2].
  apply cbind_ext; [done|intros m' s3]. apply cbind_ext; [done|intros _ s4]. apply IH.
Qed.

Lemma clear_frame_silent io f s : clear_frame_h h touched io f s = clear_frame io f s.
Proof.
  unfold clear_frame_h, clear_frame. apply cbind_ext; [done|intros _ s1]. apply cbind_ext; [done|intros v s2].
  apply cbind_ext; [done|intros m s3]. apply clear_types_silent.
Qed.

Lemma then_handled_silent x : then_handled h x = x.
Proof. destruct x as [[s1 [|e [|]]] [[]|x| |]]; try done. cbn. by rewrite Hh. Qed.

Lemma eg_remove_frame_silent io f s : eg_remove_frame_h h touched io f s = eg_remove_frame io f s.
Proof.
  unfold eg_remove_frame_h, eg_remove_frame. apply cbind_ext; [apply clear_frame_silent|intros _ s1].
  by rewrite base_remove_frame_after, then_handled_silent.
Qed.

Lemma remove_item_it_silent f alias T itf k s : remove_item_it_h h touched f alias T itf k s = remove_item_it f alias T itf k s.
Proof.
  unfold remove_item_it_h, remove_item_it. do 6 (apply cbind_ext; [done|intros ? ?]). destruct (_ !! T) as [l|]; [|done].
  do 3 (apply cbind_ext; [done|intros ? ?]). apply cbind_ext; [apply using_silent|done].
Qed.

End silent.

(** *** Removal through an iterator *)

Lemma remove_item_it_during s f T k i x l v alias : ereachable s -> get_vertex (es_g s) f = Ret v ->
  get_items s f T = Ret l -> l !! k = Some i -> deref s i = Ret x -> it_frame x = f ->
  exists sh, items_at sh v = Ret (<[T := take k l ++ drop (S k) l]> (items_of (dg s) f)) /\
    get_vertex (es_g sh) f = Ret v /\ deref sh i = Ret (ItemV (it_class x) "") /\
    sh = (set_item_frame i "" (write_items v (<[T := take k l ++ drop (S k) l]> (items_of (dg s) f)) s).1.1).1.1 /\
    forall (h : event -> call (est E) unit) touched, remove_item_it_h h touched f alias T f k s =
      (ihnotify_using h touched v (EvItemRemoved (if alias then "" else f) i) ;;;
      (if Nat.eqb k (length (take k l ++ drop (S k) l))
       then m' <-- cread (fun s => items_at s v) ;; write_items v (delete T m') else cret tt)) sh.
Proof.
  intros Hr Hv Hl Hk Hx Hfr. assert (Hi := ereachable_inv einv s Hr). destruct Hi as [Hwf Hit].
  assert (Hf := get_vertex_inv _ _ _ Hv).
  assert (Hlm : items_of (dg s) f !! T = Some l).
  { rewrite (get_items_some einv s f v) in Hl by done. destruct (_ !! T); [|done]. by injection Hl as ->. }
  assert (HT : it_type x = T).
  { destruct (item_lists_typed einv s f T l Hr Hl) as [_ H]. destruct (H i) as (y & Hy & <-); [by eapply elem_of_list_lookup_2|]. congruence. }
  assert (Hhx : es_heap s !! i = Some x) by by apply deref_heap.
  set (m1 := <[T := take k l ++ drop (S k) l]> (items_of (dg s) f)).
  exists (with_heap (<[i := ItemV (it_class x) ""]> (es_heap s)) (put f m1 s)).
  assert (Hwf1 : dg_wf (dg (put f m1 s))) by by apply wf_put.
  assert (Hf1 : dg_map (dg (put f m1 s)) !! f = Some v) by done.
  split; [|split; [|split; [|split]]].
  - change (items_at (put f m1 s) v = Ret m1). rewrite (items_at_some einv _ f v) by done. rewrite (items_of_put einv f v) by done. by rewrite decide_True.
  - by apply (get_vertex_some einv).
  - apply deref_heap. cbn. by rewrite lookup_insert.
  - fold m1. rewrite (write_items_put einv f v) by done. unfold set_item_frame. cbn [fst es_heap put]. by rewrite Hhx.
  - intros h touched. unfold remove_item_it_h.
    erewrite cbind_read_ret by by eapply check_some.
    erewrite cbind_read_ret with (a := i); cycle 1.
    { rewrite Hl, Hk. unfold cast_all. cbn. rewrite Hhx. unfold is_a.
      rewrite (bool_decide_eq_true_2 (type_index (it_class x) = T)) by done. by rewrite orb_true_r. }
    erewrite cbind_read_ret by (unfold deref; by rewrite Hhx).
    erewrite cbind_read_ret by by rewrite bool_decide_eq_true_2.
    erewrite cbind_read_ret by done. rewrite (bg_vertex_some _ _ _ Hf).
    erewrite cbind_read_ret by by eapply items_at_some. rewrite Hlm.
    erewrite cbind_read_ret by by rewrite bool_decide_eq_true_2.
    erewrite cbind_ret by by eapply write_items_put. fold m1.
    unfold cbind at 1, set_item_frame. cbn [es_heap put]. rewrite Hhx. cbn [app]. by destruct (cbind _ _ _) as [[??]?].
Qed.

(** The handlers are run in the state [sh]. *)
Lemma using_throws (h : event -> call (est E) unit) touched v e sh s' ev x (k : unit -> call (est E) unit) :
  h e sh = (s', ev, Throw x) -> cbind (ihnotify_using h touched v e) k sh = (s', e :: ev, Throw x).
Proof. intros Hh. unfold cbind, ihnotify_using, ihnotify, cbind, cnotify. by rewrite Hh. Qed.

Lemma remove_item_it_sees s f T i x (alias : bool) : ereachable s -> get_items s f T = Ret [i] -> deref s i = Ret x -> it_frame x = f ->
  let e := EvItemRemoved (if alias then "" else f) i in
  (exists s1, remove_item_it f alias T f 0 s = (s1, [e], Ret tt) /\ contains_items s1 f T = Ret false) /\
  exists sh, contains_items sh f T = Ret true /\ get_items sh f T = Ret [] /\
    forall (h : event -> call (est E) unit) touched s' ev y, h e sh = (s', ev, Throw y) ->
      remove_item_it_h h touched f alias T f 0 s = (s', e :: ev, Throw y).
Proof.
  intros Hr Hl Hx Hfr e.
  assert (exists v, get_vertex (es_g s) f = Ret v) as [v Hv].
  { unfold get_items in Hl. destruct (get_vertex (es_g s) f) as [v| | |]; try done. by exists v. }
  destruct (remove_item_it_during s f T 0 i x [i] v alias) as (sh & Hm & Hv' & _ & _ & Hc); try done. cbn in Hm. split.
  - set (h0 := (fun _ s => (s, [], Ret tt)) : event -> call (est E) unit). set (t0 := (fun _ _ => ∅) : event -> est E -> gset vid).
    rewrite <- (remove_item_it_silent h0 t0) by done. rewrite Hc. cbn [length Nat.eqb app take drop].
    unfold cbind at 1. rewrite using_silent by done. unfold cnotify. erewrite cbind_read_ret by done.
    destruct (write_read sh v _ (delete T (<[T := []]> (items_of (dg s) f))) Hm) as (s1 & Hw & Hm1).
    rewrite Hw. exists s1. split; [done|]. unfold contains_items.
    assert (get_vertex (es_g s1) f = Ret v) as ->.
    { unfold write_items, lift, set_frame_data in Hw. destruct (bg_alive _ _); by injection Hw as <-. }
    cbn. unfold contains_items_v. rewrite Hm1. cbn. rewrite lookup_delete. done.
  - exists sh. unfold contains_items, get_items. rewrite Hv'. cbn [obind]. unfold contains_items_v, get_items_v. rewrite Hm. cbn [obind].
    rewrite lookup_insert. split; [done|]. split; [done|]. intros h touched s' ev y Hh. rewrite Hc. by apply using_throws.
Qed.

Lemma remove_item_it_handled (h : event -> call (est E) unit) touched I io s f T k i x l v (alias : bool) later s' ev r :
  ereachable s -> kept I v -> I s -> iorder_ok io -> get_vertex (es_g s) f = Ret v ->
  get_items s f T = Ret l -> l !! k = Some i -> deref s i = Ret x -> it_frame x = f -> all_items io s f ≡ₚ i :: later ->
  respects h touched I v (EvItemRemoved (if alias then "" else f) i) later ->
  remove_item_it_h h touched f alias T f k s = (s', ev, r) ->
  (r = Ret tt /\ items_at s' v = items_at (remove_item_it f alias T f k s).1.1 v) \/ ((exists y, r = Throw y) /\ holds s' v later).
Proof.
  intros Hr HK HI Hio Hv Hl Hk Hx Hfr Hall Hresp Hc. destruct (remove_item_it_during s f T k i x l v alias) as (sh & Hm & Hv' & _ & Hsh & Hd); try done.
  set (l' := take k l ++ drop (S k) l) in *. set (m := items_of (dg s) f) in *. set (e := EvItemRemoved _ i) in *.
  assert (Hho : holds sh v later).
  { eexists. split; [done|]. rewrite delete_insert_perm.
    rewrite (all_items_at io s f v _ Hv (reachable_items s f v Hr Hv)) in Hall. fold m in Hall.
    rewrite (bag_lists io v m Hio) in Hall.
    assert (Hlm : m !! T = Some l).
    { rewrite (get_items_some einv s f v) in Hl; [|by apply ereachable_wf|by apply get_vertex_inv]. fold m in Hl. destruct (m !! T); [|done]. by injection Hl as ->. }
    unfold bag in Hall. rewrite <- (map_to_list_delete m T l Hlm) in Hall. cbn in Hall.
    apply (inj (cons i)). rewrite <- Hall. rewrite app_comm_cons. apply Permutation_app_tail. unfold l'.
    rewrite <- (take_drop_middle l k i Hk) at 3. by rewrite Permutation_middle. }
  assert (Hplain : items_at (remove_item_it f alias T f k s).1.1 v = Ret (if Nat.eqb k (length l') then delete T m else <[T := l']> m)).
  { set (h0 := (fun _ s => (s, [], Ret tt)) : event -> call (est E) unit). set (t0 := (fun _ _ => ∅) : event -> est E -> gset vid).
    rewrite <- (remove_item_it_silent h0 t0) by done. rewrite Hd.
    unfold cbind at 1. rewrite using_silent by done. unfold cnotify. destruct (Nat.eqb _ _); [|done]. erewrite cbind_read_ret by done.
    destruct (write_read sh v _ (delete T (<[T := l']> m)) Hm) as (s1 & Hw & Hm1). rewrite Hw. cbn. rewrite Hm1. by rewrite delete_insert_delete. }
  rewrite Hplain. rewrite Hd in Hc. assert (HIsh : I sh) by (rewrite Hsh; apply HK, HK; exact HI).
  destruct (Hresp sh _ HIsh Hm Hho) as (Ht & Hm2 & HI2 & Hub & Hfu).
  unfold cbind at 1, ihnotify_using, ihnotify, cbind at 1, cnotify in Hc. destruct (h e sh) as [[s2 ev2] r2]. cbn in Hm2, Hub, Hfu.
  destruct r2 as [[]|y| |]; try done.
  - rewrite bool_decide_false in Hc by done. left. destruct (Nat.eqb k (length l')).
    + erewrite cbind_read_ret in Hc by done. destruct (write_read s2 v _ (delete T (<[T := l']> m)) Hm2) as (s3 & Hw & Hm3).
      rewrite Hw in Hc. injection Hc as <- <- <-. by rewrite Hm3, delete_insert_delete.
    + injection Hc as <- <- <-. done.
  - injection Hc as <- <- <-. right. split; [by eexists|]. destruct Hho as (m' & Hm' & Hp). exists m'. split; [|done]. congruence.
Qed.

Lemma clear_unknown (h : event -> call (est E) unit) touched io s f : get_vertex (es_g s) f = Throw (XUnknownFrame f) ->
  clear_frame_h h touched io f s = (s, [], Throw (XUnknownFrame f)).
Proof.
  unfold get_vertex, clear_frame_h, cbind, cread, check_frame_valid. by destruct (Nat.eqb _ null_vertex).
Qed.

End reach.
