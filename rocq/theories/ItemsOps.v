(** What the item calls of EnvireGraph do, in terms of the content of frames. *)
From stdpp Require Import prelude strings gmap.
From Verif Require Import ListLib Outcome ItemClass Digraph Bfs TreeView GraphModel GraphOps GraphWf GraphStep
  GraphRefine ItemsModel SpecItems ItemsData.

Section ops.
Context {E : Type} (einv : E -> E).
Local Notation dg_wf := (dg_wf (D := imap) einv).
Implicit Types s : est E.
Implicit Types g : digraph imap E.

(** Content of a frame (empty if unknown). *)
Definition items_of g (f : frameid) : imap :=
  match dg_map g !! f with
  | Some v => match bg_vrec g v with Some r => v_data r | None => ∅ end
  | None => ∅
  end.
Local Notation dg s := (gs_dg (es_g s)).

(** Replacing the content of a frame. *)
Definition put (f : frameid) (m : imap) s : est E :=
  ESt (gs_set_dg (bg_set_data (bg_vertex (dg s) f) m (dg s)) (es_g s)) (es_heap s).
Definition with_heap (h : gmap iptr item) s : est E := ESt (es_g s) h.

Lemma set_data_twice v m m' g : bg_set_data v m (bg_set_data v m' g) = bg_set_data v m g.
Proof.
  unfold bg_set_data. cbn. f_equal. rewrite <- list_fmap_compose. apply list_fmap_ext. intros k r _. cbn.
  destruct (v_id r =? v) eqn:Hv; cbn; by rewrite Hv.
Qed.
Lemma set_data_vrec v m g u : dg_wf g -> bg_vrec (bg_set_data v m g) u =
  (fun r => if v_id r =? v then VRec (v_id r) (v_index r) (v_name r) m else r) <$> bg_vrec g u.
Proof.
  intros Hwf. destruct (bg_vrec g u) as [r|] eqn:Hr; cbn [fmap option_fmap option_map].
  - apply (bg_vrec_iff einv) in Hr as [Hr <-]; [|done]. apply (bg_vrec_iff einv); [by apply wf_set_data|].
    split; [|by destruct (_ =? _)]. cbn. apply elem_of_list_fmap. by exists r.
  - destruct (bg_vrec (bg_set_data v m g) u) as [r|] eqn:Hr'; [|done]. exfalso.
    apply (bg_vrec_iff einv) in Hr' as [Hr' <-]; [|by apply wf_set_data]. cbn in Hr'.
    apply elem_of_list_fmap in Hr' as (r0 & -> & Hr0).
    assert (H : bg_vrec g (v_id r0) = Some r0) by by apply (bg_vrec_iff einv).
    destruct (v_id r0 =? v); cbn in Hr; congruence.
Qed.
Lemma set_data_alive v m g u : bg_alive (bg_set_data v m g) u = bg_alive g u.
Proof.
  unfold bg_alive, bg_set_data. cbn. induction (dg_verts g) as [|r l IH]; [done|]. cbn. rewrite IH.
  by destruct (v_id r =? v).
Qed.
Lemma set_data_edge v m g a b : bg_edge (bg_set_data v m g) a b = bg_edge g a b.
Proof. done. Qed.
Lemma set_data_vertex v m g f : bg_vertex (bg_set_data v m g) f = bg_vertex g f.
Proof. done. Qed.

Lemma items_of_set f v m g f' : dg_wf g -> dg_map g !! f = Some v ->
  items_of (bg_set_data v m g) f' = if decide (f' = f) then m else items_of g f'.
Proof.
  intros Hwf Hf. unfold items_of. cbn [dg_map bg_set_data]. destruct (dg_map g !! f') as [u|] eqn:Hf'.
  - fold (bg_set_data v m g). rewrite set_data_vrec by done.
    destruct (map_vrec einv g f' u Hwf Hf') as (r & Hr & Hn). rewrite Hr. cbn.
    apply (bg_vrec_iff einv) in Hr as [Hr Hid]; [|done]. destruct (Nat.eqb_spec (v_id r) v) as [He|He]; cbn.
    + rewrite decide_True; [done|]. eapply (wf_map_inj einv); eauto. congruence.
    + rewrite decide_False; [done|]. intros ->. congruence.
  - rewrite decide_False; [done|]. intros ->. congruence.
Qed.

Lemma items_at_some s f v : dg_wf (dg s) -> dg_map (dg s) !! f = Some v -> items_at s v = Ret (items_of (dg s) f).
Proof.
  intros Hwf Hf. unfold items_at, items_of. rewrite Hf. by destruct (map_vrec einv (dg s) f v Hwf Hf) as (r & -> & _).
Qed.

Lemma dg_put f m s : dg (put f m s) = bg_set_data (bg_vertex (dg s) f) m (dg s).
Proof. done. Qed.
Lemma wf_put f m s : dg_wf (dg s) -> dg_wf (dg (put f m s)).
Proof. rewrite dg_put. apply wf_set_data. Qed.
Lemma map_put f m s : dg_map (dg (put f m s)) = dg_map (dg s).
Proof. done. Qed.
Lemma items_of_put f v m s f' : dg_wf (dg s) -> dg_map (dg s) !! f = Some v ->
  items_of (dg (put f m s)) f' = if decide (f' = f) then m else items_of (dg s) f'.
Proof. intros Hwf Hf. rewrite dg_put, (bg_vertex_some _ _ _ Hf). by apply items_of_set. Qed.
Lemma put_put f m m' s : put f m (put f m' s) = put f m s.
Proof. unfold put. cbn. f_equal. unfold gs_set_dg. cbn. f_equal. rewrite set_data_vertex. apply set_data_twice. Qed.

Lemma write_items_put f v m s : dg_wf (dg s) -> dg_map (dg s) !! f = Some v ->
  write_items v m s = (put f m s, [], Ret tt).
Proof.
  intros Hwf Hf. unfold write_items, lift, set_frame_data. rewrite (wf_map_alive einv _ f) by done.
  unfold put. by rewrite (bg_vertex_some _ _ _ Hf).
Qed.

Lemma check_some s f v : dg_wf (dg s) -> dg_map (dg s) !! f = Some v -> check_frame_valid s f = Ret tt.
Proof.
  intros Hwf Hf. unfold check_frame_valid. destruct (Nat.eqb_spec (bg_vertex (dg s) f) null_vertex) as [Hn|]; [|done].
  apply (bg_vertex_null einv) in Hn; [|done]. congruence.
Qed.
Lemma check_none s f : dg_map (dg s) !! f = None -> check_frame_valid s f = Throw (XUnknownFrame f).
Proof. intros Hf. unfold check_frame_valid, bg_vertex. by rewrite Hf. Qed.

(** *** Queries *)

Lemma get_items_some s f v T : dg_wf (dg s) -> dg_map (dg s) !! f = Some v ->
  get_items s f T = match items_of (dg s) f !! T with Some l => Ret l | None => Throw (XNoItemsOfType f T) end.
Proof.
  intros Hwf Hf. unfold get_items. rewrite (get_vertex_some einv _ f v) by done. cbn. unfold get_items_v.
  rewrite (items_at_some s f v) by done. cbn. destruct (_ !! T); [done|].
  by rewrite (get_frame_id_some einv _ f v) by done.
Qed.
Lemma get_items_none s f T : dg_map (dg s) !! f = None -> get_items s f T = Throw (XUnknownFrame f).
Proof. intros Hf. unfold get_items. by rewrite get_vertex_none. Qed.

Lemma items_in_eq s f T : dg_wf (dg s) -> items_in s f T = default [] (items_of (dg s) f !! T).
Proof.
  intros Hwf. unfold items_in. destruct (dg_map (dg s) !! f) as [v|] eqn:Hf.
  - rewrite (get_items_some s f v) by done. by destruct (_ !! T).
  - rewrite get_items_none by done. unfold items_of. by rewrite Hf.
Qed.

Lemma all_items_eq io s f : dg_wf (dg s) -> iorder_ok io ->
  all_items io s f = concat (lists_of io (bg_vertex (dg s) f) (items_of (dg s) f)).
Proof.
  intros Hwf Hio. unfold all_items, visit_items. destruct (dg_map (dg s) !! f) as [v|] eqn:Hf.
  - rewrite (check_some s f v) by done. cbn. rewrite (bg_vertex_some _ _ _ Hf).
    by rewrite (items_at_some s f v) by done.
  - rewrite check_none by done. cbn. unfold items_of, lists_of. rewrite Hf.
    specialize (Hio (bg_vertex (dg s) f) ∅). rewrite map_to_list_empty in Hio. cbn in Hio.
    apply Permutation_nil_r in Hio. by rewrite Hio.
Qed.

(** *** Mutators *)

Lemma add_item_to_frame_eq f v i x s : dg_wf (dg s) -> dg_map (dg s) !! f = Some v -> es_heap s !! i = Some x ->
  add_item_to_frame f i s =
    (with_heap (<[i := ItemV (it_class x) f]> (es_heap s))
       (put f (<[it_type x := default [] (items_of (dg s) f !! it_type x) ++ [i]]> (items_of (dg s) f)) s),
     [EvItemAdded f i], Ret tt).
Proof.
  intros Hwf Hf Hi. unfold add_item_to_frame.
  erewrite cbind_read_ret by by eapply check_some. erewrite cbind_read_ret by (unfold deref; by rewrite Hi).
  erewrite cbind_read_ret by done. rewrite (bg_vertex_some _ _ _ Hf).
  erewrite cbind_read_ret by by apply items_at_some.
  erewrite cbind_ret by by eapply write_items_put. unfold cbind, set_item_frame, cnotify.
  cbn [es_heap put]. by rewrite Hi.
Qed.

Lemma add_item_to_frame_unknown f i s : dg_map (dg s) !! f = None ->
  add_item_to_frame f i s = (s, [], Throw (XUnknownFrame f)).
Proof. intros Hf. unfold add_item_to_frame. by erewrite cbind_read_throw by by apply check_none. Qed.

Lemma put_same_heap f m s : es_heap (put f m s) = es_heap s.
Proof. done. Qed.

Lemma put_id f v s : dg_wf (dg s) -> dg_map (dg s) !! f = Some v -> put f (items_of (dg s) f) s = s.
Proof.
  intros Hwf Hf. destruct s as [[g sb vw] h]. unfold put, gs_set_dg. cbn in *. f_equal. f_equal.
  rewrite (bg_vertex_some _ _ _ Hf). destruct g. unfold bg_set_data. cbn. f_equal.
  transitivity (id <$> dg_verts); [|apply list_fmap_id]. apply list_fmap_ext. intros n r Hr%elem_of_list_lookup_2. unfold id. destruct (Nat.eqb_spec (v_id r) v) as [He|]; [|done].
  unfold items_of. rewrite Hf.
  match goal with |- context [bg_vrec ?g ?v] => assert (bg_vrec g v = Some r) as -> by by apply (bg_vrec_iff einv) end.
  by destruct r.
Qed.

Lemma clear_list_eq f v k l s : dg_wf (dg s) -> dg_map (dg s) !! f = Some v -> l <> [] ->
  clear_list f v k l s = (put f (<[k := []]> (items_of (dg s) f)) s, EvItemRemoved f <$> l, Ret tt).
Proof.
  revert s. induction l as [|i l IH]; intros s Hwf Hf Hl; [done|]. cbn [clear_list fmap list_fmap].
  erewrite cbind_read_ret by by apply items_at_some. erewrite cbind_ret by by apply write_items_put.
  set (s1 := put f (<[k:=l]> (items_of (dg s) f)) s).
  assert (Hwf1 : dg_wf (dg s1)) by by apply wf_put.
  erewrite cbind_ret by done. destruct (decide (l = [])) as [->|Hne].
  - cbn. done.
  - rewrite (IH s1) by done.
    assert (Hm1 : items_of (dg s1) f = <[k := l]> (items_of (dg s) f)).
    { unfold s1. rewrite (items_of_put f v) by done. by rewrite decide_True. }
    rewrite Hm1, insert_insert. unfold s1. by rewrite put_put.
Qed.

Lemma clear_types_eq f v ks s : dg_wf (dg s) -> dg_map (dg s) !! f = Some v ->
  NoDup ks -> (forall k l, items_of (dg s) f !! k = Some l -> l <> []) ->
  clear_types f v ks s =
    (put f (filter (fun kl => kl.1 ∉ ks) (items_of (dg s) f)) s,
     EvItemRemoved f <$> concat ((fun k => default [] (items_of (dg s) f !! k)) <$> ks), Ret tt).
Proof.
  revert s. induction ks as [|k ks IH]; intros s Hwf Hf Hnd Hne; cbn [clear_types fmap list_fmap concat].
  - unfold cret. rewrite map_filter_id; [|intros ???; apply not_elem_of_nil]. by rewrite (put_id f v).
  - apply list.NoDup_cons in Hnd as [Hk Hnd].
    erewrite cbind_read_ret by by apply items_at_some.
    set (m := items_of (dg s) f) in *. set (l := default [] (m !! k)).
    set (s2 := put f (delete k m) s).
    assert (H2 : forall K : call (est E) unit, (clear_list f v k l ;;; m' <-- cread (fun s => items_at s v) ;; write_items v (delete k m') ;;; K) s =
      (let '(s3, ev3, r3) := K s2 in (s3, (EvItemRemoved f <$> l) ++ ev3, r3))).
    { intros K. destruct (decide (l = [])) as [Hl|Hl].
      - rewrite Hl. cbn [clear_list]. erewrite cbind_ret by done. erewrite cbind_read_ret by by apply items_at_some.
        erewrite cbind_ret by by apply write_items_put. fold m. fold s2. by destruct (K s2) as [[??]?].
      - erewrite cbind_ret by by apply clear_list_eq. fold m.
        set (s1 := put f (<[k := []]> m) s).
        assert (Hwf1 : dg_wf (dg s1)) by by apply wf_put.
        assert (Hm1 : items_of (dg s1) f = <[k := []]> m).
        { unfold s1. rewrite (items_of_put f v) by done. by rewrite decide_True. }
        erewrite cbind_read_ret by by apply items_at_some.
        erewrite cbind_ret by by apply write_items_put. rewrite Hm1. unfold s1. rewrite put_put, delete_insert_delete.
        fold s2. by destruct (K s2) as [[??]?]. }
    rewrite H2.
    assert (Hwf2 : dg_wf (dg s2)) by by apply wf_put.
    assert (Hm2 : items_of (dg s2) f = delete k m).
    { unfold s2. rewrite (items_of_put f v) by done. by rewrite decide_True. }
    rewrite (IH s2); [|done..|]; cycle 1.
    { intros k' l' Hkl. rewrite Hm2 in Hkl. apply lookup_delete_Some in Hkl as [_ Hkl]. by eapply Hne. }
    rewrite Hm2. unfold s2. rewrite put_put. rewrite fmap_app. apply (f_equal2 pair); [apply (f_equal2 pair)|done].
    + f_equal. apply map_eq. intros k'. apply option_eq. intros l'. rewrite !map_filter_lookup_Some, lookup_delete_Some. cbn.
      rewrite elem_of_cons. naive_solver.
    + do 3 f_equal. apply list_fmap_ext. intros n k' Hk'. rewrite lookup_delete_ne; [done|].
      intros <-. apply Hk. by eapply elem_of_list_lookup_2.
Qed.

Lemma iorder_nodup io v m : iorder_ok io -> NoDup (io v m).
Proof. intros Hio. rewrite (Hio v m). apply NoDup_fst_map_to_list. Qed.
Lemma iorder_elem io v m k : iorder_ok io -> k ∈ io v m <-> is_Some (m !! k).
Proof.
  intros Hio. rewrite (Hio v m), elem_of_list_fmap. split.
  - intros ([k' l] & -> & H%elem_of_map_to_list). by exists l.
  - intros [l H]. exists (k, l). by rewrite elem_of_map_to_list.
Qed.

Lemma clear_frame_eq io f v s : iorder_ok io -> dg_wf (dg s) -> dg_map (dg s) !! f = Some v ->
  (forall k l, items_of (dg s) f !! k = Some l -> l <> []) ->
  clear_frame io f s = (put f ∅ s, EvItemRemoved f <$> concat (lists_of io v (items_of (dg s) f)), Ret tt).
Proof.
  intros Hio Hwf Hf Hne. unfold clear_frame.
  erewrite cbind_read_ret by by eapply check_some. erewrite cbind_read_ret by done.
  rewrite (bg_vertex_some _ _ _ Hf). erewrite cbind_read_ret by by apply items_at_some.
  rewrite clear_types_eq by (try done; by apply iorder_nodup).
  apply (f_equal2 pair); [apply (f_equal2 pair)|done]; [|done]. f_equal. apply map_empty. intros k. apply eq_None_not_Some. intros [l Hl].
  apply map_filter_lookup_Some in Hl as [Hl H]. apply H. apply iorder_elem; [done|]. by exists l.
Qed.

Lemma clear_frame_unknown io f s : dg_map (dg s) !! f = None -> clear_frame io f s = (s, [], Throw (XUnknownFrame f)).
Proof. intros Hf. unfold clear_frame. by erewrite cbind_read_throw by by apply check_none. Qed.

Lemma erase_first_none i l : erase_first i l = None <-> i ∉ l.
Proof.
  induction l as [|j l IH]; cbn; [set_solver|]. destruct (Nat.eqb_spec j i) as [->|Hj]; [set_solver|].
  rewrite fmap_None, IH. set_solver.
Qed.
Lemma erase_first_some i l l' : erase_first i l = Some l' <-> exists l1 l2, l = l1 ++ i :: l2 /\ i ∉ l1 /\ l' = l1 ++ l2.
Proof.
  split.
  - revert l'. induction l as [|j l IH]; intros l'; cbn; [done|]. destruct (Nat.eqb_spec j i) as [->|Hj].
    + intros [= <-]. exists [], l. set_solver.
    + rewrite fmap_Some. intros (l0 & (l1 & l2 & -> & Hni & ->)%IH & ->). exists (j :: l1), l2. set_solver.
  - intros (l1 & l2 & -> & Hni & ->). induction l1 as [|j l1 IH]; cbn.
    + by rewrite Nat.eqb_refl.
    + rewrite (proj2 (Nat.eqb_neq j i)) by set_solver. rewrite IH by set_solver. done.
Qed.

(** The content after removing one item from a list. *)
Definition shrink (T : tyid) (l' : list iptr) (m : imap) : imap :=
  if decide (l' = []) then delete T m else <[T := l']> m.

Lemma remove_item_eq i x v l l' s : dg_wf (dg s) -> es_heap s !! i = Some x -> dg_map (dg s) !! it_frame x = Some v ->
  items_of (dg s) (it_frame x) !! it_type x = Some l -> erase_first i l = Some l' ->
  remove_item i s =
    (with_heap (<[i := ItemV (it_class x) ""]> (es_heap s)) (put (it_frame x) (shrink (it_type x) l' (items_of (dg s) (it_frame x))) s),
     [EvItemRemoved (it_frame x) i], Ret tt).
Proof.
  intros Hwf Hi Hf Hl Her. unfold remove_item.
  erewrite cbind_read_ret by (unfold deref; by rewrite Hi). erewrite cbind_read_ret by by apply (get_vertex_some einv).
  assert (Hg : get_items_v s v (it_type x) = Ret l).
  { unfold get_items_v. rewrite (items_at_some s (it_frame x) v) by done. cbn. by rewrite Hl. }
  erewrite cbind_read_ret by exact Hg. rewrite Her.
  erewrite cbind_read_ret by by apply items_at_some. erewrite cbind_ret by by apply write_items_put.
  set (s1 := put _ _ s). unfold cbind at 1, set_item_frame. cbn [es_heap s1 put]. rewrite Hi.
  unfold shrink. destruct (Nat.eqb_spec (length l') 0) as [H0|H0].
  - apply nil_length_inv in H0 as ->. rewrite decide_True by done.
    set (s2 := ESt _ _). assert (Hwf2 : dg_wf (dg s2)) by by apply wf_put.
    assert (Hm2 : items_of (dg s2) (it_frame x) = <[it_type x := []]> (items_of (dg s) (it_frame x))).
    { change (dg s2) with (dg s1). unfold s1. rewrite (items_of_put _ v) by done. by rewrite decide_True. }
    unfold cbind at 1. erewrite cbind_read_ret by by apply items_at_some.
    rewrite (write_items_put (it_frame x) v) by done. rewrite Hm2, delete_insert_delete. cbn.
    unfold with_heap, put. cbn. rewrite set_data_vertex. unfold gs_set_dg. cbn. by rewrite set_data_twice.
  - rewrite decide_False by (by intros ->). done.
Qed.

Lemma remove_item_no_frame i x s : es_heap s !! i = Some x -> dg_map (dg s) !! it_frame x = None ->
  remove_item i s = (s, [], Throw (XUnknownFrame (it_frame x))).
Proof.
  intros Hi Hf. unfold remove_item. erewrite cbind_read_ret by (unfold deref; by rewrite Hi).
  by erewrite cbind_read_throw by by apply get_vertex_none.
Qed.
Lemma remove_item_no_type i x v s : dg_wf (dg s) -> es_heap s !! i = Some x -> dg_map (dg s) !! it_frame x = Some v ->
  items_of (dg s) (it_frame x) !! it_type x = None ->
  remove_item i s = (s, [], Throw (XNoItemsOfType (it_frame x) (it_type x))).
Proof.
  intros Hwf Hi Hf Hl. unfold remove_item. erewrite cbind_read_ret by (unfold deref; by rewrite Hi).
  erewrite cbind_read_ret by by apply (get_vertex_some einv). erewrite cbind_read_throw; [done|].
  unfold get_items_v. rewrite (items_at_some s (it_frame x) v) by done. cbn. rewrite Hl.
  by rewrite (get_frame_id_some einv _ (it_frame x) v) by done.
Qed.
Lemma remove_item_not_there i x v l s : dg_wf (dg s) -> es_heap s !! i = Some x -> dg_map (dg s) !! it_frame x = Some v ->
  items_of (dg s) (it_frame x) !! it_type x = Some l -> i ∉ l ->
  remove_item i s = (s, [], Throw (XUnknownItem (it_frame x) i)).
Proof.
  intros Hwf Hi Hf Hl Hni. unfold remove_item. erewrite cbind_read_ret by (unfold deref; by rewrite Hi).
  erewrite cbind_read_ret by by apply (get_vertex_some einv).
  assert (Hg : get_items_v s v (it_type x) = Ret l).
  { unfold get_items_v. rewrite (items_at_some s (it_frame x) v) by done. cbn. by rewrite Hl. }
  erewrite cbind_read_ret by exact Hg. by rewrite (proj2 (erase_first_none i l)).
Qed.

(** The content after removing position [k] of a list through an iterator. *)
Definition cut (T : tyid) (k : nat) (l : list iptr) (m : imap) : imap :=
  if decide (S k = length l) then delete T m else <[T := take k l ++ drop (S k) l]> m.

Lemma remove_item_it_eq f alias T k i x v l s : dg_wf (dg s) -> dg_map (dg s) !! f = Some v ->
  items_of (dg s) f !! T = Some l -> l !! k = Some i -> es_heap s !! i = Some x -> it_type x = T -> it_frame x = f ->
  remove_item_it f alias T f k s =
    (with_heap (<[i := ItemV (it_class x) ""]> (es_heap s)) (put f (cut T k l (items_of (dg s) f)) s),
     [EvItemRemoved (if alias then "" else f) i], Ret tt).
Proof.
  intros Hwf Hf Hl Hk Hi HT Hfr. unfold remove_item_it.
  erewrite cbind_read_ret by by eapply check_some.
  erewrite cbind_read_ret with (a := i); cycle 1.
  { rewrite (get_items_some s f v), Hl, Hk by done. unfold cast_all. cbn. rewrite Hi. unfold is_a.
    rewrite (bool_decide_eq_true_2 (type_index (it_class x) = T)) by done. by rewrite orb_true_r. }
  erewrite cbind_read_ret by (unfold deref; by rewrite Hi).
  erewrite cbind_read_ret by by rewrite bool_decide_eq_true_2.
  erewrite cbind_read_ret by done. rewrite (bg_vertex_some _ _ _ Hf).
  erewrite cbind_read_ret by by apply items_at_some. rewrite Hl.
  erewrite cbind_read_ret by by rewrite bool_decide_eq_true_2.
  erewrite cbind_ret by by apply write_items_put.
  set (s1 := put _ _ s). unfold cbind at 1, set_item_frame. cbn [es_heap s1 put]. rewrite Hi.
  erewrite cbind_ret by done. unfold cut.
  assert (Hlt : k < length l) by by eapply lookup_lt_Some.
  assert (Hlen : length (take k l ++ drop (S k) l) = length l - 1).
  { rewrite app_length, take_length, drop_length. lia. }
  rewrite Hlen. destruct (Nat.eqb_spec k (length l - 1)) as [H0|H0].
  - rewrite decide_True by lia.
    set (s2 := ESt _ _). assert (Hwf2 : dg_wf (dg s2)) by by apply wf_put.
    assert (Hm2 : items_of (dg s2) f = <[T := take k l ++ drop (S k) l]> (items_of (dg s) f)).
    { change (dg s2) with (dg s1). unfold s1. rewrite (items_of_put _ v) by done. by rewrite decide_True. }
    erewrite cbind_read_ret by by apply items_at_some.
    rewrite (write_items_put f v) by done. rewrite Hm2, delete_insert_delete. cbn.
    unfold with_heap, put. cbn. rewrite set_data_vertex. unfold gs_set_dg. cbn. by rewrite set_data_twice.
  - rewrite decide_False by lia. done.
Qed.

End ops.
