(** Lemmas behind the properties of items in frames. *)
From stdpp Require Import prelude strings gmap gmultiset.
From Verif Require Import ListLib Outcome ItemClass Digraph Bfs TreeView GraphModel GraphOps GraphWf GraphStep
  SpecStore SpecObs GraphStore GraphRefine GraphThms GraphThms2 GraphEmit SpecReplica SpecQueue QueueThms
  ItemsModel SpecItems ItemsData ItemsOps GraphCopy ItemsLog ItemsCopy.

Section thms.
Context {E : Type} (einv : E -> E).
Local Notation dg_wf := (dg_wf (D := imap) einv).
Local Notation dg s := (gs_dg (es_g s)).
Local Notation ereachable := (ereachable einv).
Local Notation estep := (estep einv).
Local Notation erun := (erun einv).
Implicit Types s : est E.

Lemma ereachable_wf s : ereachable s -> dg_wf (dg s).
Proof. by intros [? _]%ereachable_inv. Qed.

Lemma known_map s f : contains_frame (es_g s) f = true -> exists v, dg_map (dg s) !! f = Some v.
Proof.
  unfold contains_frame, bg_vertex. destruct (dg_map (dg s) !! f); [by eexists|done].
Qed.
Lemma unknown_map s f : dg_wf (dg s) -> contains_frame (es_g s) f = false -> dg_map (dg s) !! f = None.
Proof. intros Hwf. rewrite (contains_frame_map einv) by done. intros H%bool_decide_eq_false. by apply eq_None_not_Some. Qed.
Lemma deref_heap s i x : deref s i = Ret x <-> es_heap s !! i = Some x.
Proof. unfold deref. destruct (es_heap s !! i); split; congruence. Qed.

(** *** Queries *)

Lemma item_lists_typed s f T l : ereachable s -> get_items s f T = Ret l ->
  l <> [] /\ forall i, i ∈ l -> exists x, deref s i = Ret x /\ it_type x = T.
Proof.
  intros [Hwf Hit]%ereachable_inv Hl. destruct (dg_map (dg s) !! f) as [v|] eqn:Hf.
  - rewrite (get_items_some einv s f v) in Hl by done. destruct (items_of (dg s) f !! T) as [l0|] eqn:Hl0; [|done].
    injection Hl as ->. destruct (Hit f T l Hl0) as [Hne Hall]. split; [done|]. rewrite list.Forall_forall in Hall.
    intros i Hi. destruct (Hall i Hi) as (x & Hx & HT). exists x. by rewrite deref_heap.
  - by rewrite get_items_none in Hl.
Qed.

Lemma item_queries_agree s f io : ereachable s -> iorder_ok io -> contains_frame (es_g s) f = true ->
  exists ts, get_item_types io s f = Ret ts /\ NoDup ts /\
    (forall T, T ∈ ts <-> items_in s f T <> []) /\
    (forall T, contains_items s f T = Ret (bool_decide (T ∈ ts))) /\
    (forall T, get_item_count s f T = Ret (length (items_in s f T))) /\
    (forall T, get_items s f T = if bool_decide (T ∈ ts) then Ret (items_in s f T) else Throw (XNoItemsOfType f T)) /\
    (forall T, get_items_t s f T = Ret (items_in s f T)) /\
    visit_items io s f = Ret (concat (items_in s f <$> ts)) /\
    get_total_item_count io s f = Ret (sum_list ((fun T => length (items_in s f T)) <$> ts)).
Proof.
  intros [Hwf Hit]%ereachable_inv Hio [v Hf]%known_map.
  assert (Hin : forall T, T ∈ io v (items_of (dg s) f) <-> is_Some (items_of (dg s) f !! T)) by (intros; by apply iorder_elem).
  assert (Hii : forall T, items_in s f T = default [] (items_of (dg s) f !! T)) by (intros; by apply (items_in_eq einv)).
  assert (Hl : lists_of io v (items_of (dg s) f) = items_in s f <$> io v (items_of (dg s) f)).
  { unfold lists_of. apply list_fmap_ext. intros n T _. by rewrite Hii. }
  exists (io v (items_of (dg s) f)). split; [|split; [by apply iorder_nodup|]]; [|split; [|split; [|split; [|split; [|split; [|split]]]]]].
  - unfold get_item_types. rewrite (get_vertex_some einv _ f v) by done. cbn. by rewrite (items_at_some einv s f v).
  - intros T. rewrite Hin, Hii. split.
    + intros [l Hl']. rewrite Hl'. cbn. by apply (Hit f T l).
    + destruct (_ !! T); [eauto|done].
  - intros T. unfold contains_items, contains_items_v. rewrite (get_vertex_some einv _ f v) by done. cbn.
    rewrite (items_at_some einv s f v) by done. cbn. f_equal. apply bool_decide_ext. by rewrite Hin.
  - intros T. unfold get_item_count, get_item_count_v. rewrite (get_vertex_some einv _ f v) by done. cbn.
    rewrite (items_at_some einv s f v) by done. cbn. rewrite Hii. by destruct (_ !! T).
  - intros T. rewrite (get_items_some einv s f v), Hii by done. destruct (bool_decide_reflect (T ∈ io v (items_of (dg s) f))) as [H|H];
      rewrite Hin in H; destruct (items_of (dg s) f !! T); try done; [by destruct H|by destruct H].
  - intros T. unfold get_items_t. rewrite (get_vertex_some einv _ f v) by done. cbn.
    rewrite (items_at_some einv s f v) by done. cbn. rewrite Hii. destruct (items_of (dg s) f !! T) as [l|] eqn:HT; [|done].
    destruct (Hit f T l HT) as [Hne Hall]. destruct l as [|i l]; [done|]. unfold cast_all.
    cbn [from_option id]. assert (Hb : forallb (fun i0 => match es_heap s !! i0 with Some x => is_a (it_class x) T | None => false end) (i :: l) = true).
    { apply forallb_forall. intros j Hj%elem_of_list_In. rewrite list.Forall_forall in Hall. destruct (Hall j Hj) as (x & -> & Hx).
      unfold is_a. rewrite (bool_decide_eq_true_2 (type_index (it_class x) = T)) by done. by rewrite orb_true_r. }
    by rewrite Hb.
  - unfold visit_items. rewrite (check_some einv s f v) by done. cbn. rewrite (bg_vertex_some _ _ _ Hf).
    rewrite (items_at_some einv s f v) by done. cbn. by rewrite Hl.
  - unfold get_total_item_count. rewrite (get_vertex_some einv _ f v) by done. cbn.
    rewrite (items_at_some einv s f v) by done. cbn. f_equal. rewrite Hl.
    generalize (io v (items_of (dg s) f)). intros ts.
    assert (G : forall c, foldl (fun c l => c + length l) c (items_in s f <$> ts) = c + sum_list ((fun T => length (items_in s f T)) <$> ts)).
    { induction ts as [|T ts IH]; intros c; cbn; [lia|]. rewrite IH. lia. }
    by rewrite G.
Qed.

Lemma item_queries_unknown s f io T : ereachable s -> contains_frame (es_g s) f = false ->
  get_item_types io s f = Throw (XUnknownFrame f) /\ contains_items s f T = Throw (XUnknownFrame f) /\
  get_item_count s f T = Throw (XUnknownFrame f) /\ get_items s f T = Throw (XUnknownFrame f) /\
  get_items_t s f T = Throw (XUnknownFrame f) /\ visit_items io s f = Throw (XUnknownFrame f) /\
  get_total_item_count io s f = Throw (XUnknownFrame f) /\ items_in s f T = [].
Proof.
  intros Hre Hf%unknown_map; [|by apply ereachable_wf]. unfold items_in, get_item_types, contains_items, get_item_count, get_items, get_items_t, visit_items, get_total_item_count.
  rewrite !get_vertex_none by done. by rewrite check_none.
Qed.

Lemma get_item_total s f T i : ereachable s ->
  get_item s f T i =
    if negb (contains_frame (es_g s) f) then Throw (XUnknownFrame f)
    else if Z.ltb i 0 then Throw XOutOfRange
    else if Nat.eqb (length (items_in s f T)) 0 then Throw (XNoItemsOfType f T)
    else match items_in s f T !! Z.to_nat i with Some p => Ret p | None => Throw XOutOfRange end.
Proof.
  intros [Hwf Hit]%ereachable_inv. unfold get_item. destruct (contains_frame (es_g s) f) eqn:Hc; cbn [negb].
  - apply known_map in Hc as [v Hf]. rewrite (get_vertex_some einv _ f v) by done. cbn [obind]. unfold get_item_v.
    destruct (Z.ltb_spec i 0); [done|]. rewrite (items_at_some einv s f v) by done. cbn [obind].
    rewrite (items_in_eq einv) by done. destruct (items_of (dg s) f !! T) as [l|] eqn:Hl; cbn [from_option id].
    + destruct (Nat.eqb_spec (length l) 0) as [H0|H0].
      { apply nil_length_inv in H0. by destruct (Hit f T l Hl). }
      destruct (Z.geb_spec i (Z.of_nat (length l))); [by rewrite lookup_ge_None_2 by lia|].
      destruct (lookup_lt_is_Some_2 l (Z.to_nat i)) as [p ->]; [lia|done].
    + cbn. by rewrite (get_frame_id_some einv _ f v) by done.
  - apply unknown_map in Hc; [|done]. by rewrite get_vertex_none.
Qed.

(** *** Adding and removing *)

Lemma frame_id_put f m s h v : dg_wf (dg s) -> get_frame_id (es_g (with_heap h (put f m s))) v = get_frame_id (es_g s) v.
Proof.
  intros Hwf. unfold get_frame_id. destruct (v =? null_vertex); [done|].
  change (gs_dg (es_g (with_heap h (put f m s)))) with (bg_set_data (bg_vertex (dg s) f) m (dg s)).
  rewrite (set_data_vrec einv) by done. destruct (bg_vrec (dg s) v) as [r|]; cbn [fmap option_fmap option_map]; [|done].
  by destruct (_ =? _).
Qed.
Lemma same_graph_put f m s h : dg_wf (dg s) -> same_graph s (with_heap h (put f m s)).
Proof.
  intros Hwf. split; try done. intros a b.
  unfold get_edge. change (get_vertex (es_g (with_heap h (put f m s)))) with (get_vertex (es_g s)).
  destruct (get_vertex (es_g s) a) as [va| | |]; cbn [obind]; try done.
  destruct (get_vertex (es_g s) b) as [vb| | |]; cbn [obind]; try done.
  unfold get_edge_v. rewrite !frame_id_put by done. f_equal.
  unfold find_edge. change (gs_dg (es_g (with_heap h (put f m s)))) with (bg_set_data (bg_vertex (dg s) f) m (dg s)).
  by rewrite set_data_alive.
Qed.
Lemma items_in_put f v m s h f' T : dg_wf (dg s) -> dg_map (dg s) !! f = Some v ->
  items_in (with_heap h (put f m s)) f' T = if decide (f' = f) then default [] (m !! T) else items_in s f' T.
Proof.
  intros Hwf Hf. rewrite (items_in_eq einv) by by apply wf_put.
  change (dg (with_heap h (put f m s))) with (dg (put f m s)). rewrite (items_of_put einv f v) by done.
  destruct (decide (f' = f)); [done|]. by rewrite (items_in_eq einv).
Qed.

Lemma add_item_to_frame_spec s f i x : ereachable s -> contains_frame (es_g s) f = true -> deref s i = Ret x ->
  exists s', add_item_to_frame f i s = (s', [EvItemAdded f i], Ret tt) /\
    items_in s' f (it_type x) = items_in s f (it_type x) ++ [i] /\
    (forall f' T, (f', T) <> (f, it_type x) -> items_in s' f' T = items_in s f' T) /\
    deref s' i = Ret (ItemV (it_class x) f) /\ (forall j, j <> i -> deref s' j = deref s j) /\
    same_graph s s'.
Proof.
  intros [Hwf Hit]%ereachable_inv [v Hf]%known_map Hx%deref_heap. eexists. split; [by apply (add_item_to_frame_eq einv f v i x)|].
  split; [|split; [|split; [|split]]].
  - rewrite (items_in_put f v) by done. rewrite decide_True, lookup_insert by done. by rewrite (items_in_eq einv).
  - intros f' T Hne. rewrite (items_in_put f v) by done. destruct (decide (f' = f)) as [->|]; [|done].
    rewrite lookup_insert_ne by congruence. by rewrite (items_in_eq einv).
  - apply deref_heap. cbn. by rewrite lookup_insert.
  - intros j Hj. unfold deref. cbn. by rewrite lookup_insert_ne.
  - by apply same_graph_put.
Qed.

Lemma add_item_unknown s f i : ereachable s -> contains_frame (es_g s) f = false ->
  add_item_to_frame f i s = (s, [], Throw (XUnknownFrame f)).
Proof. intros Hre Hf%unknown_map; [|by apply ereachable_wf]. by apply add_item_to_frame_unknown. Qed.

Lemma add_item_own_frame s i x : deref s i = Ret x -> add_item i s = add_item_to_frame (it_frame x) i s.
Proof. intros Hx. unfold add_item. erewrite cbind_read_ret by done. done. Qed.

Lemma remove_item_spec s i x l1 l2 : ereachable s -> deref s i = Ret x ->
  items_in s (it_frame x) (it_type x) = l1 ++ i :: l2 -> i ∉ l1 ->
  exists s', remove_item i s = (s', [EvItemRemoved (it_frame x) i], Ret tt) /\
    items_in s' (it_frame x) (it_type x) = l1 ++ l2 /\
    (forall f' T, (f', T) <> (it_frame x, it_type x) -> items_in s' f' T = items_in s f' T) /\
    deref s' i = Ret (ItemV (it_class x) "") /\ (forall j, j <> i -> deref s' j = deref s j) /\
    same_graph s s'.
Proof.
  intros [Hwf Hit]%ereachable_inv Hx%deref_heap Hl Hni. rewrite (items_in_eq einv) in Hl by done.
  destruct (items_of (dg s) (it_frame x) !! it_type x) as [l|] eqn:HT; cbn in Hl; [subst l|by destruct l1].
  destruct (dg_map (dg s) !! it_frame x) as [v|] eqn:Hf; [|unfold items_of in HT; by rewrite Hf in HT].
  eexists. split; [apply (remove_item_eq einv i x v (l1 ++ i :: l2) (l1 ++ l2)); try done; apply erase_first_some; eauto|].
  split; [|split; [|split; [|split]]].
  - rewrite (items_in_put _ v) by done. rewrite decide_True by done. unfold shrink. destruct (decide (l1 ++ l2 = [])) as [->|].
    + by rewrite lookup_delete.
    + by rewrite lookup_insert.
  - intros f' T Hne. rewrite (items_in_put _ v) by done. destruct (decide (f' = it_frame x)) as [->|]; [|done].
    rewrite (items_in_eq einv) by done. unfold shrink. destruct (decide (l1 ++ l2 = [])) as [_|].
    + rewrite lookup_delete_ne by congruence. done.
    + rewrite lookup_insert_ne by congruence. done.
  - apply deref_heap. cbn. by rewrite lookup_insert.
  - intros j Hj. unfold deref. cbn. by rewrite lookup_insert_ne.
  - by apply same_graph_put.
Qed.

Lemma remove_item_throws s i x : ereachable s -> deref s i = Ret x -> ~ stored s (it_frame x) i ->
  remove_item i s = (s, [], Throw (
    if negb (contains_frame (es_g s) (it_frame x)) then XUnknownFrame (it_frame x)
    else if Nat.eqb (length (items_in s (it_frame x) (it_type x))) 0 then XNoItemsOfType (it_frame x) (it_type x)
    else XUnknownItem (it_frame x) i)).
Proof.
  intros [Hwf Hit]%ereachable_inv Hx%deref_heap Hns. destruct (contains_frame (es_g s) (it_frame x)) eqn:Hc; cbn [negb].
  - apply known_map in Hc as [v Hf]. rewrite (items_in_eq einv) by done.
    destruct (items_of (dg s) (it_frame x) !! it_type x) as [l|] eqn:HT; cbn [from_option id].
    + rewrite (proj2 (Nat.eqb_neq _ 0)); cycle 1.
      { intros H0. apply nil_length_inv in H0. by destruct (Hit _ _ _ HT). }
      apply (remove_item_not_there einv i x v l); try done. intros Hi. apply Hns. exists (it_type x).
      by rewrite (items_in_eq einv), HT.
    + by apply (remove_item_no_type einv i x v).
  - apply unknown_map in Hc; [|done]. by apply remove_item_no_frame.
Qed.

(** *** Removal through an iterator *)

Lemma remove_item_it_spec s f T k i x alias : ereachable s -> items_in s f T !! k = Some i -> deref s i = Ret x -> it_frame x = f ->
  exists s', remove_item_it f alias T f k s = (s', [EvItemRemoved (if alias then "" else f) i], Ret tt) /\
    items_in s' f T = (if Nat.eqb (S k) (length (items_in s f T)) then [] else take k (items_in s f T) ++ drop (S k) (items_in s f T)) /\
    (forall f' T', (f', T') <> (f, T) -> items_in s' f' T' = items_in s f' T') /\
    deref s' i = Ret (ItemV (it_class x) "") /\ (forall j, j <> i -> deref s' j = deref s j) /\
    same_graph s s'.
Proof.
  intros [Hwf Hit]%ereachable_inv Hk Hx%deref_heap Hfr. rewrite (items_in_eq einv) in Hk |- * by done.
  destruct (items_of (dg s) f !! T) as [l|] eqn:HT; [|done]. cbn [from_option id] in *.
  destruct (dg_map (dg s) !! f) as [v|] eqn:Hf; [|unfold items_of in HT; by rewrite Hf in HT].
  assert (HxT : it_type x = T).
  { destruct (Hit f T l HT) as [_ Hall]. destruct (proj1 (list.Forall_lookup _ _) Hall k i Hk) as (y & Hy & <-). congruence. }
  eexists. split; [by apply (remove_item_it_eq einv f alias T k i x v l)|].
  split; [|split; [|split; [|split]]].
  - rewrite (items_in_put _ v) by done. rewrite decide_True by done. unfold cut. destruct (Nat.eqb_spec (S k) (length l)) as [H|H].
    + by rewrite decide_True, lookup_delete.
    + by rewrite decide_False, lookup_insert.
  - intros f' T' Hne. rewrite (items_in_put _ v) by done. destruct (decide (f' = f)) as [->|]; [|done].
    rewrite (items_in_eq einv) by done. unfold cut. destruct (decide (S k = length l)) as [_|].
    + rewrite lookup_delete_ne by congruence. done.
    + rewrite lookup_insert_ne by congruence. done.
  - apply deref_heap. cbn. by rewrite lookup_insert.
  - intros j Hj. unfold deref. cbn. by rewrite lookup_insert_ne.
  - by apply same_graph_put.
Qed.

(** *** Clearing and removing a frame *)

Lemma clear_frame_spec io s f : ereachable s -> iorder_ok io -> contains_frame (es_g s) f = true ->
  exists s', clear_frame io f s = (s', EvItemRemoved f <$> all_items io s f, Ret tt) /\
    (forall T, items_in s' f T = []) /\ (forall f' T, f' <> f -> items_in s' f' T = items_in s f' T) /\
    (forall i, deref s' i = deref s i) /\ same_graph s s'.
Proof.
  intros Hi%ereachable_inv Hio [v Hf]%known_map. pose proof Hi as [Hwf Hit]. exists (put f ∅ s). split.
  - rewrite (clear_frame_eq einv io f v) by (try done; by apply (Inv_nonempty einv)).
    rewrite (all_items_eq einv) by done. by rewrite (bg_vertex_some _ _ _ Hf).
  - split; [|split; [|split; [done|by apply (same_graph_put f ∅ s (es_heap s))]]].
    + intros T. pose proof (items_in_put f v ∅ s (es_heap s) f T Hwf Hf) as H. by rewrite decide_True, lookup_empty in H.
    + intros f' T Hne. pose proof (items_in_put f v ∅ s (es_heap s) f' T Hwf Hf) as H. by rewrite decide_False in H.
Qed.

Lemma clear_frame_throws io s f : ereachable s -> contains_frame (es_g s) f = false -> clear_frame io f s = (s, [], Throw (XUnknownFrame f)).
Proof. intros Hre Hf%unknown_map; [|by apply ereachable_wf]. by apply clear_frame_unknown. Qed.

Lemma connected_degree s f v : dg_wf (dg s) -> dg_map (dg s) !! f = Some v -> connected s f <-> 0 < bg_degree (dg s) v.
Proof.
  intros Hwf Hf. split.
  - intros [g Hg]. destruct (decide (bg_degree (dg s) v = 0)) as [H0|]; [|lia]. exfalso.
    rewrite (contains_edge_eq einv) in Hg by done. rewrite Hf in Hg. destruct (dg_map (dg s) !! g) as [w|] eqn:Hw; [|done].
    injection Hg as Hg. apply bool_decide_eq_true in Hg as [e He].
    apply (bg_edge_iff einv) in He as (He & Hs & _); [|done]. by destruct (wf_degree0 _ v H0 e He).
  - intros Hd. destruct (decide (bg_out (dg s) v = [])) as [Ho|Ho].
    + assert (Hin : bg_in (dg s) v <> []).
      { intros Hi. unfold bg_degree in Hd. rewrite Ho, Hi in Hd. cbn in Hd. lia. }
      destruct (bg_in (dg s) v) as [|e l] eqn:Hi; [done|]. assert (He : e ∈ bg_in (dg s) v) by (rewrite Hi; left).
      apply elem_of_list_filter in He as [He1 He2]. destruct (wf_inv einv _ Hwf e He2) as (e' & He' & Hs' & Ht' & _).
      assert (Hx : e' ∈ bg_out (dg s) v) by (apply elem_of_list_filter; split; [congruence|done]).
      rewrite Ho in Hx. by apply elem_of_nil in Hx.
    + destruct (bg_out (dg s) v) as [|e l] eqn:Hi; [done|]. assert (He : e ∈ bg_out (dg s) v) by (rewrite Hi; left).
      apply elem_of_list_filter in He as [He1 He2].
      pose proof (wf_tgt einv _ Hwf e He2) as Ht. apply elem_of_list_fmap in Ht as (r & Hr1 & Hr2).
      exists (v_name r). rewrite (contains_edge_eq einv) by done. rewrite Hf.
      assert (dg_map (dg s) !! v_name r = Some (v_id r)) as -> by (apply (wf_map einv _ Hwf); eauto).
      f_equal. apply bool_decide_eq_true_2. exists e. apply (bg_edge_iff einv); [done|]. split; [done|]. split; congruence.
Qed.

Lemma remove_frame_unknown io s f : ereachable s -> contains_frame (es_g s) f = false ->
  eg_remove_frame io f s = (s, [], Throw (XUnknownFrame f)).
Proof. intros Hre Hf. unfold eg_remove_frame, cbind. by rewrite clear_frame_throws. Qed.

Lemma remove_frame_connected io s f : ereachable s -> iorder_ok io -> contains_frame (es_g s) f = true -> connected s f ->
  exists s', eg_remove_frame io f s = (s', EvItemRemoved f <$> all_items io s f, Throw (XFrameStillConnected f)) /\
    (forall T, items_in s' f T = []) /\ (forall f' T, f' <> f -> items_in s' f' T = items_in s f' T) /\
    (forall i, deref s' i = deref s i) /\ same_graph s s' /\
    ((forall T, items_in s f T = []) -> s' = s).
Proof.
  intros Hre Hio Hc Hcon. destruct (known_map s f Hc) as [v Hf]. pose proof (ereachable_inv einv s Hre) as Hi. pose proof Hi as [Hwf Hit].
  destruct (clear_frame_spec io s f Hre Hio Hc) as (s' & Hs & H1 & H2 & H3 & H4). exists s'.
  assert (Hs' : s' = put f ∅ s).
  { rewrite (clear_frame_eq einv io f v) in Hs by (try done; by apply (Inv_nonempty einv)). by injection Hs. }
  split; [|split; [done|split; [done|split; [done|split; [done|]]]]].
  - unfold eg_remove_frame. unfold cbind. rewrite Hs. unfold lift.
    assert (Hwf' : dg_wf (dg s')) by (rewrite Hs'; by apply wf_put).
    rewrite (remove_frame_eq einv f v); [|done|by rewrite Hs'].
    rewrite bool_decide_eq_true_2; [|by rewrite Hs'; apply (connected_degree s f v)]. destruct s'. cbn. by rewrite app_nil_r.
  - intros He. rewrite Hs'. assert (H0 : items_of (dg s) f = ∅); [|by rewrite <- H0 at 1; apply (put_id einv f v)].
    apply map_empty. intros T. specialize (He T). rewrite (items_in_eq einv) in He by done.
    destruct (items_of (dg s) f !! T) as [l|] eqn:Hl; [|done]. cbn in He. subst l. by destruct (Hit f T [] Hl).
Qed.

Lemma remove_frame_ok io s f : ereachable s -> iorder_ok io -> contains_frame (es_g s) f = true -> ~ connected s f ->
  exists s', eg_remove_frame io f s = (s', (EvItemRemoved f <$> all_items io s f) ++ [EvFrameRemoved f], Ret tt) /\
    contains_frame (es_g s') f = false /\
    (forall f', f' <> f -> get_vertex (es_g s') f' = get_vertex (es_g s) f') /\
    (forall a b, a <> f -> b <> f -> contains_edge (es_g s') a b = contains_edge (es_g s) a b) /\
    (forall f' T, f' <> f -> items_in s' f' T = items_in s f' T) /\
    (forall i, deref s' i = deref s i).
Proof.
  intros Hre Hio Hc Hcon. destruct (known_map s f Hc) as [v Hf]. pose proof (ereachable_inv einv s Hre) as Hi. pose proof Hi as [Hwf Hit].
  destruct (clear_frame_spec io s f Hre Hio Hc) as (s1 & Hs & H1 & H2 & H3 & H4).
  assert (Hs1 : s1 = put f ∅ s).
  { rewrite (clear_frame_eq einv io f v) in Hs by (try done; by apply (Inv_nonempty einv)). by injection Hs. }
  assert (Hwf1 : dg_wf (dg s1)) by (rewrite Hs1; by apply wf_put).
  assert (Hf1 : dg_map (dg s1) !! f = Some v) by by rewrite Hs1.
  assert (Hd : bg_degree (dg s) v = 0).
  { destruct (decide (bg_degree (dg s) v = 0)); [done|]. destruct Hcon. apply (connected_degree s f v); [done..|lia]. }
  assert (Hd1 : bg_degree (dg s1) v = 0) by by rewrite Hs1.
  set (s' := ESt (gs_set_dg (bg_remove_vertex v f (dg s1)) (es_g s1)) (es_heap s1)).
  assert (Hwf' : dg_wf (dg s')) by by apply (wf_remove_vertex einv).
  assert (Hm' : forall f', f' <> f -> dg_map (dg s') !! f' = dg_map (dg s) !! f').
  { intros f' Hne. unfold s'. rewrite Hs1. cbn. by rewrite lookup_delete_ne. }
  exists s'. split; [|split; [|split; [|split; [|split]]]].
  - unfold eg_remove_frame. unfold cbind. rewrite Hs. unfold lift.
    rewrite (remove_frame_eq einv f v) by done. by rewrite bool_decide_eq_false_2 by lia.
  - rewrite (contains_frame_map einv) by done. apply bool_decide_eq_false_2. unfold s'. cbn. rewrite lookup_delete. by intros [? ?].
  - intros f' Hne. unfold get_vertex, bg_vertex. by rewrite Hm'.
  - intros a b Ha Hb. rewrite !(contains_edge_eq einv) by done. rewrite !Hm' by done.
    destruct (dg_map (dg s) !! a) as [va|]; [|done]. destruct (dg_map (dg s) !! b) as [vb|]; [|done].
    f_equal. apply bool_decide_ext. unfold s'. rewrite Hs1. done.
  - intros f' T Hne. rewrite <- H2 by done. rewrite !(items_in_eq einv) by done. f_equal. f_equal.
    unfold items_of. rewrite Hm' by done. assert (Hx : dg_map (dg s1) !! f' = dg_map (dg s) !! f') by by rewrite Hs1.
    rewrite Hx. destruct (dg_map (dg s) !! f') as [w|] eqn:Hw; [|done].
    assert (Hw1 : dg_map (dg s1) !! f' = Some w) by congruence.
    destruct (map_vrec einv _ f' w Hwf1 Hw1) as (r & Hr & Hn). rewrite Hr.
    apply (bg_vrec_iff einv) in Hr as [Hr Hid]; [|done].
    assert (bg_vrec (dg s') w = Some r) as ->; [|done]. apply (bg_vrec_iff einv); [done|]. split; [|done].
    unfold s'. cbn. apply elem_of_list_filter. split; [|done]. intros Hv. apply Hne.
    eapply (wf_map_inj einv); [exact Hwf1|exact Hw1|congruence].
  - done.
Qed.

(** *** Items know their frame *)

Definition quiet {A} (m : call (est E) A) : Prop := forall s s' ev r, Inv einv s -> m s = (s', ev, r) -> ok r ->
  Inv einv s' /\ es_heap s' = es_heap s /\ forall f, items_of (dg s') f = items_of (dg s) f \/ items_of (dg s') f = ∅.

Lemma quiet_bind {A B} (m : call (est E) A) (k : A -> call (est E) B) : quiet m -> (forall a, quiet (k a)) -> quiet (cbind m k).
Proof.
  intros Hm Hk s s' ev r Hi Hr Hok.
  apply cbind_inv in Hr as [(s1 & ev1 & a & ev2 & H1 & H2 & ->)|[(x & Hx & ->)|[[H ->]|[H ->]]]];
    [| |by destruct Hok..].
  - destruct (Hm _ _ _ _ Hi H1) as (I1 & F1 & G1); [done|]. destruct (Hk a _ _ _ _ I1 H2) as (I2 & F2 & G2); [done|].
    split; [done|]. split; [congruence|]. intros f. destruct (G2 f) as [-> | ->]; [|by right]. apply G1.
  - by destruct (Hm _ _ _ _ Hi Hx).
Qed.
Lemma quiet_read {A} (f : est E -> outcome A) : quiet (cread f).
Proof. intros s s' ev r Hi [= <- <- <-] _. auto. Qed.
Lemma quiet_ret {A} (a : A) : quiet (cret a).
Proof. intros s s' ev r Hi [= <- <- <-] _. auto. Qed.
Lemma quiet_clear_frame io f : iorder_ok io -> quiet (clear_frame io f).
Proof.
  intros Hio s s' ev r Hi Hr Hok. split; [by destruct (fine_clear_frame einv io f Hio s s' ev r Hi Hr Hok)|].
  destruct (dg_map (dg s) !! f) as [v|] eqn:Hf.
  - rewrite (clear_frame_eq einv io f v) in Hr by (try done; try apply (Inv_nonempty einv); by destruct Hi).
    injection Hr as <- _ _. split; [done|]. intros f'. rewrite (items_of_put einv f v) by (by destruct Hi).
    destruct (decide (f' = f)); auto.
  - rewrite clear_frame_unknown in Hr by done. injection Hr as <- _ _. auto.
Qed.
Lemma quiet_base ord op : base_op op -> (forall f, op <> ORemoveFrame f) -> quiet (lift (gstep ∅ einv ord op)).
Proof.
  intros Hb Hne s s' ev r Hi Hr Hok.
  destruct (fine_gstep einv ord op s s' ev r) as [Hi' _]; try done.
  { intros f ->. by destruct (Hne f). }
  split; [done|]. apply lift_inv in Hr as [Hs Hh]. split; [done|]. intros f.
  destruct Hb as [_ Hb]. pose proof (gstep_tracks ∅ einv (.= ∅) ord op eq_refl Hb _ _ _ _ Hs) as Ht.
  destruct (tracks_items einv _ _ f (proj1 Hi) (proj1 Hi') Ht); auto.
Qed.
Lemma quiet_remove_frame io f : iorder_ok io -> quiet (eg_remove_frame io f).
Proof.
  intros Hio s s' ev r Hi Hr Hok. split; [by destruct (fine_eg_remove_frame einv io f Hio s s' ev r Hi Hr Hok)|].
  unfold eg_remove_frame in Hr.
  apply cbind_inv in Hr as [(s1 & ev1 & a & ev2 & H1 & H2 & ->)|[(x & Hx & ->)|[[H ->]|[H ->]]]];
    [| |by destruct Hok..].
  - destruct (quiet_clear_frame io f Hio _ _ _ _ Hi H1) as (I1 & F1 & G1); [done|].
    apply lift_inv in H2 as [Hs Hh]. split; [congruence|]. intros f'.
    pose proof (tracking_remove_frame (.= ∅) f _ _ _ _ Hs) as Ht.
    assert (Hwf' : dg_wf (dg s')) by (eapply (lsteps_wf einv); [exact (proj1 I1)|by eapply (remove_frame_lsteps einv); [exact (proj1 I1)|]]).
    destruct (tracks_items einv _ _ f' (proj1 I1) Hwf' Ht) as [?| ->]; auto.
  - destruct (quiet_clear_frame io f Hio _ _ _ _ Hi Hx) as (I1 & F1 & G1); [done|]. auto.
Qed.
Lemma quiet_for_frames m fs : (forall f, quiet (m f)) -> quiet (for_frames (E := E) m fs).
Proof.
  intros Hm. induction fs as [|f fs IH]; cbn [for_frames]; [apply quiet_ret|]. apply quiet_bind; [done|intros _; exact IH].
Qed.
Lemma quiet_clear ord io : iorder_ok io -> quiet (clear (E := E) ord io).
Proof.
  intros Hio. unfold clear. apply quiet_bind; [apply quiet_read|intros fs]. apply quiet_bind; [|intros _].
  - apply quiet_for_frames. intros f. by apply (quiet_base ord (ODisconnect f)).
  - apply quiet_for_frames. intros f. by apply quiet_remove_frame.
Qed.

Definition Right s : Prop :=
  (forall f i, 0 < cnt (items_of (dg s) f) i -> exists x, es_heap s !! i = Some x /\ it_frame x = f) /\
  (forall f i, cnt (items_of (dg s) f) i <= 1).

Lemma quiet_right {A} (m : call (est E) A) s s' ev r : quiet m -> Inv einv s -> m s = (s', ev, r) -> ok r -> Right s -> Right s'.
Proof.
  intros Hq Hi Hm Hok [R1 R2]. destruct (Hq _ _ _ _ Hi Hm Hok) as (_ & Hh & Hc). split.
  - intros f i. rewrite Hh. destruct (Hc f) as [-> | ->]; [apply R1|]. rewrite cnt_empty. lia.
  - intros f i. destruct (Hc f) as [-> | ->]; [apply R2|]. rewrite cnt_empty. lia.
Qed.

Lemma stored_cnt s f i : dg_wf (dg s) -> stored s f i <-> 0 < cnt (items_of (dg s) f) i.
Proof.
  intros Hwf. unfold stored, cnt. rewrite occurrences_pos, elem_of_bag. split.
  - intros [T HT]. rewrite (items_in_eq einv) in HT by done. destruct (_ !! T) as [l|] eqn:Hl; [eauto|by apply elem_of_nil in HT].
  - intros (T & l & Hl & Hi). exists T. by rewrite (items_in_eq einv), Hl.
Qed.

(** Replacing the content of frame [f] and the frame name of one item. *)
Lemma right_put f v m s i x g : Inv einv s -> Right s -> dg_map (dg s) !! f = Some v -> es_heap s !! i = Some x ->
  (forall j, cnt m j <= 1) ->
  (forall j, j <> i -> cnt m j <= cnt (items_of (dg s) f) j) ->
  (0 < cnt m i -> g = f) -> (forall f', f' <> f -> 0 < cnt (items_of (dg s) f') i -> g = f') ->
  Right (with_heap (<[i := ItemV (it_class x) g]> (es_heap s)) (put f m s)).
Proof.
  intros [Hwf _] [R1 R2] Hf Hx Hle Hj Hi Ho. unfold Right.
  change (dg (with_heap (<[i := ItemV (it_class x) g]> (es_heap s)) (put f m s))) with (dg (put f m s)). cbn [es_heap with_heap].
  split; intros f' j; rewrite (items_of_put einv f v) by done.
  - destruct (decide (f' = f)) as [->|Hne]; intros Hc.
    + destruct (decide (j = i)) as [->|Hji].
      * rewrite lookup_insert. eexists. split; [done|]. by apply Hi.
      * rewrite lookup_insert_ne by done. apply R1. specialize (Hj j Hji). lia.
    + destruct (decide (j = i)) as [->|Hji].
      * rewrite lookup_insert. eexists. split; [done|]. by apply Ho.
      * rewrite lookup_insert_ne by done. by apply R1.
  - destruct (decide (f' = f)); [apply Hle|apply R2].
Qed.

Lemma right_heap s h : (forall i x, es_heap s !! i = Some x -> (exists f, 0 < cnt (items_of (dg s) f) i) -> h !! i = Some x) ->
  Right s -> Right (with_heap h s).
Proof.
  intros Hh [R1 R2]. split; [|done]. intros f i Hc. destruct (R1 f i Hc) as (x & Hx & Hxf). exists x. split; [|done].
  cbn. apply Hh; eauto.
Qed.

Lemma careful_add f i s s' ev r : Inv einv s -> Right s -> (forall f, ~ stored s f i) -> add_item_to_frame f i s = (s', ev, r) ->
  ok r -> Right s'.
Proof.
  intros Hi HR Hn Hr Hok. pose proof Hi as [Hwf _].
  assert (Hn0 : forall f', cnt (items_of (dg s) f') i = 0).
  { intros f'. specialize (Hn f'). rewrite stored_cnt in Hn by done. lia. }
  destruct (dg_map (dg s) !! f) as [v|] eqn:Hf; cycle 1.
  { rewrite add_item_to_frame_unknown in Hr by done. by injection Hr as <- _ _. }
  destruct (es_heap s !! i) as [x|] eqn:Hx; cycle 1.
  { exfalso. unfold add_item_to_frame in Hr. erewrite cbind_read_ret in Hr by by eapply (check_some einv).
    erewrite cbind_read_ub in Hr by (unfold deref; by rewrite Hx). injection Hr as <- <- <-. by destruct Hok. }
  rewrite (add_item_to_frame_eq einv f v i x) in Hr by done. injection Hr as <- _ _.
  assert (Hc : forall j, cnt (<[it_type x:=default [] (items_of (dg s) f !! it_type x) ++ [i]]> (items_of (dg s) f)) j =
     cnt (items_of (dg s) f) j + (if decide (j = i) then 1 else 0)).
  { intros j. rewrite cnt_insert, occurrences_app, occurrences_one.
    rewrite (cnt_delete (items_of (dg s) f) (it_type x)). destruct (decide (i = j)), (decide (j = i)); try congruence; lia. }
  eapply right_put; [done..| | | |]; try done.
  - intros j. rewrite Hc. destruct (decide (j = i)) as [->|]; [rewrite Hn0; lia|]. destruct HR as [_ R2]. specialize (R2 f j). lia.
  - intros j Hj. rewrite Hc, decide_False by done. lia.
  - intros f' _. rewrite Hn0. lia.
Qed.

Lemma careful_step ord io op s s' ev r : Inv einv s -> iorder_ok io -> eop_ok op -> careful s op -> Right s ->
  estep ord io op s = (s', ev, r) -> ok r -> Right s'.
Proof.
  intros Hi Hio Hop Hca HR Hr Hok. pose proof Hi as [Hwf Hit].
  destruct op as [op|i c f|i f|i|f i|i|f alias T itf k|f|]; cbn [ItemsModel.estep careful] in Hr, Hca.
  - assert (Hb : (forall f, op <> ORemoveFrame f) -> lift (gstep ∅ einv ord op) s = (s', ev, r) -> Right s').
    { intros Hne Hs. assert (Hb : base_op op) by by destruct op. by eapply (quiet_right (lift (gstep ∅ einv ord op))); [apply quiet_base|..]. }
    destruct op; try (apply Hb; [done|exact Hr]). eapply (quiet_right (eg_remove_frame io f)); try done. by apply quiet_remove_frame.
  - unfold new_item in Hr. destruct (es_heap s !! i) as [x|] eqn:Hx; injection Hr as <- <- <-; [by destruct Hok|].
    apply (right_heap s); [|done]. intros j x Hj _. rewrite lookup_insert_ne by congruence. done.
  - unfold set_item_frame in Hr. destruct (es_heap s !! i) as [x|] eqn:Hx; injection Hr as <- <- <-; [|by destruct Hok].
    apply (right_heap s); [|done]. intros j y Hj [f' Hf']. rewrite lookup_insert_ne; [done|]. intros ->.
    apply (Hca f'). by apply stored_cnt.
  - unfold add_item in Hr. destruct (es_heap s !! i) as [x|] eqn:Hx; cycle 1.
    { erewrite cbind_read_ub in Hr by (unfold deref; by rewrite Hx). injection Hr as <- <- <-. by destruct Hok. }
    erewrite cbind_read_ret in Hr by (unfold deref; by rewrite Hx). by eapply careful_add.
  - by eapply careful_add.
  - destruct (es_heap s !! i) as [x|] eqn:Hx; cycle 1.
    { exfalso. unfold remove_item in Hr. erewrite cbind_read_ub in Hr by (unfold deref; by rewrite Hx).
      injection Hr as <- <- <-. by destruct Hok. }
    destruct (dg_map (dg s) !! it_frame x) as [v|] eqn:Hf; cycle 1.
    { rewrite (remove_item_no_frame i x) in Hr by done. by injection Hr as <- <- <-. }
    destruct (items_of (dg s) (it_frame x) !! it_type x) as [l|] eqn:Hl; cycle 1.
    { rewrite (remove_item_no_type einv i x v) in Hr by done. by injection Hr as <- <- <-. }
    destruct (erase_first i l) as [l'|] eqn:Her; cycle 1.
    { apply erase_first_none in Her. rewrite (remove_item_not_there einv i x v l) in Hr by done. by injection Hr as <- <- <-. }
    rewrite (remove_item_eq einv i x v l l') in Hr by done. injection Hr as <- <- <-.
    assert (Hc : forall j, cnt (items_of (dg s) (it_frame x)) j = cnt (shrink (it_type x) l' (items_of (dg s) (it_frame x))) j + (if decide (i = j) then 1 else 0)).
    { intros j. rewrite (cnt_delete (items_of (dg s) (it_frame x)) (it_type x)), Hl. cbn [from_option id].
      apply erase_first_some in Her as (l1 & l2 & -> & _ & ->). rewrite occurrences_app, occurrences_cons.
      unfold shrink. destruct (decide (l1 ++ l2 = [])) as [He|He].
      + apply app_eq_nil in He as [-> ->]. cbn. lia.
      + rewrite cnt_insert, occurrences_app. lia. }
    pose proof HR as [R1 R2]. apply (right_put (it_frame x) v); try done.
    + intros j. specialize (R2 (it_frame x) j). specialize (Hc j). lia.
    + intros j Hj. specialize (Hc j). lia.
    + specialize (Hc i). specialize (R2 (it_frame x) i). rewrite decide_True in Hc by done. lia.
    + intros f' Hne Hc'. exfalso. destruct (R1 f' i Hc') as (y & Hy & Hyf). congruence.
  - destruct (remove_item_it_inv einv _ _ _ _ _ _ _ _ _ Hi Hr Hok)
      as [(-> & -> & _)|(-> & v & l & i & x & Hf & Hl & Hk & Hx & HT & Hfr)]; [done|].
    rewrite (remove_item_it_eq einv f alias T k i x v l) in Hr by done. injection Hr as <- <- <-.
    assert (Hc : forall j, cnt (cut T k l (items_of (dg s) f)) j + (if decide (i = j) then 1 else 0) <= cnt (items_of (dg s) f) j).
    { intros j. rewrite (cnt_delete (items_of (dg s) f) T), Hl. cbn [from_option id].
      assert (Ho : occurrences j l = occurrences j (take k l ++ i :: drop (S k) l)) by by rewrite take_drop_middle.
      rewrite Ho, occurrences_app, occurrences_cons. unfold cut. destruct (decide (S k = length l)) as [He|He]; [lia|].
      rewrite cnt_insert, occurrences_app. lia. }
    pose proof HR as [R1 R2]. apply (right_put f v); try done.
    + intros j. specialize (R2 f j). specialize (Hc j). lia.
    + intros j Hj. specialize (Hc j). lia.
    + specialize (Hc i). specialize (R2 f i). rewrite decide_True in Hc by done. lia.
    + intros f' Hne Hc'. exfalso. destruct (R1 f' i Hc') as (y & Hy & Hyf). congruence.
  - eapply (quiet_right (clear_frame io f)); try done. by apply quiet_clear_frame.
  - eapply (quiet_right (clear ord io)); try done. by apply quiet_clear.
Qed.

Lemma careful_run h s s' ev : Inv einv s -> Right s -> ehist_ok h -> all_calls einv careful h s -> erun h s = (s', ev, Ret tt) ->
  Inv einv s' /\ Right s'.
Proof.
  revert s s' ev. induction h as [|[[ord io] op] h IH]; intros s s' ev Hi HR Hh Hca Hr; cbn [ItemsModel.erun] in Hr.
  - by injection Hr as <- _.
  - apply list.Forall_cons in Hh as [[Hio Hop] Hh]. cbn in Hio, Hop. cbn [all_calls] in Hca. destruct Hca as [Hc1 Hc2].
    destruct (estep ord io op s) as [[s1 ev1] r1] eqn:H1. cbn [fst] in Hc2. destruct r1 as [u|x| |]; [| |done..].
    + destruct (erun h s1) as [[s2 ev2] r2] eqn:H2. injection Hr as <- <- ->.
      eapply (IH s1); [| |done..|done]; [by eapply (estep_fine einv ord io op)|by eapply (careful_step ord io op)].
    + destruct (erun h s1) as [[s2 ev2] r2] eqn:H2. injection Hr as <- <- ->.
      eapply (IH s1); [| |done..|done]; [by eapply (estep_fine einv ord io op)|by eapply (careful_step ord io op)].
Qed.

Lemma items_know_frame h s ev : ehist_ok h -> all_calls einv careful h (est_new ∅) -> erun h (est_new ∅) = (s, ev, Ret tt) ->
  forall f i, stored s f i -> exists x, deref s i = Ret x /\ it_frame x = f.
Proof.
  intros Hh Hc Hr. destruct (careful_run h (est_new ∅) s ev) as [[Hwf _] [R1 _]]; try done.
  - apply (Inv_new einv).
  - split; intros f i; change (items_of (dg (est_new ∅)) f) with (∅ : imap); rewrite cnt_empty; lia.
  - intros f i Hst. apply stored_cnt in Hst; [|done]. destruct (R1 f i Hst) as (x & Hx & Hf). exists x. by rewrite deref_heap.
Qed.

(** *** Events *)

Lemma mirrors_mir s r : dg_wf (dg s) -> mirrors s r <-> mir (dg s) r.
Proof.
  intros Hwf. unfold mirrors, mir, shape.
  assert (H1 : forall f, contains_frame (es_g s) f = true <-> is_Some (dg_map (dg s) !! f)).
  { intros f. rewrite (contains_frame_map einv) by done. by rewrite bool_decide_eq_true. }
  assert (H2 : forall a b, contains_edge (es_g s) a b = Ret true <->
    exists e, e ∈ dg_edges (dg s) /\ dg_map (dg s) !! a = Some (e_src e) /\ dg_map (dg s) !! b = Some (e_tgt e)).
  { intros a b. rewrite (contains_edge_eq einv) by done. destruct (dg_map (dg s) !! a) as [va|] eqn:Ha; [|split; [done|by intros (? & ? & ? & ?)]].
    destruct (dg_map (dg s) !! b) as [vb|] eqn:Hb; [|split; [done|by intros (? & ? & ? & ?)]]. split.
    - intros [= [e He]%bool_decide_eq_true]. apply (bg_edge_iff einv) in He as (? & ? & ?); [|done]. exists e. split; [done|]. split; congruence.
    - intros (e & He & [= ->] & [= ->]). f_equal. apply bool_decide_eq_true. exists e. by apply (bg_edge_iff einv). }
  assert (H3 : forall io f i, iorder_ok io -> occurrences i (all_items io s f) = cnt (items_of (dg s) f) i).
  { intros io f i Hio. rewrite (all_items_eq einv) by done. unfold cnt. apply occurrences_perm. by apply bag_lists. }
  split.
  - intros (G1 & G2 & G3). split; [split|].
    + intros f. by rewrite G1, H1.
    + intros a b. by rewrite G2, H2.
    + intros f i. assert (Hio : iorder_ok (fun _ m => (map_to_list m).*1)) by (intros ??; done).
      rewrite (G3 _ f i Hio). by apply H3.
  - intros ((G1 & G2) & G3). split; [|split].
    + intros f. by rewrite G1, H1.
    + intros a b. by rewrite G2, H2.
    + intros io f i Hio. by rewrite G3, H3.
Qed.

Lemma follow_run h s s' ev : Inv einv s -> ehist_ok h -> all_calls einv logged h s -> erun h s = (s', ev, Ret tt) ->
  Inv einv s' /\ follows s ev s'.
Proof.
  revert s s' ev. induction h as [|[[ord io] op] h IH]; intros s s' ev Hi Hh Hca Hr; cbn [ItemsModel.erun] in Hr.
  - injection Hr as <- <-. split; [done|apply follows_refl].
  - apply list.Forall_cons in Hh as [[Hio Hop] Hh]. cbn in Hio, Hop. cbn [all_calls] in Hca. destruct Hca as [Hc1 Hc2].
    destruct (estep ord io op s) as [[s1 ev1] r1] eqn:H1. cbn [fst] in Hc2. 
    assert (Hok : ok r1). { by destruct r1. }
    destruct (estep_fine einv ord io op s s1 ev1 r1) as [I1 F1]; try done.
    assert (Hr' : exists ev2, erun h s1 = (s', ev2, Ret tt) /\ ev = ev1 ++ ev2).
    { destruct r1; try done; destruct (erun h s1) as [[s2 ev2] r2] eqn:H2; injection Hr as <- <- ->; eauto. }
    destruct Hr' as (ev2 & H2 & ->). destruct (IH s1 s' ev2) as [I2 F2]; try done.
    split; [done|]. eapply follows_trans; [by apply F1|done].
Qed.

Lemma events_are_a_log s r h s' ev : ereachable s -> mirrors s r -> ehist_ok h -> all_calls einv logged h s ->
  erun h s = (s', ev, Ret tt) -> exists r', replay ev r = Some r' /\ mirrors s' r'.
Proof.
  intros Hre Hm Hh Hl Hr. pose proof (ereachable_inv einv s Hre) as Hi. destruct (follow_run h s s' ev) as [Hi' Hfo]; try done.
  apply mirrors_mir in Hm; [|by apply ereachable_wf]. destruct (Hfo r Hm) as (r' & Hr' & Hm'). exists r'. split; [done|].
  apply mirrors_mir; [by destruct Hi'|done].
Qed.

End thms.
