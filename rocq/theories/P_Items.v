(** Properties of items in frames, of events, of clearing and of copies: C07, C28-C30, C41-C49. *)
From stdpp Require Import prelude strings gmap gmultiset.
From Verif Require Import Outcome ItemClass Digraph Bfs TreeView GraphModel GraphOps SpecStore SpecObs GraphWf TransformModel ItemsModel
  SpecReplica SpecItems GraphThms ItemsData ItemsOps GraphCopy ItemsLog ItemsCopy ItemsThms ItemsPublish CopyModel CopyThms ExGraph ExTransform
  ExItems.

(** ** C07: clear empties the graph *)
(* No tree view is subscribed; [replay] puts the order of the events to the test: an edge or item must be present when its
   removal is announced, a frame must have neither edges nor items left. *)
Theorem C07_clear_empties {E} (einv : E -> E) ord io s : ereachable einv s -> iorder_ok io -> gs_subs (es_g s) = [] ->
  exists s' evE fs, clear ord io s =
      (s', evE ++ concat ((fun f => (EvItemRemoved f <$> all_items io s f) ++ [EvFrameRemoved f]) <$> fs), Ret tt) /\
    Forall is_edge_removed evE /\ (forall a b, times_edge a b evE = match contains_edge (es_g s) a b with Ret true => 1 | _ => 0 end) /\
    NoDup fs /\ (forall f, f ∈ fs <-> contains_frame (es_g s) f = true) /\
    num_vertices (es_g s') = 0 /\ num_edges (es_g s') = 0 /\
    (forall f, contains_frame (es_g s') f = false) /\
    (forall i, deref s' i = deref s i) /\
    gs_subs (es_g s') = [] /\ gs_views (es_g s') = gs_views (es_g s) /\
    (forall r, mirrors s r -> replay (evE ++ concat ((fun f => (EvItemRemoved f <$> all_items io s f) ++ [EvFrameRemoved f]) <$> fs)) r = Some empty_replica).
Proof. exact (clear_spec einv ord io s). Qed.
Print Assumptions C07_clear_empties.

Example C07_case : let s := istate Z.opp iops1 in
  ereachable Z.opp s /\ iorder_ok xio /\ gs_subs (es_g s) = [] /\
  snd (fst (clear xord xio s)) =
    [EvEdgeRemoved fa fb; EvEdgeRemoved fb fc] ++ (EvItemRemoved fa <$> [1; 2; 5; 3]) ++ [EvFrameRemoved fa] ++
    [EvItemRemoved fb 4; EvFrameRemoved fb; EvFrameRemoved fc; EvFrameRemoved fd].
Proof. split; [apply iops1_reachable|]. split; [apply xio_ok|]. by vm_compute. Qed.

(** ** C28: events are a faithful log *)
(* Exceptions are caught by the caller; the history may contain any calls but the removals through an iterator that
   [logged] leaves out and frames emplaced with items ([eop_ok]). *)
Theorem C28_events_are_a_log_partial {E} (einv : E -> E) s r h s' ev : ereachable einv s -> mirrors s r -> ehist_ok h -> all_calls einv logged h s ->
  erun einv h s = (s', ev, Ret tt) -> exists r', replay ev r = Some r' /\ mirrors s' r'.
Proof. exact (events_are_a_log einv s r h s' ev). Qed.
Print Assumptions C28_events_are_a_log_partial.


Example C28_case : ereachable Z.opp (est_new ∅) /\ mirrors (E := Z) (est_new ∅) empty_replica /\ ehist_ok (ihist iops3) /\
  all_calls Z.opp logged (ihist iops3) (est_new ∅) /\ snd (irun Z.opp iops3) = Ret tt /\
  length (snd (fst (irun Z.opp iops3))) = 18.
Proof.
  split; [apply ereachable_new|]. split; [apply mirrors_new|].
  split; [apply ihist_ok; ops_ok|]. split; [|by vm_compute].
  vm_compute. repeat split; [left|right]; lia.
Qed.

(* The full claim is false: removing the last of several items through an iterator removes them all but announces one. *)
Theorem C28_iterator_at_end_refuted : exists s r s' ev r', ereachable Z.opp s /\ mirrors s r /\
  estep Z.opp xord xio (ERemoveItemIt fa false cA fa 2) s = (s', ev, Ret tt) /\ replay ev r = Some r' /\ ~ mirrors s' r'.
Proof.
  set (s := istate Z.opp iops1). set (c := estep Z.opp xord xio (ERemoveItemIt fa false cA fa 2) s).
  exists s, (replica_of xio s), (fst (fst c)), (snd (fst c)), (default empty_replica (replay (snd (fst c)) (replica_of xio s))).
  split; [apply iops1_reachable|]. split.
  { apply (mirrors_eq Z.opp xio); [apply (ereachable_wf Z.opp), iops1_reachable|apply xio_ok|done]. }
  split; [apply split_call; by vm_compute|]. split; [apply some_default; by vm_compute|].
  intros (_ & _ & Hm). specialize (Hm xio fa 1 xio_ok). revert Hm. apply Nat.eqb_neq. by vm_compute.
Qed.
Print Assumptions C28_iterator_at_end_refuted.

(* removeItemFromFrame(item->getFrame(), it): the announced frame name has been reset by then. *)
Theorem C28_frame_of_item_refuted : exists s r s', ereachable Z.opp s /\ mirrors s r /\
  estep Z.opp xord xio (ERemoveItemIt fa true cA fa 0) s = (s', [EvItemRemoved "" 1], Ret tt) /\
  replay [EvItemRemoved "" 1] r = None.
Proof.
  set (s := istate Z.opp iops1). set (c := estep Z.opp xord xio (ERemoveItemIt fa true cA fa 0) s).
  exists s, (replica_of xio s), (fst (fst c)). split; [apply iops1_reachable|]. split.
  { apply (mirrors_eq Z.opp xio); [apply (ereachable_wf Z.opp), iops1_reachable|apply xio_ok|done]. }
  split; [|by vm_compute]. replace [EvItemRemoved "" 1] with (snd (fst c)) by (by vm_compute). apply split_call. by vm_compute.
Qed.
Print Assumptions C28_frame_of_item_refuted.

(* emplaceFrame with a frame that has items announces the frame only. *)
Theorem C28_emplaced_items_refuted : exists s r s' r', ereachable Z.opp s /\ mirrors s r /\
  estep Z.opp xord xio (EGraph (OEmplaceFrame "new" {[cA := [1]]})) s = (s', [EvFrameAdded "new"], Ret tt) /\
  replay [EvFrameAdded "new"] r = Some r' /\ ~ mirrors s' r'.
Proof.
  set (s := istate Z.opp iops1). set (c := estep Z.opp xord xio (EGraph (OEmplaceFrame "new" {[cA := [1]]})) s).
  exists s, (replica_of xio s), (fst (fst c)), (default empty_replica (replay [EvFrameAdded "new"] (replica_of xio s))).
  split; [apply iops1_reachable|]. split.
  { apply (mirrors_eq Z.opp xio); [apply (ereachable_wf Z.opp), iops1_reachable|apply xio_ok|done]. }
  split; [replace [EvFrameAdded "new"] with (snd (fst c)) by (by vm_compute); apply split_call; by vm_compute|]. split; [apply some_default; by vm_compute|].
  intros (_ & _ & Hm). specialize (Hm xio "new" 1 xio_ok). revert Hm. apply Nat.eqb_neq. by vm_compute.
Qed.
Print Assumptions C28_emplaced_items_refuted.

(** ** C29: publishCurrentState *)
Theorem C29_publish_describes_graph {E} (einv : E -> E) io s : ereachable einv s -> iorder_ok io ->
  exists ev r, eg_publish io s = (ev, Ret tt) /\ Forall is_added ev /\
    replay ev empty_replica = Some r /\ mirrors s r /\
    (forall f, times (EvFrameAdded f) ev = if contains_frame (es_g s) f then 1 else 0) /\
    (forall a b, times_edge a b ev = match contains_edge (es_g s) a b with Ret true => 1 | _ => 0 end) /\
    (forall f i, times (EvItemAdded f i) ev = occurrences i (all_items io s f)) /\
    (forall a b k, EvEdgeAdded a b k ∈ ev -> exists e, get_edge (es_g s) a b = Ret e /\ e_id e = k).
Proof. exact (publish_spec einv io s). Qed.
Print Assumptions C29_publish_describes_graph.

Example C29_case : ereachable Z.opp (istate Z.opp iops1) /\ iorder_ok xio /\
  fst (eg_publish xio (istate Z.opp iops1)) =
    [EvFrameAdded fa; EvFrameAdded fb; EvFrameAdded fc; EvFrameAdded fd; EvEdgeAdded fa fb 1; EvEdgeAdded fb fc 3] ++
    (EvItemAdded fa <$> [1; 2; 5; 3]) ++ [EvItemAdded fb 4].
Proof. split; [apply iops1_reachable|]. split; [apply xio_ok|]. by vm_compute. Qed.

(** ** C30: unpublishCurrentState *)
Theorem C30_unpublish_empties_replica {E} (einv : E -> E) io s : ereachable einv s -> iorder_ok io ->
  exists ev, eg_unpublish io s = (ev, Ret tt) /\ Forall is_removed ev /\
    (forall r, mirrors s r -> replay ev r = Some empty_replica) /\
    (forall f, times (EvFrameRemoved f) ev = if contains_frame (es_g s) f then 1 else 0) /\
    (forall a b, times_edge a b ev = match contains_edge (es_g s) a b with Ret true => 1 | _ => 0 end) /\
    (forall f i, times (EvItemRemoved f i) ev = occurrences i (all_items io s f)).
Proof. exact (unpublish_spec einv io s). Qed.
Print Assumptions C30_unpublish_empties_replica.

Example C30_case : ereachable Z.opp (istate Z.opp iops1) /\ iorder_ok xio /\
  fst (eg_unpublish xio (istate Z.opp iops1)) =
    (EvItemRemoved fa <$> [1; 2; 5; 3]) ++ [EvItemRemoved fb 4] ++
    [EvEdgeRemoved fa fb; EvEdgeRemoved fb fc; EvFrameRemoved fa; EvFrameRemoved fb; EvFrameRemoved fc; EvFrameRemoved fd].
Proof. split; [apply iops1_reachable|]. split; [apply xio_ok|]. by vm_compute. Qed.

(** ** C41: item queries agree *)
Theorem C41_lists_typed {E} (einv : E -> E) s f T l : ereachable einv s -> get_items s f T = Ret l ->
  l <> [] /\ forall i, i ∈ l -> exists x, deref s i = Ret x /\ it_type x = T.
Proof. exact (item_lists_typed einv s f T l). Qed.
Print Assumptions C41_lists_typed.

Theorem C41_queries_agree {E} (einv : E -> E) s f io : ereachable einv s -> iorder_ok io -> contains_frame (es_g s) f = true ->
  exists ts, get_item_types io s f = Ret ts /\ NoDup ts /\
    (forall T, T ∈ ts <-> items_in s f T <> []) /\
    (forall T, contains_items s f T = Ret (bool_decide (T ∈ ts))) /\
    (forall T, get_item_count s f T = Ret (length (items_in s f T))) /\
    (forall T, get_items s f T = if bool_decide (T ∈ ts) then Ret (items_in s f T) else Throw (XNoItemsOfType f T)) /\
    (forall T, get_items_t s f T = Ret (items_in s f T)) /\
    visit_items io s f = Ret (concat (items_in s f <$> ts)) /\
    get_total_item_count io s f = Ret (sum_list ((fun T => length (items_in s f T)) <$> ts)).
Proof. exact (item_queries_agree einv s f io). Qed.
Print Assumptions C41_queries_agree.

Theorem C41_queries_unknown_frame {E} (einv : E -> E) s f io T : ereachable einv s -> contains_frame (es_g s) f = false ->
  get_item_types io s f = Throw (XUnknownFrame f) /\ contains_items s f T = Throw (XUnknownFrame f) /\
  get_item_count s f T = Throw (XUnknownFrame f) /\ get_items s f T = Throw (XUnknownFrame f) /\
  get_items_t s f T = Throw (XUnknownFrame f) /\ visit_items io s f = Throw (XUnknownFrame f) /\
  get_total_item_count io s f = Throw (XUnknownFrame f) /\ items_in s f T = [].
Proof. exact (item_queries_unknown einv s f io T). Qed.
Print Assumptions C41_queries_unknown_frame.

Example C41_case : let s := istate Z.opp iops1 in
  ereachable Z.opp s /\ iorder_ok xio /\ contains_frame (es_g s) fa = true /\ contains_frame (es_g s) "z" = false /\
  get_items s fa cA = Ret [1; 2; 5] /\ get_item_types xio s fa = Ret [cA; cB] /\ get_total_item_count xio s fa = Ret 4 /\
  contains_items s fb cB = Ret false /\ (exists x, deref s 2 = Ret x /\ it_class x = cD /\ it_type x = cA).
Proof. split; [apply iops1_reachable|]. split; [apply xio_ok|]. vm_compute. do 6 (split; [done|]). eexists. done. Qed.

(** ** C42: adding and removing an item by pointer *)
Theorem C42_add {E} (einv : E -> E) s f i x : ereachable einv s -> contains_frame (es_g s) f = true -> deref s i = Ret x ->
  exists s', add_item_to_frame f i s = (s', [EvItemAdded f i], Ret tt) /\
    items_in s' f (it_type x) = items_in s f (it_type x) ++ [i] /\
    (forall f' T, (f', T) <> (f, it_type x) -> items_in s' f' T = items_in s f' T) /\
    deref s' i = Ret (ItemV (it_class x) f) /\ (forall j, j <> i -> deref s' j = deref s j) /\
    same_graph s s'.
Proof. exact (add_item_to_frame_spec einv s f i x). Qed.
Print Assumptions C42_add.

Theorem C42_add_unknown_frame {E} (einv : E -> E) s f i : ereachable einv s -> contains_frame (es_g s) f = false ->
  add_item_to_frame f i s = (s, [], Throw (XUnknownFrame f)).
Proof. exact (add_item_unknown einv s f i). Qed.
Print Assumptions C42_add_unknown_frame.

Theorem C42_add_own_frame {E} (s : est E) i x : deref s i = Ret x -> add_item i s = add_item_to_frame (it_frame x) i s.
Proof. exact (add_item_own_frame s i x). Qed.
Print Assumptions C42_add_own_frame.

Theorem C42_remove {E} (einv : E -> E) s i x l1 l2 : ereachable einv s -> deref s i = Ret x ->
  items_in s (it_frame x) (it_type x) = l1 ++ i :: l2 -> i ∉ l1 ->
  exists s', remove_item i s = (s', [EvItemRemoved (it_frame x) i], Ret tt) /\
    items_in s' (it_frame x) (it_type x) = l1 ++ l2 /\
    (forall f' T, (f', T) <> (it_frame x, it_type x) -> items_in s' f' T = items_in s f' T) /\
    deref s' i = Ret (ItemV (it_class x) "") /\ (forall j, j <> i -> deref s' j = deref s j) /\
    same_graph s s'.
Proof. exact (remove_item_spec einv s i x l1 l2). Qed.
Print Assumptions C42_remove.

(* An item that is not in its frame: an exception, nothing changes.  The exception is not always the documented
   UnknownItemException. *)
Theorem C42_remove_throws_partial {E} (einv : E -> E) s i x : ereachable einv s -> deref s i = Ret x -> ~ stored s (it_frame x) i ->
  remove_item i s = (s, [], Throw (
    if negb (contains_frame (es_g s) (it_frame x)) then XUnknownFrame (it_frame x)
    else if Nat.eqb (length (items_in s (it_frame x) (it_type x))) 0 then XNoItemsOfType (it_frame x) (it_type x)
    else XUnknownItem (it_frame x) i)).
Proof. exact (remove_item_throws einv s i x). Qed.
Print Assumptions C42_remove_throws_partial.

Example C42_case : let s := istate Z.opp iops1 in
  ereachable Z.opp s /\ contains_frame (es_g s) fd = true /\ deref s 6 = Ret (ItemV cB fd) /\
  deref s 2 = Ret (ItemV cD fa) /\ items_in s fa cA = [1] ++ 2 :: [5] /\ 2 ∉ [1] /\
  items_in (fst (fst (remove_item 2 s))) fa cA = [1; 5].
Proof.
  split; [apply iops1_reachable|]. do 4 (split; [by vm_compute|]). split; [|by vm_compute].
  intros H%elem_of_list_singleton. done.
Qed.

(* An item that is not in its frame, in a frame without items of its type: documented is UnknownItemException. *)
Theorem C42_documented_exception_refuted : exists s i x, ereachable Z.opp s /\ deref s i = Ret x /\
  contains_frame (es_g s) (it_frame x) = true /\ ~ stored s (it_frame x) i /\
  snd (remove_item i s) = Throw (XNoItemsOfType (it_frame x) (it_type x)).
Proof.
  exists (istate Z.opp iops1), 6, (ItemV cB fd). split; [apply iops1_reachable|]. split; [done|]. split; [done|]. split; [|by vm_compute].
  intros [T HT]. destruct (item_queries_agree Z.opp (istate Z.opp iops1) fd xio iops1_reachable xio_ok) as (ts & H1 & _ & H2 & _); [done|].
  assert (T ∈ ts) as Hts by (apply H2; intros He; cbn in HT; rewrite He in HT; by apply elem_of_nil in HT).
  vm_compute in H1. injection H1 as <-. by apply elem_of_nil in Hts.
Qed.
Print Assumptions C42_documented_exception_refuted.

(** ** C43: removing an item through an iterator *)
(* Missing: the last position of a list with other items.  There all of them are lost, see below. *)
Theorem C43_remove_by_iterator_partial {E} (einv : E -> E) s f T k i x : ereachable einv s -> items_in s f T !! k = Some i -> deref s i = Ret x -> it_frame x = f ->
  S k < length (items_in s f T) \/ length (items_in s f T) = 1 ->
  exists s', remove_item_it f false T f k s = (s', [EvItemRemoved f i], Ret tt) /\
    items_in s' f T = take k (items_in s f T) ++ drop (S k) (items_in s f T) /\
    (forall f' T', (f', T') <> (f, T) -> items_in s' f' T' = items_in s f' T') /\
    deref s' i = Ret (ItemV (it_class x) "") /\ (forall j, j <> i -> deref s' j = deref s j) /\
    same_graph s s'.
Proof.
  intros Hre Hk Hx Hf Hl. destruct (remove_item_it_spec einv s f T k i x false Hre Hk Hx Hf) as (s' & H1 & H2 & H3).
  exists s'. split; [exact H1|]. split; [|exact H3]. rewrite H2. apply lookup_lt_Some in Hk.
  destruct (Nat.eqb_spec (S k) (length (items_in s f T))) as [He|]; [|done].
  assert (Hn : length (take k (items_in s f T) ++ drop (S k) (items_in s f T)) = 0).
  { rewrite app_length, take_length, drop_length. lia. }
  by apply length_zero_iff_nil in Hn.
Qed.
Print Assumptions C43_remove_by_iterator_partial.

(* For every list with at least two items. *)
Theorem C43_remove_last_by_iterator_refuted {E} (einv : E -> E) s f T k i x : ereachable einv s -> items_in s f T !! k = Some i -> deref s i = Ret x -> it_frame x = f ->
  S k = length (items_in s f T) -> 2 <= length (items_in s f T) ->
  exists s', remove_item_it f false T f k s = (s', [EvItemRemoved f i], Ret tt) /\
    items_in s' f T = [] /\ items_in s' f T <> take k (items_in s f T) ++ drop (S k) (items_in s f T).
Proof.
  intros Hre Hk Hx Hf Hl Hn. destruct (remove_item_it_spec einv s f T k i x false Hre Hk Hx Hf) as (s' & H1 & H2 & H3).
  exists s'. split; [exact H1|]. rewrite Hl, Nat.eqb_refl in H2. split; [done|]. rewrite H2. intros He.
  apply (f_equal length) in He. rewrite app_length, take_length, drop_length in He. cbn in He. lia.
Qed.
Print Assumptions C43_remove_last_by_iterator_refuted.

Example C43_case : let s := istate Z.opp iops1 in
  ereachable Z.opp s /\ items_in s fa cA = [1; 2; 5] /\ items_in s fb cA = [4] /\
  deref s 2 = Ret (ItemV cD fa) /\ deref s 5 = Ret (ItemV cA fa) /\
  items_in (fst (fst (remove_item_it fa false cA fa 1 s))) fa cA = [1; 5] /\
  items_in (fst (fst (remove_item_it fa false cA fa 2 s))) fa cA = [] /\
  deref (fst (fst (remove_item_it fa false cA fa 2 s))) 1 = Ret (ItemV cA fa).
Proof. split; [apply iops1_reachable|]. by vm_compute. Qed.

(** ** C44: a failed removeFrame *)
Theorem C44_failed_remove_frame_partial {E} (einv : E -> E) io s f : ereachable einv s -> iorder_ok io ->
  contains_frame (es_g s) f = false \/ (connected s f /\ forall T, items_in s f T = []) ->
  eg_remove_frame io f s = (s, [], Throw (if contains_frame (es_g s) f then XFrameStillConnected f else XUnknownFrame f)).
Proof.
  intros Hre Hio Hc. destruct (contains_frame (es_g s) f) eqn:Hf.
  - destruct Hc as [?|[Hc Hi]]; [done|].
    destruct (remove_frame_connected einv io s f Hre Hio Hf Hc) as (s' & H1 & _ & _ & _ & _ & H6).
    rewrite (H6 Hi) in H1. rewrite H1. destruct (all_items io s f) as [|i l] eqn:Ha; [done|]. exfalso.
    unfold all_items in Ha. destruct (item_queries_agree einv s f io Hre Hio Hf) as (ts & _ & _ & _ & _ & _ & _ & _ & Hv & _).
    rewrite Hv in Ha. assert (Hn : forall us : list tyid, concat (items_in s f <$> us) = []).
    { induction us as [|u us IH]; [done|]. cbn. by rewrite Hi, IH. }
    by rewrite Hn in Ha.
  - by apply (remove_frame_unknown einv).
Qed.
Print Assumptions C44_failed_remove_frame_partial.

(* Missing: a connected frame with items.  For every such frame the claim is false: all items are gone and their removal has
   been announced. *)
Theorem C44_failed_remove_frame_refuted {E} (einv : E -> E) io s f i : ereachable einv s -> iorder_ok io -> contains_frame (es_g s) f = true ->
  connected s f -> stored s f i ->
  exists s', eg_remove_frame io f s = (s', EvItemRemoved f <$> all_items io s f, Throw (XFrameStillConnected f)) /\
    ~ stored s' f i /\ i ∈ all_items io s f /\
    (forall f' T, f' <> f -> items_in s' f' T = items_in s f' T) /\ (forall j, deref s' j = deref s j) /\ same_graph s s'.
Proof.
  intros Hre Hio Hf Hc [T Hi]. destruct (remove_frame_connected einv io s f Hre Hio Hf Hc) as (s' & H1 & H2 & H3 & H4 & H5 & _).
  exists s'. split; [exact H1|]. split; [|split; [|done]].
  - intros [T' Hi']. rewrite H2 in Hi'. by apply elem_of_nil in Hi'.
  - unfold all_items. destruct (item_queries_agree einv s f io Hre Hio Hf) as (ts & _ & _ & Ht & _ & _ & _ & _ & Hv & _).
    rewrite Hv. apply elem_of_concat. exists (items_in s f T). split; [done|].
    apply elem_of_list_fmap. exists T. split; [done|]. apply Ht. intros He. rewrite He in Hi. by apply elem_of_nil in Hi.
Qed.
Print Assumptions C44_failed_remove_frame_refuted.

(* What the successful call does. *)
Theorem C44_remove_frame_ok {E} (einv : E -> E) io s f : ereachable einv s -> iorder_ok io -> contains_frame (es_g s) f = true -> ~ connected s f ->
  exists s', eg_remove_frame io f s = (s', (EvItemRemoved f <$> all_items io s f) ++ [EvFrameRemoved f], Ret tt) /\
    contains_frame (es_g s') f = false /\
    (forall f', f' <> f -> get_vertex (es_g s') f' = get_vertex (es_g s) f') /\
    (forall a b, a <> f -> b <> f -> contains_edge (es_g s') a b = contains_edge (es_g s) a b) /\
    (forall f' T, f' <> f -> items_in s' f' T = items_in s f' T) /\
    (forall i, deref s' i = deref s i).
Proof. exact (remove_frame_ok einv io s f). Qed.
Print Assumptions C44_remove_frame_ok.

Example C44_case : let s := istate Z.opp iops1 in
  ereachable Z.opp s /\ iorder_ok xio /\
  connected s fc /\ get_total_item_count xio s fc = Ret 0 /\ connected s fa /\ stored s fa 2 /\ contains_frame (es_g s) fa = true /\
  contains_frame (es_g s) fd = true /\ ~ connected s fd /\ contains_frame (es_g s) "z" = false.
Proof.
  split; [apply iops1_reachable|]. split; [apply xio_ok|]. split; [by exists fb|]. split; [done|]. split; [by exists fb|].
  split; [exists cA; apply (bool_decide_unpack (2 ∈ [1; 2; 5])); by vm_compute|]. split; [done|]. split; [done|]. split; [|done].
  intros Hc. pose proof (ereachable_wf Z.opp _ iops1_reachable) as Hwf.
  apply (connected_degree Z.opp _ fd 4) in Hc; [|done|done]. vm_compute in Hc. lia.
Qed.

(** ** C45: an item knows the frame it is in *)
(* Histories on one graph in which an item is added only while it is in no frame and the user does not set the frame name of
   a stored item.  The second half of the claim holds for removals by pointer (C42_remove) and by iterator (C43) only. *)
Theorem C45_items_know_frame_partial {E} (einv : E -> E) h s ev : ehist_ok h -> all_calls einv careful h (est_new ∅) -> erun einv h (est_new ∅) = (s, ev, Ret tt) ->
  forall f i, stored s f i -> exists x, deref s i = Ret x /\ it_frame x = f.
Proof. exact (items_know_frame einv h s ev). Qed.
Print Assumptions C45_items_know_frame_partial.

(* clearFrame keeps the frame name of every item it removes. *)
Theorem C45_cleared_item_keeps_frame_refuted {E} (einv : E -> E) io s f i x : ereachable einv s -> iorder_ok io -> contains_frame (es_g s) f = true ->
  stored s f i -> deref s i = Ret x -> (forall f', stored s f' i -> f' = f) -> it_frame x = f ->
  exists s', clear_frame io f s = (s', EvItemRemoved f <$> all_items io s f, Ret tt) /\
    (forall f', ~ stored s' f' i) /\ exists y, deref s' i = Ret y /\ it_frame y = f.
Proof.
  intros Hre Hio Hf Hi Hx Hone Hxf. destruct (clear_frame_spec einv io s f Hre Hio Hf) as (s' & H1 & H2 & H3 & H4 & _).
  exists s'. split; [exact H1|]. split.
  - intros f' [T HT]. destruct (decide (f' = f)) as [->|Hne]; [rewrite H2 in HT; by apply elem_of_nil in HT|].
    rewrite H3 in HT by done. apply Hne, Hone. by exists T.
  - exists x. by rewrite H4.
Qed.
Print Assumptions C45_cleared_item_keeps_frame_refuted.

Example C45_case : ehist_ok (ihist iops4) /\ all_calls Z.opp careful (ihist iops4) (est_new ∅) /\
  snd (irun Z.opp iops4) = Ret tt /\ items_in (istate Z.opp iops4) fd cA = [1] /\ items_in (istate Z.opp iops4) fa cA = [5].
Proof.
  assert (Hok : ehist_ok (ihist iops4)) by (apply ihist_ok; ops_ok). split; [done|].
  split; [apply all_careful_ok; [apply ereachable_new|done|by vm_compute]|]. by vm_compute.
Qed.

(* Beyond these histories the first half is false too: an item can be added to two frames. *)
Theorem C45_item_in_two_frames_refuted : exists s, ereachable Z.opp s /\ stored s fa 1 /\ stored s fd 1 /\ deref s 1 = Ret (ItemV cA fd).
Proof.
  exists (istate Z.opp (iops1 ++ [EAddItemTo fd 1])). split; [apply istate_reachable; [ops_ok|by vm_compute]|].
  split; [exists cA; apply (bool_decide_unpack (1 ∈ [1; 2; 5])); by vm_compute|].
  split; [exists cA; apply (bool_decide_unpack (1 ∈ [1])); by vm_compute|by vm_compute].
Qed.
Print Assumptions C45_item_in_two_frames_refuted.

(* And a copied graph shares its items: removing an item from the copy resets the name of the item in the source. *)
Theorem C45_copies_share_items_refuted : exists w s s', wreachable Z.opp w /\ in_world w 0 s /\ in_world w 1 s' /\
  stored s fa 1 /\ deref s 1 = Ret (ItemV cA "") /\
  exists h, whist_ok h /\ wrun Z.opp h (World ∅ ∅) = (w, Ret tt) /\
    h = (fun op => (xord, xio, op)) <$> [WNew 0; WCall 0 (EGraph (OAddFrame fa)); WCall 0 (ENewItem 1 cA ""); WCall 0 (EAddItemTo fa 1);
                                         WCopy 0 1; WCall 1 (ERemoveItem 1)].
Proof.
  set (h := (fun op => (xord, xio, op)) <$> [WNew 0; WCall 0 (EGraph (OAddFrame fa)); WCall 0 (ENewItem 1 cA ""); WCall 0 (EAddItemTo fa 1);
                                         WCopy 0 1; WCall 1 (ERemoveItem 1)] : list ((viewid -> order) * iorder * wop Z)).
  assert (Hok : whist_ok h).
  { unfold whist_ok. apply list.Forall_fmap. repeat (apply list.Forall_cons; split; [split; [apply xio_ok|done]|]). apply list.Forall_nil. exact I. }
  set (w := fst (wrun Z.opp h (World ∅ ∅))).
  assert (Hw : wrun Z.opp h (World ∅ ∅) = (w, Ret tt)).
  { assert (Hr : snd (wrun Z.opp h (World ∅ ∅)) = Ret tt) by by vm_compute.
    unfold w. by destruct (wrun Z.opp h (World ∅ ∅)) as [w0 r0]; cbn in Hr; subst. }
  exists w, (ESt (default gst0 (w_graphs w !! 0)) (w_heap w)), (ESt (default gst0 (w_graphs w !! 1)) (w_heap w)).
  assert (Hg : forall g, match w_graphs w !! g with Some _ => true | None => false end = true ->
    in_world w g (ESt (default gst0 (w_graphs w !! g)) (w_heap w))).
  { intros g Hg. split; [|done]. cbn [es_g]. by destruct (w_graphs w !! g). }
  split; [exists h; split; [exact Hok|exact Hw]|]. split; [apply Hg; by vm_compute|]. split; [apply Hg; by vm_compute|].
  split; [exists cA; apply (bool_decide_unpack (1 ∈ _)); by vm_compute|]. split; [by vm_compute|].
  exists h. split; [exact Hok|]. split; [exact Hw|reflexivity].
Qed.
Print Assumptions C45_copies_share_items_refuted.

(** ** C46: filtered copies *)
(* Partial only because the copy itself can be undefined, see C47; the source is an argument of the call, a value. *)
Theorem C46_filtered_copy_partial {E} (einv : E -> E) io fl incl s c : ereachable einv s -> iorder_ok io -> eg_filter_copy io fl incl s = Ret c ->
  ereachable einv c /\ same_shape s c /\
  (forall f X, kept fl incl X -> get_items c f X = get_items s f X) /\
  (forall f X, ~ kept fl incl X -> items_in c f X = [] /\ contains_items c f X <> Ret true) /\
  (forall i, deref c i = deref s i) /\ gs_subs (es_g c) = [] /\ gs_views (es_g c) = ∅.
Proof. exact (filter_copy_spec einv io fl incl s c). Qed.
Print Assumptions C46_filtered_copy_partial.

(* The filtered copy is defined exactly when the plain copy is; C47_copy_defined_partial says when. *)
Theorem C46_defined_like_copy {E} io fl incl (s : est E) :
  (exists c, eg_filter_copy io fl incl s = Ret c) <-> (exists c, eg_copy s = Ret c).
Proof.
  unfold eg_filter_copy, eg_copy. destruct (copy_graph (es_g s)) as [g| | |]; cbn; (split; intros [c Hc]; try done); [by eexists|].
  destruct fl; by eexists.
Qed.
Print Assumptions C46_defined_like_copy.

Example C46_case : let s := istate Z.opp iops1 in ereachable Z.opp s /\ iorder_ok xio /\
  exists c d, eg_filter_copy xio (Some [cA]) true s = Ret c /\ eg_filter_copy xio (Some [cA]) false s = Ret d /\
    items_in c fa cA = [1; 2; 5] /\ items_in c fa cB = [] /\ items_in d fa cA = [] /\ items_in d fa cB = [3] /\
    kept (Some [cA]) true cA /\ ~ kept (Some [cA]) true cB.
Proof.
  split; [apply iops1_reachable|]. split; [apply xio_ok|]. eexists _, _. split; [by vm_compute|]. split; [by vm_compute|].
  do 4 (split; [by vm_compute|]). split; [apply (bool_decide_unpack (cA ∈ [cA])); by vm_compute|].
  intros H. apply (bool_decide_pack (cB ∈ [cA])) in H. by vm_compute in H.
Qed.

(** ** C47: copies are equal and independent *)
Theorem C47_copy_equal_partial {E} (einv : E -> E) s c : ereachable einv s -> eg_copy s = Ret c ->
  ereachable einv c /\ same_shape s c /\ (forall f X, get_items c f X = get_items s f X) /\
  (forall f, get_frame_property (es_g c) f = get_frame_property (es_g s) f) /\
  (forall i, deref c i = deref s i) /\ gs_subs (es_g c) = [] /\ gs_views (es_g c) = ∅.
Proof. exact (copy_spec einv s c). Qed.
Print Assumptions C47_copy_equal_partial.

(* Graph itself, with any frame properties: copy and source cannot be told apart by later calls that use names. *)
Theorem C47_copy_behaves_alike_partial {E} (einv : E -> E) {D} (d0 : D) (s c : gst D E) st h1 h2 s' ev r : reachable d0 einv s -> gs_subs s = [] ->
  copy_graph s = Ret c -> observes s st ->
  Forall (fun p => sop_noself (snd p)) h1 -> snd <$> h1 = snd <$> h2 ->
  run d0 einv (prod_map id call_of <$> h1) s = (s', ev, r) ->
  observes c st /\
  exists c' ev', run d0 einv (prod_map id call_of <$> h2) c = (c', ev', r) /\
    exists st', observes s' st' /\ observes c' st'.
Proof.
  intros Hre Hsub Hc Hst Hns Heq Hrun. apply reachable_wf in Hre. split; [by eapply copy_observes|]. by eapply copy_alike.
Qed.
Print Assumptions C47_copy_behaves_alike_partial.

(* Without removed frames the copy is defined. *)
Theorem C47_copy_defined_partial {E} (einv : E -> E) h s ev : ehist_ok h -> erun einv h (est_new ∅) = (s, ev, Ret tt) ->
  (forall f, EvFrameRemoved f ∉ ev) -> exists c, eg_copy s = Ret c.
Proof. exact (copy_defined einv h s ev). Qed.
Print Assumptions C47_copy_defined_partial.

Theorem C47_plain_copy_defined_partial {E} (einv : E -> E) {D} (d0 : D) h (s : gst D E) ev : hist_noself h -> run d0 einv h gst0 = (s, ev, Ret tt) ->
  (forall f, EvFrameRemoved f ∉ ev) -> exists g, copy_graph s = Ret g.
Proof. exact (copy_plain_defined einv d0 h s ev). Qed.
Print Assumptions C47_plain_copy_defined_partial.

(* Whatever a program does with its other graphs, graph [g] with its frames, edges, properties, item lists and views stays as it
   is, and no item is destroyed or changes its type. *)
Theorem C47_graphs_independent {E} (einv : E -> E) h g (w w' : world E) r : wrun einv h w = (w', r) -> Forall (fun x => acts_on x.2 <> g) h ->
  w_graphs w' !! g = w_graphs w !! g /\
  forall i x, w_heap w !! i = Some x -> exists y, w_heap w' !! i = Some y /\ it_type y = it_type x.
Proof. exact (wrun_others einv h g w w' r). Qed.
Print Assumptions C47_graphs_independent.

Example C47_case : let s := istate Z.opp iops1 in ereachable Z.opp s /\
  (exists c, eg_copy s = Ret c /\ items_in c fa cA = [1; 2; 5] /\ get_edge_property (es_g c) fc fb = Ret (-2)%Z) /\
  ehist_ok (ihist iops1) /\ snd (irun Z.opp iops1) = Ret tt /\ (forall f, EvFrameRemoved f ∉ snd (fst (irun Z.opp iops1))).
Proof.
  split; [apply iops1_reachable|]. split; [eexists; split; [by vm_compute|by vm_compute]|].
  split; [apply ihist_ok, iops1_ok|]. split; [by vm_compute|]. intros f Hf.
  apply elem_of_list_In in Hf. vm_compute in Hf. repeat (destruct Hf as [Hf|Hf]; [done|]). done.
Qed.

(* The full claim is false: copying a graph from which a frame was removed is undefined behaviour. *)
Theorem C47_copy_after_removal_refuted : exists s, ereachable Z.opp s /\ eg_copy s = UB /\
  (exists h, s = istate Z.opp h /\ Forall eop_ok h).
Proof.
  exists (istate Z.opp [EGraph (OAddFrame fa); EGraph (OAddFrame fb); EGraph (ORemoveFrame fa)]).
  split; [apply istate_reachable; [ops_ok|by vm_compute]|]. split; [by vm_compute|]. eexists. split; [done|]. ops_ok.
Qed.
Print Assumptions C47_copy_after_removal_refuted.

(** ** C49: indexed access *)
Theorem C49_get_item {E} (einv : E -> E) s f T i : ereachable einv s ->
  get_item s f T i =
    if negb (contains_frame (es_g s) f) then Throw (XUnknownFrame f)
    else if Z.ltb i 0 then Throw XOutOfRange
    else if Nat.eqb (length (items_in s f T)) 0 then Throw (XNoItemsOfType f T)
    else match items_in s f T !! Z.to_nat i with Some p => Ret p | None => Throw XOutOfRange end.
Proof. exact (get_item_total einv s f T i). Qed.
Print Assumptions C49_get_item.

Example C49_case : let s := istate Z.opp iops1 in ereachable Z.opp s /\
  get_item s fa cA 2 = Ret 5 /\ get_item s fa cA 3 = Throw XOutOfRange /\ get_item s fa cA (-1) = Throw XOutOfRange /\
  get_item s fb cB 0 = Throw (XNoItemsOfType fb cB) /\ get_item s "z" cA 0 = Throw (XUnknownFrame "z").
Proof. split; [apply iops1_reachable|]. by vm_compute. Qed.

(** ** C48: structural copies *)
Theorem C48_structural_copy {T} (one : T) mul inv (s d : est (tf T)) : (forall x, inv (inv x) = x) ->
  ereachable (tf_inverse inv) s -> ereachable (tf_inverse inv) d ->
  num_vertices (es_g d) = 0 -> gs_subs (es_g d) = [] ->
  exists d' ev, create_structural_copy one mul inv s d = (d', ev, Ret tt) /\ same_shape s d' /\
    (forall f X, items_in d' f X = []) /\ (forall i, deref d' i = deref d i).
Proof. exact (structural_copy_spec one mul inv s d). Qed.
Print Assumptions C48_structural_copy.

Example C48_case : (forall x, mot_inv (mot_inv x) = x) /\ ereachable mtf_inv (istate mtf_inv iops2) /\ ereachable mtf_inv (est_new ∅) /\
  exists d' ev, create_structural_copy mot_one mot_mul mot_inv (istate mtf_inv iops2) (est_new ∅) = (d', ev, Ret tt) /\
    num_edges (es_g d') = 6 /\ get_edge_property (es_g d') fa fc = Ret (Tf 3 (mot_mul (mot_inv (mpose fa)) (mpose fc))).
Proof.
  split; [intros [[] z]; unfold mot_inv; cbn; f_equal; lia|]. split; [apply iops2_reachable|]. split; [apply ereachable_new|].
  eexists _, _. split; [by vm_compute|]. by vm_compute.
Qed.
