(** Iterators over items: proofs. *)
From stdpp Require Import prelude strings gmap.
From Verif Require Import ListLib Outcome ItemClass Digraph Bfs TreeView GraphModel GraphOps GraphWf GraphStep SpecStore SpecObs
  GraphStore GraphRefine GraphThms GraphEmit ItemsModel SpecReplica SpecItems ItemsData ItemsOps ItemsLog ItemsCopy ItemsThms IterModel SpecIter.

Section iter.
Context {E : Type} (einv : E -> E).
Local Notation ereachable := (ereachable einv).
Local Notation dg s := (gs_dg (es_g s)).
Implicit Types s : est E.

Lemma remove_it_reachable s f T k s' ev : ereachable s -> remove_item_it f false T f k s = (s', ev, Ret tt) -> ereachable s'.
Proof.
  intros Hre Hr.
  apply (ereachable_run einv [((fun _ _ _ l => l), (fun _ m => (map_to_list m).*1), ERemoveItemIt f false T f k)] s s' ev); [done| |].
  - apply list.Forall_singleton. split; [by intros ??|done].
  - cbn [erun estep]. by rewrite Hr, app_nil_r.
Qed.

Lemma get_items_in s f T : items_in s f T <> [] -> get_items s f T = Ret (items_in s f T).
Proof. unfold items_in. by destruct (get_items s f T). Qed.

Lemma items_typed s f T i : ereachable s -> i ∈ items_in s f T -> exists x, deref s i = Ret x /\ it_type x = T.
Proof.
  intros [Hwf Hit]%(ereachable_inv einv) Hi. rewrite (items_in_eq einv) in Hi by done.
  destruct (items_of (dg s) f !! T) as [l|] eqn:Hl; [|by apply elem_of_nil in Hi]. cbn in Hi.
  destruct (Hit f T l Hl) as [_ Hall]. rewrite list.Forall_forall in Hall. destruct (Hall i Hi) as (x & Hx & HT).
  exists x. split; [|done]. unfold deref. by rewrite Hx.
Qed.

Lemma range_item_eq s f T k i : ereachable s -> items_in s f T !! k = Some i -> range_item f T k s = Ret i.
Proof.
  intros Hre Hk. unfold range_item. rewrite get_items_in by (intros He; by rewrite He in Hk). rewrite Hk.
  destruct (items_typed s f T i Hre) as (x & Hx & HT); [by eapply elem_of_list_lookup_2|].
  unfold cast_all. cbn. unfold deref in Hx. destruct (es_heap s !! i) as [y|]; [|done]. injection Hx as ->.
  unfold is_a. rewrite (bool_decide_eq_true_2 (type_index (it_class x) = T)) by done. by rewrite orb_true_r.
Qed.

Lemma remove_range_eq s f T k s' ev : items_in s f T <> [] -> remove_item_it f false T f k s = (s', ev, Ret tt) ->
  remove_range f T k s = (s', ev, Ret (IRange k (pred (length (items_in s f T))) (Nat.eqb k (pred (length (items_in s f T)))))).
Proof.
  intros Hne Hr. unfold remove_range. erewrite cbind_read_ret by done. rewrite (get_items_in s f T Hne).
  unfold cbind, cret. rewrite Hr. by rewrite app_nil_r.
Qed.

(** What the loop leaves of the list: if it erases the last position, nothing at all. *)
Definition left_over (p : iptr -> bool) (l : list iptr) : list iptr :=
  match last l with Some i => if p i then [] else filter (fun i => p i = false) l | None => [] end.

Lemma same_graph_refl s : same_graph s s.
Proof. by split. Qed.
Lemma same_graph_trans s1 s2 s3 : same_graph s1 s2 -> same_graph s2 s3 -> same_graph s1 s3.
Proof. intros [] []. split; intros; congruence. Qed.

Lemma loop_exact p f T rest : forall kept fuel s, ereachable s -> items_in s f T = kept ++ rest ->
  length rest < fuel -> NoDup (filter (fun i => p i = true) rest) ->
  (forall i x, i ∈ rest -> p i = true -> deref s i = Ret x -> it_frame x = f) ->
  exists s', erase_loop false p f T fuel (IRange (length kept) (length (kept ++ rest)) false) s =
      (s', EvItemRemoved f <$> filter (fun i => p i = true) rest, Ret tt) /\ ereachable s' /\
    erased s s' f T (filter (fun i => p i = true) rest)
      (match last rest with Some i => if p i then [] else kept ++ filter (fun i => p i = false) rest | None => kept end).
Proof.
  induction rest as [|i rest IH]; intros kept fuel s Hre Hl Hfuel Hnd Hfr; (destruct fuel as [|fuel]; [cbn in Hfuel; lia|]); cbn [erase_loop].
  - rewrite app_nil_r in *. exists s. unfold range_more. cbn [andb ir_pos ir_end ir_gone]. rewrite Nat.eqb_refl.
    split; [done|]. split; [done|]. split; [done|]. split; [done|]. split; [by intros ? ? ?%elem_of_nil|]. split; [done|]. apply same_graph_refl.
  - assert (Hk : items_in s f T !! length kept = Some i) by (rewrite Hl; by apply list_lookup_middle).
    assert (Hne : items_in s f T <> []) by (intros He; by rewrite He in Hk).
    erewrite cbind_read_ret; cycle 1.
    { unfold range_more. cbn [andb ir_pos ir_end ir_gone]. rewrite app_length. cbn [length]. rewrite (proj2 (Nat.eqb_neq _ _)) by lia. done. }
    cbn [negb ir_pos]. erewrite cbind_read_ret by by apply range_item_eq.
    rewrite !filter_cons. destruct (p i) eqn:Hp.
    + rewrite !decide_True, decide_False by done. rewrite filter_cons, decide_True in Hnd by done. apply NoDup_cons in Hnd as [Hni Hnd].
      destruct (items_typed s f T i Hre) as (x & Hx & HT); [by eapply elem_of_list_lookup_2|].
      destruct (remove_item_it_spec einv s f T (length kept) i x false Hre Hk Hx) as (s1 & Hr & Hl1 & Ho1 & Hi1 & Hj1 & Hg1).
      { apply (Hfr i); [left|done..]. }
      pose proof (remove_it_reachable _ _ _ _ _ _ Hre Hr) as Hre1.
      rewrite (cbind_ret _ _ _ _ _ _ (remove_range_eq _ _ _ _ _ _ Hne Hr)).
      rewrite Hl, app_length in *. cbn [length] in *. replace (pred (length kept + S (length rest))) with (length kept + length rest) by lia.
      destruct rest as [|j rest].
      * (* the last position *)
        destruct fuel as [|fuel]; [cbn in Hfuel; lia|]. cbn [length erase_loop]. rewrite Nat.add_0_r, Nat.eqb_refl.
        unfold range_more. cbn [andb ir_pos ir_end ir_gone]. rewrite Nat.eqb_refl. cbn [negb]. unfold cbind, cread, cret.
        cbn [length] in Hl1. replace (S (length kept) =? length kept + 1) with true in Hl1 by (symmetry; apply Nat.eqb_eq; lia).
        exists s1. cbn [app fmap list_fmap last]. rewrite Hp. split; [done|]. split; [done|].
        split; [done|]. split; [done|]. split; [|split; [|done]].
        -- intros i' x' ->%elem_of_list_singleton Hx'. congruence.
        -- intros j' Hj'. apply Hj1. set_solver.
      * replace (Nat.eqb (length kept) (length kept + length (j :: rest))) with false by (symmetry; apply Nat.eqb_neq; cbn; lia).
        replace (S (length kept) =? length kept + S (length (j :: rest))) with false in Hl1 by (symmetry; apply Nat.eqb_neq; cbn; lia).
        assert (Hl1' : items_in s1 f T = kept ++ j :: rest).
        { rewrite Hl1, take_app, drop_app_ge by lia. replace (S (length kept) - length kept) with 1 by lia. done. }
        assert (Hfr1 : forall i0 x0, i0 ∈ j :: rest -> p i0 = true -> deref s1 i0 = Ret x0 -> it_frame x0 = f).
        { intros i0 x0 H0 Hp0 Hx0. assert (i0 <> i). { intros ->. apply Hni. apply elem_of_list_filter. auto. }
          rewrite Hj1 in Hx0 by done. apply (Hfr i0); [by right|done..]. }
        destruct (IH kept fuel s1 Hre1 Hl1' ltac:(cbn in *; lia) Hnd Hfr1) as (s' & Hrun & Hre' & H1 & H2 & H3 & H4 & H5).
        rewrite app_length in Hrun. rewrite Hrun. exists s'. split; [done|]. split; [done|].
        change (last (i :: j :: rest)) with (last (j :: rest)). split; [done|].
        split; [intros; rewrite H2 by done; by apply Ho1|]. split; [|split].
        -- intros i0 x0 [->|H0]%elem_of_cons Hx0.
           ++ rewrite H4 by done. congruence.
           ++ destruct (decide (i0 = i)) as [->|Hne0]; [done|]. apply H3; [done|]. by rewrite Hj1.
        -- intros j0 [Hj0 Hj0']%not_elem_of_cons. rewrite H4 by done. by apply Hj1.
        -- by eapply same_graph_trans.
    + rewrite !decide_False, decide_True by done. rewrite filter_cons, decide_False in Hnd by congruence.
      assert (Hl1 : items_in s f T = (kept ++ [i]) ++ rest) by by rewrite <- app_assoc.
      destruct (IH (kept ++ [i]) fuel s Hre Hl1 ltac:(cbn in *; lia) Hnd) as (s' & Hrun & Hre' & H1 & Hrest).
      { intros i0 x0 H0. apply Hfr. by right. }
      rewrite app_length in Hrun. cbn [length] in Hrun. rewrite Nat.add_1_r in Hrun. rewrite <- app_assoc in Hrun. cbn [app] in Hrun.
      cbn [ir_pos ir_end ir_gone]. rewrite Hrun. exists s'. split; [done|]. split; [done|]. split; [|done]. rewrite H1.
      destruct rest as [|j rest]; [cbn; by rewrite Hp|]. change (last (i :: j :: rest)) with (last (j :: rest)).
      destruct (last (j :: rest)) as [z|] eqn:Hz; [by rewrite <- app_assoc|]. by apply last_None in Hz.
Qed.

Lemma items_range_eq s f T : ereachable s -> contains_frame (es_g s) f = true -> items_range f T s = Ret (IRange 0 (length (items_in s f T)) false).
Proof.
  intros Hre Hf. unfold items_range.
  destruct (item_queries_agree einv s f (fun _ m => (map_to_list m).*1) Hre ltac:(by intros ??) Hf) as (ts & Hq).
  assert (Hg : get_items_t s f T = Ret (items_in s f T)) by naive_solver. by rewrite Hg.
Qed.

Lemma erase_exact p s f T fuel : ereachable s -> contains_frame (es_g s) f = true -> length (items_in s f T) < fuel ->
  NoDup (filter (fun i => p i = true) (items_in s f T)) ->
  (forall i x, i ∈ items_in s f T -> p i = true -> deref s i = Ret x -> it_frame x = f) ->
  exists s', erase_items false p f T fuel s = (s', EvItemRemoved f <$> filter (fun i => p i = true) (items_in s f T), Ret tt) /\ ereachable s' /\
    erased s s' f T (filter (fun i => p i = true) (items_in s f T)) (left_over p (items_in s f T)).
Proof.
  intros Hre Hf Hfu Hnd Hfr. unfold erase_items. erewrite cbind_read_ret by by apply items_range_eq.
  destruct (loop_exact p f T (items_in s f T) [] fuel s Hre eq_refl Hfu Hnd Hfr) as (s' & Hr & Hre' & Hl).
  exists s'. split; [done|]. split; [done|]. exact Hl.
Qed.

(** Strict comparison. *)
Lemma loop_strict p f T rest : forall kept fuel s, ereachable s -> items_in s f T = kept ++ rest ->
  length rest < fuel -> NoDup (filter (fun i => p i = true) rest) ->
  (forall i x, i ∈ rest -> p i = true -> deref s i = Ret x -> it_frame x = f) ->
  (exists i, last rest = Some i /\ p i = true) ->
  exists s' ev, erase_loop true p f T fuel (IRange (length kept) (length (kept ++ rest)) false) s = (s', ev, UB).
Proof.
  induction rest as [|i rest IH]; intros kept fuel s Hre Hl Hfuel Hnd Hfr (z & Hz & Hpz); (destruct fuel as [|fuel]; [cbn in Hfuel; lia|]); cbn [erase_loop].
  - done.
  - assert (Hk : items_in s f T !! length kept = Some i) by (rewrite Hl; by apply list_lookup_middle).
    assert (Hne : items_in s f T <> []) by (intros He; by rewrite He in Hk).
    erewrite cbind_read_ret; cycle 1.
    { unfold range_more. cbn [andb ir_pos ir_end ir_gone]. rewrite app_length. cbn [length]. rewrite (proj2 (Nat.eqb_neq _ _)) by lia. done. }
    cbn [negb ir_pos]. erewrite cbind_read_ret by by apply range_item_eq.
    destruct (p i) eqn:Hp.
    + rewrite filter_cons, decide_True in Hnd by done. apply NoDup_cons in Hnd as [Hni Hnd].
      destruct (items_typed s f T i Hre) as (x & Hx & HT); [by eapply elem_of_list_lookup_2|].
      destruct (remove_item_it_spec einv s f T (length kept) i x false Hre Hk Hx) as (s1 & Hr & Hl1 & Ho1 & Hi1 & Hj1 & Hg1).
      { apply (Hfr i); [left|done..]. }
      pose proof (remove_it_reachable _ _ _ _ _ _ Hre Hr) as Hre1.
      rewrite (cbind_ret _ _ _ _ _ _ (remove_range_eq _ _ _ _ _ _ Hne Hr)).
      rewrite Hl, app_length in *. cbn [length] in *. replace (pred (length kept + S (length rest))) with (length kept + length rest) by lia.
      destruct rest as [|j rest].
      * destruct fuel as [|fuel]; [cbn in Hfuel; lia|]. cbn [length erase_loop]. rewrite Nat.add_0_r, Nat.eqb_refl.
        unfold range_more. cbn [andb ir_pos ir_end ir_gone]. unfold cbind, cread, cret. eauto.
      * replace (Nat.eqb (length kept) (length kept + length (j :: rest))) with false by (symmetry; apply Nat.eqb_neq; cbn; lia).
        replace (S (length kept) =? length kept + S (length (j :: rest))) with false in Hl1 by (symmetry; apply Nat.eqb_neq; cbn; lia).
        assert (Hl1' : items_in s1 f T = kept ++ j :: rest).
        { rewrite Hl1, take_app, drop_app_ge by lia. replace (S (length kept) - length kept) with 1 by lia. done. }
        assert (Hfr1 : forall i0 x0, i0 ∈ j :: rest -> p i0 = true -> deref s1 i0 = Ret x0 -> it_frame x0 = f).
        { intros i0 x0 H0 Hp0 Hx0. assert (i0 <> i). { intros ->. apply Hni. apply elem_of_list_filter. auto. }
          rewrite Hj1 in Hx0 by done. apply (Hfr i0); [by right|done..]. }
        destruct (IH kept fuel s1 Hre1 Hl1' ltac:(cbn in *; lia) Hnd Hfr1) as (s' & ev & Hrun); [eauto|].
        rewrite app_length in Hrun. rewrite Hrun. eauto.
    + rewrite filter_cons, decide_False in Hnd by congruence.
      assert (Hl1 : items_in s f T = (kept ++ [i]) ++ rest) by by rewrite <- app_assoc.
      destruct rest as [|j rest]; [cbn in Hz; congruence|].
      destruct (IH (kept ++ [i]) fuel s Hre Hl1 ltac:(cbn in *; lia) Hnd) as (s' & ev & Hrun); [|by exists z|].
      { intros i0 x0 H0. apply Hfr. by right. }
      rewrite app_length in Hrun. cbn [length] in Hrun. rewrite Nat.add_1_r in Hrun. rewrite <- app_assoc in Hrun. cbn [app] in Hrun.
      cbn [ir_pos ir_end ir_gone]. rewrite Hrun. eauto.
Qed.

Lemma erase_strict p s f T fuel i : ereachable s -> contains_frame (es_g s) f = true -> length (items_in s f T) < fuel ->
  NoDup (filter (fun i => p i = true) (items_in s f T)) ->
  (forall i x, i ∈ items_in s f T -> p i = true -> deref s i = Ret x -> it_frame x = f) ->
  last (items_in s f T) = Some i -> p i = true ->
  exists s' ev, erase_items true p f T fuel s = (s', ev, UB).
Proof.
  intros Hre Hf Hfu Hnd Hfr Hl Hp. unfold erase_items. erewrite cbind_read_ret by by apply items_range_eq.
  apply (loop_strict p f T (items_in s f T) []); eauto.
Qed.

(** *** Lists stay as they are *)
Definition touches s' (f : frameid) (T : tyid) (ev : list event) : Prop :=
  exists i x, (EvItemAdded f i ∈ ev \/ EvItemRemoved f i ∈ ev) /\ es_heap s' !! i = Some x /\ it_type x = T.

Definition steady {A} f T (m : call (est E) A) : Prop := forall s s' ev r, Inv einv s -> m s = (s', ev, r) -> ok r ->
  Inv einv s' /\ typed (es_heap s) (es_heap s') /\ (items_of (dg s') f !! T = items_of (dg s) f !! T \/ touches s' f T ev).

Lemma typed_trans h1 h2 h3 : typed h1 h2 -> typed h2 h3 -> typed h1 h3.
Proof. intros H1 H2 i x Hx. destruct (H1 i x Hx) as (y & Hy & Ht). destruct (H2 i y Hy) as (z & Hz & Ht2). exists z. split; [done|congruence]. Qed.

Lemma steady_bind {A B} f T (m : call (est E) A) (k : A -> call (est E) B) : steady f T m -> (forall a, steady f T (k a)) -> steady f T (cbind m k).
Proof.
  intros Hm Hk s s' ev r Hi Hr Hok.
  apply cbind_inv in Hr as [(s1 & ev1 & a & ev2 & H1 & H2 & ->)|[(x & Hx & ->)|[[H ->]|[H ->]]]];
    [| |by destruct Hok..].
  - destruct (Hm _ _ _ _ Hi H1 I) as (I1 & T1 & D1). destruct (Hk a _ _ _ _ I1 H2 Hok) as (I2 & T2 & D2).
    split; [done|]. split; [by eapply typed_trans|]. destruct D2 as [D2|(i & x & Hin & Hx & HT)].
    + destruct D1 as [D1|(i & x & Hin & Hx & HT)]; [left; congruence|]. right. destruct (T2 i x Hx) as (y & Hy & Hty).
      exists i, y. split; [|split; [done|congruence]]. set_solver.
    + right. exists i, x. split; [set_solver|done].
  - by eapply Hm.
Qed.

Lemma steady_same s f T : Inv einv s -> Inv einv s /\ typed (es_heap s) (es_heap s) /\ (items_of (dg s) f !! T = items_of (dg s) f !! T \/ touches s f T []).
Proof. intros. split; [done|]. split; [apply typed_refl|]. by left. Qed.

Lemma steady_read {A} f T (q : est E -> outcome A) : steady f T (cread q).
Proof. intros s s' ev r Hi [= <- <- <-] _. by apply steady_same. Qed.
Lemma steady_ret {A} f T (a : A) : steady f T (cret a).
Proof. intros s s' ev r Hi [= <- <- <-] _. by apply steady_same. Qed.

Lemma steady_add f T f0 i : steady f T (add_item_to_frame f0 i).
Proof.
  intros s s' ev r Hi Hr Hok. pose proof Hi as [Hwf Hit]. destruct (fine_add_item_to_frame einv f0 i s s' ev r Hi Hr Hok) as [Hi' _].
  split; [done|]. destruct (dg_map (dg s) !! f0) as [v|] eqn:Hf; cycle 1.
  { rewrite add_item_to_frame_unknown in Hr by done. injection Hr as <- <- <-. by apply steady_same. }
  destruct (es_heap s !! i) as [x|] eqn:Hx; cycle 1.
  { exfalso. unfold add_item_to_frame in Hr. erewrite cbind_read_ret in Hr by by eapply (check_some einv).
    erewrite cbind_read_ub in Hr by (unfold deref; by rewrite Hx). injection Hr as <- <- <-. by destruct Hok. }
  rewrite (add_item_to_frame_eq einv f0 v i x) in Hr by done. injection Hr as <- <- <-. split; [by apply typed_frame|].
  destruct (decide (f = f0 /\ T = it_type x)) as [[-> ->]|Hne].
  - right. exists i, (ItemV (it_class x) f0). split; [left; left|]. cbn [with_heap es_heap]. rewrite lookup_insert. done.
  - left. cbn [with_heap es_g]. rewrite (items_of_put einv f0 v) by done. destruct (decide (f = f0)) as [->|]; [|done].
    rewrite lookup_insert_ne; [done|]. intros <-. by apply Hne.
Qed.

Lemma steady_clear_frame io f T f0 : iorder_ok io -> steady f T (clear_frame io f0).
Proof.
  intros Hio s s' ev r Hi Hr Hok. pose proof Hi as [Hwf Hit]. destruct (fine_clear_frame einv io f0 Hio s s' ev r Hi Hr Hok) as [Hi' _].
  split; [done|]. destruct (dg_map (dg s) !! f0) as [v|] eqn:Hf; cycle 1.
  { rewrite clear_frame_unknown in Hr by done. injection Hr as <- <- <-. by apply steady_same. }
  rewrite (clear_frame_eq einv io f0 v) in Hr by (try done; by apply (Inv_nonempty einv)). injection Hr as <- <- <-. split; [apply typed_refl|].
  rewrite (items_of_put einv f0 v) by done. destruct (decide (f = f0)) as [->|]; [|by left].
  destruct (items_of (dg s) f0 !! T) as [l|] eqn:Hl; [|left; by rewrite lookup_empty]. right.
  destruct (Hit f0 T l Hl) as [Hne Hall]. destruct l as [|i l]; [done|]. apply list.Forall_cons in Hall as [(x & Hx & HT) _].
  exists i, x. split; [|done]. right. apply elem_of_list_fmap. exists i. split; [done|]. apply elem_of_concat. exists (i :: l). split; [left|].
  unfold lists_of. apply elem_of_list_fmap. exists T. split; [by rewrite Hl|]. by apply (iorder_elem io v _ T Hio).
Qed.

Lemma steady_remove f T i : steady f T (remove_item i).
Proof.
  intros s s' ev r Hi Hr Hok. pose proof Hi as [Hwf Hit]. destruct (fine_remove_item einv i s s' ev r Hi Hr Hok) as [Hi' _].
  split; [done|]. destruct (es_heap s !! i) as [x|] eqn:Hx; cycle 1.
  { exfalso. unfold remove_item in Hr. erewrite cbind_read_ub in Hr by (unfold deref; by rewrite Hx).
    injection Hr as <- <- <-. by destruct Hok. }
  destruct (dg_map (dg s) !! it_frame x) as [v|] eqn:Hf; cycle 1.
  { rewrite (remove_item_no_frame i x) in Hr by done. injection Hr as <- <- <-. by apply steady_same. }
  destruct (items_of (dg s) (it_frame x) !! it_type x) as [l|] eqn:Hl; cycle 1.
  { rewrite (remove_item_no_type einv i x v) in Hr by done. injection Hr as <- <- <-. by apply steady_same. }
  destruct (erase_first i l) as [l'|] eqn:Her; cycle 1.
  { apply erase_first_none in Her. rewrite (remove_item_not_there einv i x v l) in Hr by done.
    injection Hr as <- <- <-. by apply steady_same. }
  rewrite (remove_item_eq einv i x v l l') in Hr by done. injection Hr as <- <- <-. split; [by apply typed_frame|].
  destruct (decide (f = it_frame x /\ T = it_type x)) as [[-> ->]|Hne].
  - right. exists i, (ItemV (it_class x) ""). split; [right; left|]. cbn [with_heap es_heap]. rewrite lookup_insert. done.
  - left. cbn [with_heap es_g]. rewrite (items_of_put einv _ v) by done. destruct (decide (f = it_frame x)) as [->|]; [|done].
    assert (HT : it_type x <> T) by (intros <-; by apply Hne). unfold shrink. case_decide; [by rewrite lookup_delete_ne|by rewrite lookup_insert_ne].
Qed.

Lemma steady_remove_it f T f0 T0 itf k : steady f T (remove_item_it f0 false T0 itf k).
Proof.
  intros s s' ev r Hi Hr Hok. pose proof Hi as [Hwf Hit]. destruct (remove_item_it_fine einv f0 false T0 itf k s s' ev r Hi Hr Hok) as [Hi' _].
  split; [done|]. destruct (remove_item_it_inv einv _ _ _ _ _ _ _ _ _ Hi Hr Hok)
    as [(-> & -> & _)|(-> & v & l & i & x & Hf & Hl & Hk & Hx & HT & Hfr)].
  { by apply steady_same. }
  rewrite (remove_item_it_eq einv f0 false T0 k i x v l) in Hr by done. injection Hr as <- <- <-. split; [by apply typed_frame|].
  destruct (decide (f = f0 /\ T = T0)) as [[-> ->]|Hne].
  - right. exists i, (ItemV (it_class x) ""). split; [right; left|]. cbn [with_heap es_heap]. rewrite lookup_insert. done.
  - left. cbn [with_heap es_g]. rewrite (items_of_put einv _ v) by done. destruct (decide (f = f0)) as [->|]; [|done].
    assert (HT' : T0 <> T) by (intros <-; by apply Hne). unfold cut. case_decide; [by rewrite lookup_delete_ne|by rewrite lookup_insert_ne].
Qed.

Lemma steady_gstep f T ord op s s' ev r : Inv einv s -> lift (gstep ∅ einv ord op) s = (s', ev, r) -> ok r -> base_op op ->
  (forall f, op = ORemoveFrame f -> items_of (dg s) f = ∅) ->
  Inv einv s' /\ typed (es_heap s) (es_heap s') /\ items_of (dg s') f !! T = items_of (dg s) f !! T.
Proof.
  intros Hi Hs Hok Hb Hrem. destruct (fine_gstep einv ord op s s' ev r Hi Hs Hok Hb Hrem) as [Hi' _]. split; [done|].
  apply lift_inv in Hs as [Hs Hh]. split; [rewrite Hh; apply typed_refl|]. f_equal. destruct Hb as [Hns Hop]. destruct Hi as [Hwf _].
  eapply (tracks_items_same einv).
  - done.
  - by eapply (gstep_lsteps ∅ einv).
  - by eapply (gstep_tracks ∅ einv (.= ∅)).
  - intros Hf. assert (Hop2 : op = ORemoveFrame f \/ op <> ORemoveFrame f).
    { destruct op as [| | | | | | | | |f0| | | | | | | | | |]; try (by right). destruct (decide (f0 = f)) as [->|]; [by left|right; congruence]. }
    destruct Hop2 as [->|Hne]; [by apply Hrem|]. exfalso.
    pose proof (gstep_frame_removed ∅ einv ord op f Hne _ _ _ _ Hs) as Hall. rewrite list.Forall_forall in Hall. by eapply Hall.
Qed.

Lemma steady_remove_frame io f T f0 : iorder_ok io -> steady f T (eg_remove_frame io f0).
Proof.
  intros Hio s s' ev r Hi Hr Hok. unfold eg_remove_frame in Hr.
  apply cbind_inv in Hr as [(s1 & ev1 & a & ev2 & H1 & H2 & ->)|[(x & Hx & ->)|[[H ->]|[H ->]]]];
    [| |by destruct Hok..].
  - destruct (steady_clear_frame io f T f0 Hio s s1 ev1 (Ret a) Hi H1 I) as (I1 & T1 & D1).
    destruct (steady_gstep f T (fun _ _ _ l => l) (ORemoveFrame f0) s1 s' ev2 r) as (I2 & T2 & D2); [done..| |].
    { intros f' [= <-]. destruct Hi as [Hwf Hit]. destruct (dg_map (dg s) !! f0) as [v|] eqn:Hf.
      - rewrite (clear_frame_eq einv io f0 v) in H1 by (try done; by apply (Inv_nonempty einv)). injection H1 as <- _ _.
        rewrite (items_of_put einv f0 v) by done. by rewrite decide_True.
      - rewrite clear_frame_unknown in H1 by done. done. }
    split; [done|]. split; [by eapply typed_trans|]. destruct D1 as [D1|(i & x & Hin & Hx & HT)]; [left; congruence|].
    right. destruct (T2 i x Hx) as (y & Hy & Hty). exists i, y. split; [set_solver|split; [done|congruence]].
  - exact (steady_clear_frame io f T f0 Hio s s' ev (Throw x) Hi Hx Hok).
Qed.

Lemma steady_frames f T m fs : (forall f0, steady f T (m f0)) -> steady f T (for_frames (E := E) m fs).
Proof.
  intros Hm. induction fs as [|f0 fs IH]; cbn [for_frames]; [apply steady_ret|]. apply steady_bind; [done|intros _; exact IH].
Qed.
Lemma steady_clear f T ord io : iorder_ok io -> steady f T (clear (E := E) ord io).
Proof.
  intros Hio. unfold clear. apply steady_bind; [apply steady_read|intros fs]. apply steady_bind; [|intros _].
  - apply steady_frames. intros f0 s s' ev r Hi Hr Hok.
    destruct (steady_gstep f T ord (ODisconnect f0) s s' ev r) as (? & ? & ?); try done. auto.
  - apply steady_frames. intros f0. by apply steady_remove_frame.
Qed.

Lemma steady_estep f T ord io op s s' ev r : Inv einv s -> iorder_ok io -> eop_ok op ->
  match op with ERemoveItemIt _ alias _ _ _ => alias = false | _ => True end ->
  estep einv ord io op s = (s', ev, r) -> ok r ->
  Inv einv s' /\ typed (es_heap s) (es_heap s') /\ (items_of (dg s') f !! T = items_of (dg s) f !! T \/ touches s' f T ev).
Proof.
  intros Hi Hio Hop Ha Hr Hok.
  destruct op as [op|i c f0|i f0|i|f0 i|i|f0 alias T0 itf k|f0|]; cbn [estep] in Hr.
  - assert (Hb : (forall f, op <> ORemoveFrame f) -> lift (gstep ∅ einv ord op) s = (s', ev, r) ->
      Inv einv s' /\ typed (es_heap s) (es_heap s') /\ (items_of (dg s') f !! T = items_of (dg s) f !! T \/ touches s' f T ev)).
    { intros Hne Hs. assert (Hb : base_op op) by by destruct op.
      assert (Hn2 : forall f, op = ORemoveFrame f -> items_of (dg s) f = ∅) by (intros f1 ->; by destruct (Hne f1)).
      destruct (steady_gstep f T ord op s s' ev r Hi Hs Hok Hb Hn2) as (? & ? & ?). auto. }
    destruct op; try (apply Hb; [done|exact Hr]). by eapply (steady_remove_frame io f T _ Hio).
  - destruct (fine_new_item einv i c f0 s s' ev r Hi Hr Hok) as [Hi' _]. split; [done|]. unfold new_item in Hr.
    destruct (es_heap s !! i) eqn:Hx; injection Hr as <- <- <-; [by destruct Hok|]. split; [by apply typed_new|by left].
  - destruct (fine_set_item_frame einv i f0 s s' ev r Hi Hr Hok) as [Hi' _]. split; [done|]. unfold set_item_frame in Hr.
    destruct (es_heap s !! i) eqn:Hx; injection Hr as <- <- <-; [|by destruct Hok]. split; [by apply typed_frame|by left].
  - unfold add_item in Hr. revert s s' ev r Hi Hr Hok. apply steady_bind; [apply steady_read|intros x; apply steady_add].
  - by eapply (steady_add f T f0 i).
  - by eapply (steady_remove f T i).
  - subst alias. by eapply (steady_remove_it f T f0 T0 itf k).
  - by eapply (steady_clear_frame io f T f0).
  - by eapply (steady_clear f T ord io).
Qed.

Lemma steady_erun f T h : ehist_ok h -> no_alias h -> steady f T (erun einv h).
Proof.
  induction h as [|[[ord io] op] h IH]; intros Hh Ha s s' ev r Hi Hr Hok; cbn [erun] in Hr.
  - injection Hr as <- <- _. by apply steady_same.
  - apply list.Forall_cons in Hh as [[Hio Hop] Hh]. apply list.Forall_cons in Ha as [Ha Has]. cbn [fst snd] in Hio, Hop, Ha. specialize (IH Hh Has).
    destruct (estep einv ord io op s) as [[s1 ev1] r1] eqn:H1.
    assert (Hl : ok r1 -> _) by exact (steady_estep f T ord io op s s1 ev1 r1 Hi Hio Hop Ha H1).
    destruct r1 as [u|x| |]; try (injection Hr as <- <- <-; by destruct Hok);
      destruct (erun einv h s1) as [[s2 ev2] r2] eqn:H2; injection Hr as <- <- <-;
      destruct (Hl I) as (I1 & T1 & D1); destruct (IH _ _ _ _ I1 H2 Hok) as (I2 & T2 & D2);
      (split; [done|]); (split; [by eapply typed_trans|]);
      (destruct D2 as [D2|(i & y & Hin & Hy & HT)]; [|right; exists i, y; split; [set_solver|done]]);
      (destruct D1 as [D1|(i & y & Hin & Hy & HT)]; [left; congruence|]); right; destruct (T2 i y Hy) as (z & Hz & Hty);
      exists i, z; (split; [set_solver|split; [done|congruence]]).
Qed.

Lemma stable s h s' ev r f T : ereachable s -> ehist_ok h -> no_alias h -> erun einv h s = (s', ev, r) -> r = Ret tt \/ (exists x, r = Throw x) ->
  (forall e, e ∈ ev -> ~ item_event_of s' f T e) -> items_in s' f T = items_in s f T.
Proof.
  intros Hre Hh Ha Hr Hok Hev. pose proof (ereachable_inv einv s Hre) as Hi.
  assert (Ho : ok r) by (destruct Hok as [->|[x ->]]; done).
  destruct (steady_erun f T h Hh Ha s s' ev r Hi Hr Ho) as (Hi' & _ & [D|(i & x & Hin & Hx & HT)]).
  - rewrite !(items_in_eq einv) by (by destruct Hi, Hi'). by rewrite D.
  - exfalso. destruct Hin as [Hin|Hin]; apply (Hev _ Hin); exists i, x; (split; [auto|]); unfold deref; rewrite Hx; done.
Qed.

Lemma erase_all s f T fuel : ereachable s -> contains_frame (es_g s) f = true -> length (items_in s f T) < fuel ->
  NoDup (items_in s f T) -> (forall i x, i ∈ items_in s f T -> deref s i = Ret x -> it_frame x = f) ->
  exists s', erase_items false (fun _ => true) f T fuel s = (s', EvItemRemoved f <$> items_in s f T, Ret tt) /\ ereachable s' /\
    erased s s' f T (items_in s f T) [].
Proof.
  intros Hre Hf Hfu Hnd Hfr.
  assert (Hall : filter (fun _ : iptr => true = true) (items_in s f T) = items_in s f T).
  { induction (items_in s f T) as [|i l IH]; [done|]. rewrite filter_cons, decide_True by done. f_equal. apply IH; [cbn in *; lia|by apply NoDup_cons in Hnd as [_ ?]|].
    intros j y Hj. apply Hfr. by right. }
  destruct (erase_exact (fun _ => true) s f T fuel Hre Hf Hfu) as (s' & Hr & Hre' & Hl).
  - by rewrite Hall.
  - intros i x Hi _. by apply Hfr.
  - rewrite Hall in *. exists s'. split; [done|]. split; [done|]. unfold left_over in Hl. by destruct (last _).
Qed.

Lemma erase_right p s f T fuel : ereachable s -> contains_frame (es_g s) f = true -> length (items_in s f T) < fuel ->
  NoDup (filter (fun i => p i = true) (items_in s f T)) ->
  (forall i x, i ∈ items_in s f T -> p i = true -> deref s i = Ret x -> it_frame x = f) ->
  (forall i, last (items_in s f T) = Some i -> p i = false) \/ (forall i, i ∈ items_in s f T -> p i = true) ->
  exists s', erase_items false p f T fuel s = (s', EvItemRemoved f <$> filter (fun i => p i = true) (items_in s f T), Ret tt) /\ ereachable s' /\
    erased s s' f T (filter (fun i => p i = true) (items_in s f T)) (filter (fun i => p i = false) (items_in s f T)).
Proof.
  intros Hre Hf Hfu Hnd Hfr Hc. destruct (erase_exact p s f T fuel Hre Hf Hfu Hnd Hfr) as (s' & Hr & Hre' & Hl).
  exists s'. split; [done|]. split; [done|]. assert (Heq : left_over p (items_in s f T) = filter (fun i => p i = false) (items_in s f T)); [|by rewrite <- Heq].
  unfold left_over. destruct (last (items_in s f T)) as [i|] eqn:Hla; cycle 1.
  { apply last_None in Hla. by rewrite Hla. }
  destruct Hc as [Hc|Hc]; [by rewrite Hc|]. rewrite Hc by (by apply last_Some_elem_of). symmetry.
  clear -Hc. induction (items_in s f T) as [|j l IH]; [done|]. rewrite filter_cons, decide_False; [|rewrite Hc by left; done].
  apply IH. intros k Hk. apply Hc. by right.
Qed.

Lemma erase_wrong p s f T fuel i : ereachable s -> contains_frame (es_g s) f = true -> length (items_in s f T) < fuel ->
  NoDup (filter (fun i => p i = true) (items_in s f T)) ->
  (forall i x, i ∈ items_in s f T -> p i = true -> deref s i = Ret x -> it_frame x = f) ->
  last (items_in s f T) = Some i -> p i = true ->
  exists s', erase_items false p f T fuel s = (s', EvItemRemoved f <$> filter (fun i => p i = true) (items_in s f T), Ret tt) /\ ereachable s' /\
    erased s s' f T (filter (fun i => p i = true) (items_in s f T)) [].
Proof.
  intros Hre Hf Hfu Hnd Hfr Hla Hp. destruct (erase_exact p s f T fuel Hre Hf Hfu Hnd Hfr) as (s' & Hr & Hre' & Hl).
  exists s'. split; [done|]. split; [done|]. unfold left_over in Hl. by rewrite Hla, Hp in Hl.
Qed.
End iter.
