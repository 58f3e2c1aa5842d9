(** Every public call is a sequence of primitive labelled transitions of the boost graph. *)
From stdpp Require Import prelude strings gmap.
From Verif Require Import ListLib Outcome Digraph Bfs TreeView GraphModel GraphOps GraphWf.

(** [ok r]: the call returned or threw (no undefined behaviour, no missing fuel). *)
Definition ok {A} (r : outcome A) : Prop :=
  match r with Ret _ | Throw _ => True | _ => False end.

Lemma cbind_inv {St A B} (m : call St A) (k : A -> call St B) s s' ev r :
  cbind m k s = (s', ev, r) ->
  (exists s1 ev1 a ev2, m s = (s1, ev1, Ret a) /\ k a s1 = (s', ev2, r) /\ ev = ev1 ++ ev2) \/
  (exists x, m s = (s', ev, Throw x) /\ r = Throw x) \/
  (m s = (s', ev, UB) /\ r = UB) \/ (m s = (s', ev, Fuel) /\ r = Fuel).
Proof.
  unfold cbind. destruct (m s) as [[s1 ev1] r1]. destruct r1 as [a|x| |].
  - destruct (k a s1) as [[s2 ev2] r2] eqn:Hk. intros [= <- <- <-]. left. eauto 10.
  - intros [= <- <- <-]. right; left. eauto.
  - intros [= <- <- <-]. auto.
  - intros [= <- <- <-]. auto.
Qed.

Lemma cbind_ret {St A B} (m : call St A) (k : A -> call St B) s s1 ev1 a :
  m s = (s1, ev1, Ret a) ->
  cbind m k s = let '(s2, ev2, r2) := k a s1 in (s2, ev1 ++ ev2, r2).
Proof. unfold cbind. by intros ->. Qed.

Lemma cbind_read_ret {St A B} (f : St -> outcome A) (k : A -> call St B) s a :
  f s = Ret a -> cbind (cread f) k s = k a s.
Proof. unfold cbind, cread. intros ->. by destruct (k a s) as [[??]?]. Qed.
Lemma cbind_read_throw {St A B} (f : St -> outcome A) (k : A -> call St B) s x :
  f s = Throw x -> cbind (cread f) k s = (s, [], Throw x).
Proof. unfold cbind, cread. by intros ->. Qed.
Lemma cbind_read_ub {St A B} (f : St -> outcome A) (k : A -> call St B) s :
  f s = UB -> cbind (cread f) k s = (s, [], UB).
Proof. unfold cbind, cread. by intros ->. Qed.
Lemma cbind_modify {St B} (f : St -> St) (k : unit -> call St B) s :
  cbind (cmodify f) k s = k tt (f s).
Proof. unfold cbind, cmodify. by destruct (k tt (f s)) as [[??]?]. Qed.

Lemma cbind_ret_void_inv {St A} (m : call St A) s s' ev r :
  (cbind m (fun _ => cret tt)) s = (s', ev, r) -> exists r', m s = (s', ev, r') /\ r = ovoid r'.
Proof.
  unfold cbind. destruct (m s) as [[s1 ev1] r1]. destruct r1; cbn; intros [= <- <- <-];
    rewrite ?app_nil_r; eauto.
Qed.

Section step.
Context {D E : Type} (d0 : D) (einv : E -> E).
Local Notation gst := (gst D E).
Local Notation dg_wf := (dg_wf einv).
Local Notation lstep := (lstep einv).
Local Notation lsteps := (lsteps einv).
Implicit Types s : gst.
Implicit Types g : digraph D E.

Lemma for_views_frame f l s s' ev r :
  for_views f l s = (s', ev, r) ->
  gs_dg s' = gs_dg s /\ gs_subs s' = gs_subs s /\ ev = [].
Proof.
  revert s. induction l as [|i l IH]; intros s; cbn.
  - by intros [= <- <- _].
  - destruct (gs_views s !! i) as [w|]; [|by intros [= <- <- _]].
    destruct (f i w) as [w' r']. destruct r'; [|by intros [= <- <- _]..].
    intros (H1 & H2 & H3)%IH. done.
Qed.

(** Reads *)

Lemma get_vertex_some s f v : dg_wf (gs_dg s) -> dg_map (gs_dg s) !! f = Some v ->
  get_vertex s f = Ret v.
Proof.
  intros Hwf Hm. unfold get_vertex. rewrite (bg_vertex_some _ _ _ Hm).
  destruct (Nat.eqb_spec v null_vertex) as [->|]; [|done].
  apply bg_vertex_some in Hm as Hm2. rewrite (bg_vertex_null einv) in Hm2 by done. congruence.
Qed.

Lemma get_vertex_none s f : dg_map (gs_dg s) !! f = None ->
  get_vertex s f = Throw (XUnknownFrame f).
Proof. intros Hm. unfold get_vertex, bg_vertex. by rewrite Hm. Qed.

Lemma get_vertex_inv s f v : get_vertex s f = Ret v -> dg_map (gs_dg s) !! f = Some v.
Proof.
  unfold get_vertex, bg_vertex. destruct (dg_map (gs_dg s) !! f) as [u|]; cbn; [|done].
  destruct (u =? null_vertex); [done|]. by intros [= ->].
Qed.

Lemma get_vertex_cases s f : dg_wf (gs_dg s) ->
  (exists v, dg_map (gs_dg s) !! f = Some v /\ get_vertex s f = Ret v) \/
  (dg_map (gs_dg s) !! f = None /\ get_vertex s f = Throw (XUnknownFrame f)).
Proof.
  intros Hwf. destruct (dg_map (gs_dg s) !! f) as [v|] eqn:Hm.
  - left. exists v. split; [done|]. by apply get_vertex_some.
  - right. split; [done|]. by apply get_vertex_none.
Qed.

Lemma get_frame_id_some s f v : dg_wf (gs_dg s) -> dg_map (gs_dg s) !! f = Some v ->
  get_frame_id s v = Ret f.
Proof.
  intros Hwf Hm. destruct (map_vrec einv _ f v Hwf Hm) as (r & Hr & Hn).
  unfold get_frame_id. rewrite Hr, Hn.
  destruct (Nat.eqb_spec v null_vertex) as [->|]; [|done].
  apply bg_vertex_some in Hm as Hm2. rewrite (bg_vertex_null einv) in Hm2 by done. congruence.
Qed.

Lemma get_frame_id_inv s f v : dg_wf (gs_dg s) -> get_frame_id s v = Ret f ->
  dg_map (gs_dg s) !! f = Some v.
Proof.
  intros Hwf. unfold get_frame_id. destruct (v =? null_vertex); [done|].
  destruct (bg_vrec (gs_dg s) v) as [r|] eqn:Hr; [|done]. intros [= <-].
  apply (bg_vrec_iff einv) in Hr as [Hr <-]; [|done]. apply (wf_map einv); eauto.
Qed.

Lemma find_edge_alive s u v : bg_alive (gs_dg s) u = true ->
  find_edge s u v = Ret (bg_edge (gs_dg s) u v).
Proof. intros Ha. unfold find_edge. by rewrite Ha. Qed.

Lemma edge_rev g o t e : dg_wf g -> bg_edge g o t = Some e -> exists e', bg_edge g t o = Some e'.
Proof.
  intros Hwf (He & <- & <-)%(bg_edge_iff einv); [|done].
  destruct (wf_inv einv g Hwf e He) as (e' & He' & Hs & Ht & _).
  exists e'. by apply (bg_edge_iff einv).
Qed.

Lemma get_edge_v_some s o t e : dg_wf (gs_dg s) -> bg_edge (gs_dg s) o t = Some e ->
  get_edge_v s o t = Ret e.
Proof.
  intros Hwf He. unfold get_edge_v. rewrite find_edge_alive; [by rewrite He|].
  apply (bg_edge_iff einv) in He as (He & <- & _); [|done]. by eapply wf_src_alive.
Qed.

Lemma get_edge_some s fo ft o t e : dg_wf (gs_dg s) ->
  dg_map (gs_dg s) !! fo = Some o -> dg_map (gs_dg s) !! ft = Some t ->
  bg_edge (gs_dg s) o t = Some e -> get_edge s fo ft = Ret e.
Proof.
  intros Hwf Ho Ht He. unfold get_edge.
  rewrite (get_vertex_some s fo o), (get_vertex_some s ft t) by done. cbn.
  by apply get_edge_v_some.
Qed.

(** Adding an edge to views never throws in a well-formed graph *)

Lemma add_edge_to_tree_view_nothrow s ne w w' x :
  dg_wf (gs_dg s) -> ne ∈ dg_edges (gs_dg s) ->
  add_edge_to_tree_view s ne w <> (w', Throw x).
Proof.
  intros Hwf Hne. unfold add_edge_to_tree_view, get_source_vertex, get_target_vertex.
  assert (Hgo : forall a b e1 e2, bg_edge (gs_dg s) a b = Some e1 -> bg_edge (gs_dg s) b a = Some e2 ->
    (if bg_alive (gs_dg s) b then
      if bool_decide (2 < bg_degree (gs_dg s) b) then
        match obind (get_frame_id s a) (fun id1 =>
              obind (get_frame_id s b) (fun id2 =>
              obind (get_edge s id1 id2) (fun e1 =>
              obind (get_edge s id2 id1) (fun e2 =>
              bfs_trace (gs_dg s)
                (fun e => negb (Nat.eqb (e_id e) (e_id e1)) && negb (Nat.eqb (e_id e) (e_id e2)))
                b)))) with
        | Ret tr => (build_tree tr (tv_add_edge a b w), Ret tt)
        | Throw x => (tv_add_edge a b w, Throw x)
        | UB => (tv_add_edge a b w, UB)
        | Fuel => (tv_add_edge a b w, Fuel)
        end
      else (tv_add_edge a b w, Ret tt)
    else (tv_add_edge a b w, UB)) <> (w', Throw x)).
  { intros a b e1 e2 H1 H2. destruct (bg_alive (gs_dg s) b) eqn:Hb; [|done].
    case_bool_decide; [|done].
    assert (Ha : bg_alive (gs_dg s) a = true).
    { apply (bg_edge_iff einv) in H1 as (? & <- & _); [|done]. by eapply wf_src_alive. }
    destruct (wf_alive_map einv _ a Hwf Ha) as (fa & Hfa & _).
    destruct (wf_alive_map einv _ b Hwf Hb) as (fb & Hfb & _).
    rewrite (get_frame_id_some s fa a), (get_frame_id_some s fb b) by done. cbn.
    rewrite (get_edge_some s fa fb a b e1), (get_edge_some s fb fa b a e2) by done. cbn.
    unfold bfs_trace. rewrite Hb. destruct (bfs_loop _ _ _ _); done. }
  assert (bg_edge (gs_dg s) (e_src ne) (e_tgt ne) = Some ne) as H1 by by apply (bg_edge_iff einv).
  destruct (edge_rev _ _ _ _ Hwf H1) as [e2 H2].
  destruct (tv_vertex_exists w (e_src ne)), (tv_vertex_exists w (e_tgt ne)); [|by eapply Hgo|by eapply Hgo|done].
  unfold tv_edge_exists. destruct (tv_tree w !! e_src ne), (tv_tree w !! e_tgt ne); try done.
  repeat (destruct (_ =? _); try case_bool_decide; try done).
Qed.

Lemma for_views_nothrow f l s s' ev x :
  (forall i w w', f i w <> (w', Throw x)) -> for_views f l s <> (s', ev, Throw x).
Proof.
  intros Hf. revert s. induction l as [|i l IH]; intros s; cbn; [done|].
  destruct (gs_views s !! i) as [w|]; [|done].
  pose proof (Hf i w) as Hfi. destruct (f i w) as [w' r'].
  destruct r' as [a|y| |]; [apply IH| |done..]. specialize (Hfi w'). congruence.
Qed.

(** Mutators *)

Lemma add_vertex_lsteps f d s s' ev r :
  dg_map (gs_dg s) !! f = None ->
  add_vertex f d s = (s', ev, r) ->
  lsteps (gs_dg s) ev (gs_dg s') /\ r = Ret (dg_nextv (gs_dg s)) /\
  dg_map (gs_dg s') = <[f := dg_nextv (gs_dg s)]> (dg_map (gs_dg s)) /\
  gs_subs s' = gs_subs s /\ gs_views s' = gs_views s.
Proof.
  intros Hm. unfold add_vertex.
  assert (Hl : lstep (gs_dg s) [EvFrameAdded f] (fst (bg_add_vertex f d (gs_dg s)))) by by constructor.
  unfold bg_add_vertex in *. rewrite Hm in *. cbn in *. intros [= <- <- <-].
  split; [by apply lsteps_one|]. done.
Qed.

Lemma emplace_frame_lsteps f d s s' ev r :
  dg_wf (gs_dg s) -> emplace_frame f d s = (s', ev, r) -> lsteps (gs_dg s) ev (gs_dg s').
Proof.
  intros Hwf. unfold emplace_frame.
  destruct (Nat.eqb_spec (bg_vertex (gs_dg s) f) null_vertex) as [Hn|].
  - rewrite (bg_vertex_null einv) in Hn by done. by intros (? & _)%add_vertex_lsteps.
  - intros [= <- <- _]. constructor.
Qed.

Lemma add_edge_v_lsteps o t p s s' ev r :
  dg_wf (gs_dg s) -> o <> t -> add_edge_v einv o t p s = (s', ev, r) -> ok r ->
  lsteps (gs_dg s) ev (gs_dg s').
Proof.
  intros Hwf Hot. unfold add_edge_v.
  destruct (bg_alive (gs_dg s) o) eqn:Ho; cycle 1.
  { rewrite cbind_read_ub; [|by unfold find_edge; rewrite Ho]. by intros [= <- <- <-]. }
  erewrite cbind_read_ret; [|by apply find_edge_alive].
  destruct (wf_alive_map einv _ o Hwf Ho) as (fo & Hfo & _).
  destruct (bg_edge (gs_dg s) o t) as [e|] eqn:He.
  { assert (Ht : bg_alive (gs_dg s) t = true).
    { apply (bg_edge_iff einv) in He as (? & _ & <-); [|done]. by eapply wf_tgt_alive. }
    destruct (wf_alive_map einv _ t Hwf Ht) as (ft & Hft & _).
    erewrite cbind_read_ret by by apply get_frame_id_some.
    erewrite cbind_read_ret by by apply get_frame_id_some.
    intros [= <- <- _] _. constructor. }
  destruct (bg_alive (gs_dg s) t) eqn:Ht; cycle 1.
  { rewrite cbind_read_ub by by rewrite Ht. by intros [= <- <- <-]. }
  erewrite cbind_read_ret by by rewrite Ht.
  destruct (wf_alive_map einv _ t Hwf Ht) as (ft & Hft & _).
  erewrite cbind_ret by by cbn. rewrite cbind_modify.
  match goal with |- context [add_edge_to_tree_views _ ;;; _] => idtac end.
  change (gs_set_dg (fst (bg_add_edge t o (einv p) _)) _) with
    (gs_set_dg (dg_add2 einv o t p (gs_dg s)) s).
  set (s1 := gs_set_dg (dg_add2 einv o t p (gs_dg s)) s).
  assert (Hl : lstep (gs_dg s) [EvEdgeAdded fo ft (dg_nexte (gs_dg s))] (gs_dg s1))
    by by constructor.
  assert (Hwf1 : dg_wf (gs_dg s1)) by by eapply lstep_wf.
  destruct ((_ ;;; _) s1) as [[s2 ev2] r2] eqn:Hb. cbn. intros [= -> -> ->] Hok.
  apply cbind_inv in Hb as [(s3 & ev3 & [] & ev4 & H3 & H4 & ->)|[(x & Hx & ->)|[[_ ->]|[_ ->]]]];
    [| | by destruct Hok..].
  - unfold add_edge_to_tree_views in H3. apply for_views_frame in H3 as (Hdg & _ & ->).
    erewrite cbind_read_ret in H4.
    2:{ apply get_frame_id_some; rewrite Hdg; [done|]. exact Hfo. }
    erewrite cbind_read_ret in H4.
    2:{ apply get_frame_id_some; rewrite Hdg; [done|]. exact Hft. }
    cbn in H4. injection H4 as <- <- <-. rewrite Hdg. by apply lsteps_one.
  - exfalso. unfold add_edge_to_tree_views in Hx.
    eapply for_views_nothrow, Hx. intros i w w'. apply add_edge_to_tree_view_nothrow; [done|].
    cbn. apply elem_of_app. left. apply elem_of_app. right. by apply elem_of_list_singleton.
Qed.

Lemma add_edge_lsteps o t p s s' ev r :
  dg_wf (gs_dg s) -> o <> t -> add_edge d0 einv o t p s = (s', ev, r) -> ok r ->
  lsteps (gs_dg s) ev (gs_dg s').
Proof.
  intros Hwf Hot. unfold add_edge.
  assert (Hmk : forall f s1, dg_wf (gs_dg s1) ->
    forall s2 ev2 r2, (if bg_vertex (gs_dg s1) f =? null_vertex then add_vertex f d0
                else cret (bg_vertex (gs_dg s1) f)) s1 = (s2, ev2, r2) ->
    exists v, r2 = Ret v /\ dg_map (gs_dg s2) !! f = Some v /\ lsteps (gs_dg s1) ev2 (gs_dg s2) /\
      forall f', f' <> f -> dg_map (gs_dg s2) !! f' = dg_map (gs_dg s1) !! f').
  { intros f s1 Hwf1 s2 ev2 r2.
    destruct (Nat.eqb_spec (bg_vertex (gs_dg s1) f) null_vertex) as [Hn|Hn].
    - rewrite (bg_vertex_null einv) in Hn by done.
      intros (Hl & -> & Hm & _)%add_vertex_lsteps; [|done]. eexists. split; [done|].
      rewrite Hm. rewrite lookup_insert. split; [done|]. split; [done|].
      intros f' Hf'. by rewrite lookup_insert_ne.
    - intros [= <- <- <-]. eexists. split; [done|]. split; [|split; [constructor|done]].
      unfold bg_vertex in *. by destruct (dg_map (gs_dg s1) !! f). }
  intros H Hok.
  apply cbind_inv in H as [(s1 & ev1 & vo & ev2 & H1 & H2 & ->)|[(x & Hx & ->)|[[H ->]|[H ->]]]];
    [| |by destruct Hok..].
  2:{ apply Hmk in Hx as (? & ? & _); done. }
  apply Hmk in H1 as (v & [= ->] & Hmo & Hl1 & Hfr); [|done].
  assert (Hwf1 : dg_wf (gs_dg s1)) by by eapply lsteps_wf.
  assert (Hvt : bg_vertex (gs_dg s) t = bg_vertex (gs_dg s1) t).
  { unfold bg_vertex. by rewrite Hfr by done. }
  rewrite Hvt in H2.
  apply cbind_inv in H2 as [(s2 & ev3 & vt & ev4 & H3 & H4 & ->)|[(x & Hx & ->)|[[H ->]|[H ->]]]];
    [| |by destruct Hok..].
  2:{ apply Hmk in Hx as (? & ? & _); done. }
  apply Hmk in H3 as (u & [= ->] & Hmt & Hl2 & Hfr2); [|done].
  assert (Hwf2 : dg_wf (gs_dg s2)) by by eapply lsteps_wf.
  assert (v <> u).
  { intros ->. apply Hot. eapply (wf_map_inj einv (gs_dg s2)); [done| |done].
    rewrite Hfr2; done. }
  eapply lsteps_app; [done|]. eapply lsteps_app; [done|].
  eapply add_edge_v_lsteps; eauto.
Qed.

Lemma remove_two g o t e1 e2 : dg_wf g ->
  bg_edge g o t = Some e1 -> bg_edge g t o = Some e2 ->
  exists g1, bg_remove_edge (e_id e1) g = Some g1 /\
    bg_remove_edge (e_id e2) g1 = Some (dg_rem2 (e_id e1) (e_id e2) g).
Proof.
  intros Hwf (H1 & Hs1 & Ht1)%(bg_edge_iff einv) (H2 & Hs2 & Ht2)%(bg_edge_iff einv); try done.
  assert (Hne : e_id e1 <> e_id e2).
  { intros Heq. assert (e1 = e2) as -> by (eapply (NoDup_fmap_inj e_id); eauto using (wf_eid einv)).
    apply (wf_noself einv g Hwf e2 H2). congruence. }
  unfold bg_remove_edge at 1.
  assert (bg_erec g (e_id e1) = Some e1) as -> by by apply (bg_erec_iff einv).
  eexists. split; [done|]. unfold bg_remove_edge, bg_erec. cbn.
  rewrite (find_uniq e_id _ _ e2).
  - unfold dg_rem2. do 2 f_equal. rewrite filter_filter. done.
  - apply NoDup_fmap_filter, (wf_eid einv), Hwf.
  - apply elem_of_list_filter. split; [congruence|done].
  - apply Nat.eqb_refl.
  - intros y ?%Nat.eqb_eq. done.
Qed.

Lemma remove_edge_impl_eq ord fo ft o t e1 e2 s : dg_wf (gs_dg s) ->
  bg_edge (gs_dg s) o t = Some e1 -> bg_edge (gs_dg s) t o = Some e2 ->
  remove_edge_impl ord fo ft o t s =
  let '(s', _, r) := remove_edge_from_tree_views ord o t
      (gs_set_dg (dg_rem2 (e_id e1) (e_id e2) (gs_dg s)) s) in
  (s', [EvEdgeRemoved fo ft], r).
Proof.
  intros Hwf He1 He2. unfold remove_edge_impl.
  assert (bg_alive (gs_dg s) o = true).
  { apply (bg_edge_iff einv) in He1 as (? & <- & _); [|done]. by eapply wf_src_alive. }
  assert (bg_alive (gs_dg s) t = true).
  { apply (bg_edge_iff einv) in He2 as (? & <- & _); [|done]. by eapply wf_src_alive. }
  erewrite cbind_read_ret by by apply find_edge_alive.
  erewrite cbind_read_ret by by apply find_edge_alive.
  rewrite He1, He2. destruct (remove_two _ o t e1 e2 Hwf He1 He2) as (g1 & Hr1 & Hr2).
  erewrite cbind_ret; [|unfold boost_remove_edge; by rewrite Hr1].
  erewrite cbind_ret; [|by cbn].
  erewrite cbind_ret; [|unfold boost_remove_edge; cbn; by rewrite Hr2].
  change (gs_set_dg (dg_rem2 (e_id e1) (e_id e2) (gs_dg s)) (gs_set_dg g1 s))
    with (gs_set_dg (dg_rem2 (e_id e1) (e_id e2) (gs_dg s)) s).
  destruct (remove_edge_from_tree_views _ _ _ _) as [[s2 ev2] r2] eqn:Hv. cbn.
  unfold remove_edge_from_tree_views in Hv. by apply for_views_frame in Hv as (_ & _ & ->).
Qed.

Lemma remove_edge_impl_none ord fo ft o t s : dg_wf (gs_dg s) ->
  bg_alive (gs_dg s) o = true -> bg_alive (gs_dg s) t = true ->
  bg_edge (gs_dg s) o t = None ->
  remove_edge_impl ord fo ft o t s = (s, [], Throw (XUnknownEdge fo ft)).
Proof.
  intros Hwf Ho Ht He. unfold remove_edge_impl.
  erewrite cbind_read_ret by by apply find_edge_alive.
  erewrite cbind_read_ret by by apply find_edge_alive.
  by rewrite He.
Qed.

Lemma remove_edge_impl_lsteps ord fo ft o t s s' ev r :
  dg_wf (gs_dg s) -> dg_map (gs_dg s) !! fo = Some o -> dg_map (gs_dg s) !! ft = Some t ->
  remove_edge_impl ord fo ft o t s = (s', ev, r) -> lsteps (gs_dg s) ev (gs_dg s').
Proof.
  intros Hwf Hfo Hft.
  destruct (bg_edge (gs_dg s) o t) as [e1|] eqn:He1.
  - destruct (edge_rev _ _ _ _ Hwf He1) as [e2 He2].
    rewrite (remove_edge_impl_eq ord fo ft o t e1 e2) by done.
    destruct (remove_edge_from_tree_views _ _ _ _) as [[s2 ev2] r2] eqn:Hv.
    intros [= <- <- <-]. unfold remove_edge_from_tree_views in Hv.
    apply for_views_frame in Hv as (-> & _ & _). apply lsteps_one. by eapply LRemPair.
  - rewrite remove_edge_impl_none by eauto using wf_map_alive.
    intros [= <- <- _]. constructor.
Qed.

Lemma get_frame_id_cases s v : dg_wf (gs_dg s) ->
  (exists f, dg_map (gs_dg s) !! f = Some v /\ get_frame_id s v = Ret f) \/
  (bg_alive (gs_dg s) v = false /\ v = null_vertex /\ get_frame_id s v = Throw XNullVertex) \/
  (bg_alive (gs_dg s) v = false /\ v <> null_vertex /\ get_frame_id s v = UB).
Proof.
  intros Hwf. destruct (bg_alive (gs_dg s) v) eqn:Ha.
  - left. destruct (wf_alive_map einv _ v Hwf Ha) as (f & Hf & _). exists f.
    split; [done|]. by apply get_frame_id_some.
  - right. unfold get_frame_id. destruct (Nat.eqb_spec v null_vertex); [by left|right].
    destruct (bg_vrec (gs_dg s) v) as [r|] eqn:Hr; [|done].
    assert (bg_alive (gs_dg s) v = true) by (apply (bg_alive_vrec einv); eauto). congruence.
Qed.

Lemma remove_edge_v_lsteps ord o t s s' ev r :
  dg_wf (gs_dg s) -> remove_edge_v ord o t s = (s', ev, r) -> lsteps (gs_dg s) ev (gs_dg s').
Proof.
  intros Hwf. unfold remove_edge_v.
  destruct (get_frame_id_cases s o Hwf) as [(fo & Hfo & Ho)|[(_ & _ & Ho)|(_ & _ & Ho)]].
  2:{ erewrite cbind_read_throw by exact Ho. intros [= <- <- _]. constructor. }
  2:{ erewrite cbind_read_ub by exact Ho. intros [= <- <- _]. constructor. }
  erewrite cbind_read_ret by exact Ho.
  destruct (get_frame_id_cases s t Hwf) as [(ft & Hft & Ht)|[(_ & _ & Ht)|(_ & _ & Ht)]].
  2:{ erewrite cbind_read_throw by exact Ht. intros [= <- <- _]. constructor. }
  2:{ erewrite cbind_read_ub by exact Ht. intros [= <- <- _]. constructor. }
  erewrite cbind_read_ret by exact Ht. by apply remove_edge_impl_lsteps.
Qed.

Lemma remove_edge_lsteps ord o t s s' ev r :
  dg_wf (gs_dg s) -> remove_edge ord o t s = (s', ev, r) -> lsteps (gs_dg s) ev (gs_dg s').
Proof.
  intros Hwf. unfold remove_edge.
  destruct (get_vertex_cases s o Hwf) as [(vo & Hvo & Ho)|[_ Ho]].
  2:{ erewrite cbind_read_throw by exact Ho. intros [= <- <- _]. constructor. }
  erewrite cbind_read_ret by exact Ho.
  destruct (get_vertex_cases s t Hwf) as [(vt & Hvt & Ht)|[_ Ht]].
  2:{ erewrite cbind_read_throw by exact Ht. intros [= <- <- _]. constructor. }
  erewrite cbind_read_ret by exact Ht. by apply remove_edge_impl_lsteps.
Qed.

Lemma set_prop_edge i p (g : digraph D E) o t :
  bg_edge (bg_set_prop i p g) o t =
  (fun e => if e_id e =? i then ERec (e_id e) (e_src e) (e_tgt e) p else e) <$> bg_edge g o t.
Proof.
  unfold bg_edge. cbn. induction (dg_edges g) as [|e l IH]; [done|]. cbn.
  destruct (e_id e =? i) eqn:Hi; cbn; destruct ((e_src e =? o) && (e_tgt e =? t)); cbn;
    rewrite ?Hi; done.
Qed.

Lemma set_prop_alive i p (g : digraph D E) v : bg_alive (bg_set_prop i p g) v = bg_alive g v.
Proof. done. Qed.

Lemma set_edge_property_v_eq o t p s e1 e2 fo ft : dg_wf (gs_dg s) ->
  dg_map (gs_dg s) !! fo = Some o -> dg_map (gs_dg s) !! ft = Some t ->
  bg_edge (gs_dg s) o t = Some e1 -> bg_edge (gs_dg s) t o = Some e2 ->
  set_edge_property_v einv o t p s =
  (gs_set_dg (bg_set_prop (e_id e2) (einv p) (bg_set_prop (e_id e1) p (gs_dg s))) s,
   [EvEdgeModified fo ft (e_id e1) (e_id e2)], Ret tt).
Proof.
  intros Hwf Hfo Hft He1 He2. unfold set_edge_property_v.
  erewrite cbind_read_ret; [|apply find_edge_alive; by eapply wf_map_alive]. rewrite He1.
  rewrite cbind_modify.
  erewrite cbind_read_ret.
  2:{ apply find_edge_alive. exact (wf_map_alive einv _ _ _ Hwf Hft). }
  cbn [gs_dg gs_set_dg]. rewrite set_prop_edge, He2. cbn [fmap option_fmap option_map].
  set (e' := if _ =? _ then _ else _).
  assert (e_id e' = e_id e2) as -> by (unfold e'; by destruct (_ =? _)).
  rewrite cbind_modify.
  assert (Hwf2 : dg_wf (bg_set_prop (e_id e2) (einv p) (bg_set_prop (e_id e1) p (gs_dg s))))
    by by eapply wf_set2.
  erewrite cbind_read_ret by by apply get_frame_id_some.
  erewrite cbind_read_ret by by apply get_frame_id_some.
  done.
Qed.

Lemma set_edge_property_v_lsteps o t p s s' ev r :
  dg_wf (gs_dg s) -> set_edge_property_v einv o t p s = (s', ev, r) ->
  lsteps (gs_dg s) ev (gs_dg s').
Proof.
  intros Hwf. destruct (bg_alive (gs_dg s) o) eqn:Ho; cycle 1.
  { unfold set_edge_property_v. rewrite cbind_read_ub; [|by unfold find_edge; rewrite Ho].
    intros [= <- <- _]. constructor. }
  destruct (wf_alive_map einv _ o Hwf Ho) as (fo & Hfo & _).
  destruct (bg_edge (gs_dg s) o t) as [e1|] eqn:He1.
  - destruct (edge_rev _ _ _ _ Hwf He1) as [e2 He2].
    assert (Ht : bg_alive (gs_dg s) t = true).
    { apply (bg_edge_iff einv) in He1 as (? & _ & <-); [|done]. by eapply wf_tgt_alive. }
    destruct (wf_alive_map einv _ t Hwf Ht) as (ft & Hft & _).
    erewrite set_edge_property_v_eq by done. intros [= <- <- _].
    apply lsteps_one. cbn. by eapply LSetPair.
  - unfold set_edge_property_v. erewrite cbind_read_ret by by apply find_edge_alive. rewrite He1.
    erewrite cbind_read_ret by by apply get_frame_id_some.
    destruct (get_frame_id_cases s t Hwf) as [(ft & Hft & Ht)|[(_ & _ & Ht)|(_ & _ & Ht)]].
    + erewrite cbind_read_ret by exact Ht. intros [= <- <- _]. constructor.
    + erewrite cbind_read_throw by exact Ht. intros [= <- <- _]. constructor.
    + erewrite cbind_read_ub by exact Ht. intros [= <- <- _]. constructor.
Qed.

Lemma set_edge_property_lsteps o t p s s' ev r :
  dg_wf (gs_dg s) -> set_edge_property einv o t p s = (s', ev, r) ->
  lsteps (gs_dg s) ev (gs_dg s').
Proof.
  intros Hwf. unfold set_edge_property.
  destruct (get_vertex_cases s o Hwf) as [(vo & Hvo & Ho)|[_ Ho]].
  2:{ erewrite cbind_read_throw by exact Ho. intros [= <- <- _]. constructor. }
  erewrite cbind_read_ret by exact Ho.
  destruct (get_vertex_cases s t Hwf) as [(vt & Hvt & Ht)|[_ Ht]].
  2:{ erewrite cbind_read_throw by exact Ht. intros [= <- <- _]. constructor. }
  erewrite cbind_read_ret by exact Ht. by apply set_edge_property_v_lsteps.
Qed.

Lemma disconnect_loop_lsteps n ord v s s' ev r :
  dg_wf (gs_dg s) -> disconnect_loop n ord v s = (s', ev, r) -> lsteps (gs_dg s) ev (gs_dg s').
Proof.
  revert s s' ev r. induction n as [|n IH]; intros s s' ev r Hwf; cbn [disconnect_loop].
  - destruct (bg_out (gs_dg s) v); intros [= <- <- _]; constructor.
  - destruct (bg_out (gs_dg s) v) as [|e l]; [intros [= <- <- _]; constructor|].
    intros [(s1 & ev1 & a & ev2 & H1 & H2 & ->)|[(x & Hx & ->)|[[H ->]|[H ->]]]]%cbind_inv.
    + apply remove_edge_v_lsteps in H1 as Hl1; [|done].
      eapply lsteps_app; [done|]. eapply IH; [|done]. by eapply lsteps_wf.
    + by eapply remove_edge_v_lsteps.
    + by eapply remove_edge_v_lsteps.
    + by eapply remove_edge_v_lsteps.
Qed.

Lemma disconnect_frame_lsteps ord f s s' ev r :
  dg_wf (gs_dg s) -> disconnect_frame ord f s = (s', ev, r) -> lsteps (gs_dg s) ev (gs_dg s').
Proof.
  intros Hwf. unfold disconnect_frame.
  destruct (get_vertex_cases s f Hwf) as [(v & Hv & Ho)|[_ Ho]].
  - erewrite cbind_read_ret by exact Ho. by apply disconnect_loop_lsteps.
  - erewrite cbind_read_throw by exact Ho. intros [= <- <- _]. constructor.
Qed.

Lemma remove_frame_eq f v s : dg_wf (gs_dg s) -> dg_map (gs_dg s) !! f = Some v ->
  remove_frame f s =
  if bool_decide (0 < bg_degree (gs_dg s) v) then (s, [], Throw (XFrameStillConnected f))
  else (gs_set_dg (bg_remove_vertex v f (gs_dg s)) s, [EvFrameRemoved f], Ret tt).
Proof.
  intros Hwf Hm. unfold remove_frame.
  erewrite cbind_read_ret by by apply get_vertex_some.
  assert (Ha : bg_alive (gs_dg s) v = true) by by eapply wf_map_alive.
  case_bool_decide.
  - erewrite cbind_read_throw; [done|]. cbn. rewrite Ha. by rewrite bool_decide_eq_true_2.
  - erewrite cbind_read_ret; [done|]. cbn. rewrite Ha. by rewrite bool_decide_eq_false_2.
Qed.

Lemma remove_frame_lsteps f s s' ev r :
  dg_wf (gs_dg s) -> remove_frame f s = (s', ev, r) -> lsteps (gs_dg s) ev (gs_dg s').
Proof.
  intros Hwf. destruct (get_vertex_cases s f Hwf) as [(v & Hv & Ho)|[_ Ho]].
  - rewrite (remove_frame_eq f v) by done. case_bool_decide; intros [= <- <- _]; [constructor|].
    apply lsteps_one. cbn. constructor; [done|lia].
  - unfold remove_frame. erewrite cbind_read_throw by exact Ho. intros [= <- <- _]. constructor.
Qed.

(** View operations do not touch the boost graph and emit no events *)

Definition view_op (op : gop D E) : Prop :=
  match op with
  | ONewView _ | OGetTree _ _ _ | OGetTreeV _ _ _ | OUnsubscribeTreeView _ | OViewUnsubscribe _
  | ODestroyView _ | OMoveView _ _ | OCopyView _ _ | OSlotView _ _ _ _ => True
  | _ => False
  end.

Lemma subscribe_frame i s s' ev r : subscribe_tree_view i s = (s', ev, r) ->
  gs_dg s' = gs_dg s /\ ev = [].
Proof.
  unfold subscribe_tree_view. destruct (gs_views s !! i) as [w|]; [|by intros [= <- <- _]].
  destruct (tv_pub w); by intros [= <- <- _].
Qed.

Lemma get_tree_v_frame root keep i s s' ev r : get_tree_v root keep i s = (s', ev, r) ->
  gs_dg s' = gs_dg s /\ ev = [].
Proof.
  unfold get_tree_v. destruct (gs_views s !! i) as [w|]; [|by intros [= <- <- _]].
  destruct (get_tree_into s root w); [|by intros [= <- <- _]..].
  destruct keep; [by intros ?%subscribe_frame|by intros [= <- <- _]].
Qed.

Lemma view_op_frame ord op s s' ev r : view_op op -> gstep d0 einv ord op s = (s', ev, r) ->
  gs_dg s' = gs_dg s /\ ev = [].
Proof.
  destruct op; cbn [view_op gstep]; try done; intros _.
  - unfold new_view. destruct (gs_views s !! i); by intros [= <- <- _].
  - unfold get_tree. intros [(s1 & ev1 & a & ev2 & H1 & H2 & ->)|[(x & Hx & ->)|[[H ->]|[H ->]]]]%cbind_inv.
    + cbn in H1. injection H1 as <- <- _. by apply get_tree_v_frame in H2.
    + by injection Hx as <- <- _.
    + by injection H as <- <- _.
    + by injection H as <- <- _.
  - apply get_tree_v_frame.
  - by intros [= <- <- _].
  - unfold view_unsubscribe. destruct (gs_views s !! i) as [w|]; [|by intros [= <- <- _]].
    destruct (tv_pub w); by intros [= <- <- _].
  - unfold destroy_view. destruct (gs_views s !! i) as [w|]; [|by intros [= <- <- _]].
    destruct (tv_pub w); by intros [= <- <- _].
  - unfold move_view. destruct (gs_views s !! i) as [w|]; [|by intros [= <- <- _]].
    destruct (gs_views s !! j); [by intros [= <- <- _]|].
    erewrite cbind_ret by done. set (s1 := gs_set_view _ _ _).
    assert (Hs1 : gs_dg s1 = gs_dg s) by done. revert Hs1. generalize s1. clear s1. intros s1 Hs1.
    destruct ((_ ;;; _) s1) as [[s2 ev2] r2] eqn:H2. cbn. intros [= <- <- _].
    apply cbind_inv in H2.
    assert (Hfst : forall s3 ev3 (r3 : outcome unit), (if tv_pub w
         then unsubscribe_tree_view i;;; subscribe_tree_view j;;;
              cmodify (gs_set_view i (tv_set_pub false
                       (TView (tv_root w) ∅ [] (tv_pub w) [] (tv_slots_cross w)
                              (tv_slots_added w) (tv_slots_removed w))))
         else cret tt) s1 = (s3, ev3, r3) -> gs_dg s3 = gs_dg s /\ ev3 = []).
    { intros s3 ev3 r3. destruct (tv_pub w); [|by intros [= <- <- _]].
      unfold unsubscribe_tree_view. rewrite cbind_modify.
      intros [(s4 & ev4 & a & ev5 & H1 & H3 & ->)|[(x & Hx & ->)|[[H ->]|[H ->]]]]%cbind_inv.
      - apply subscribe_frame in H1 as [? ->]. cbn in H3. injection H3 as <- <- _. cbn in *.
        split; [congruence|done].
      - apply subscribe_frame in Hx as [? ->]. cbn in *. split; [congruence|done].
      - apply subscribe_frame in H as [? ->]. cbn in *. split; [congruence|done].
      - apply subscribe_frame in H as [? ->]. cbn in *. split; [congruence|done]. }
    destruct H2 as [(s4 & ev4 & a & ev5 & H1 & H3 & ->)|[(x & Hx & ->)|[[H ->]|[H ->]]]].
    + apply Hfst in H1 as [? ->]. cbn in H3. injection H3 as <- <- _.
      destruct (gs_views s4 !! i), (gs_views s4 !! j); cbn; done.
    + by apply Hfst in Hx.
    + by apply Hfst in H.
    + by apply Hfst in H.
  - unfold copy_view. destruct (gs_views s !! i) as [w|]; [|by intros [= <- <- _]].
    destruct (gs_views s !! j); by intros [= <- <- _].
  - unfold slot_view. destruct (gs_views s !! i) as [w|]; by intros [= <- <- _].
Qed.

(** The main step lemma *)
Lemma gstep_lsteps ord op s s' ev r :
  dg_wf (gs_dg s) -> op_noself op -> gstep d0 einv ord op s = (s', ev, r) -> ok r ->
  lsteps (gs_dg s) ev (gs_dg s').
Proof.
  intros Hwf Hns Hs Hok.
  destruct op;
    try (match goal with H : gstep _ _ _ ?op _ = _ |- _ =>
      destruct (view_op_frame ord op s s' ev r I H) as [-> ->]; constructor end); cbn [gstep op_noself] in Hs, Hns.
  - unfold add_frame in Hs. apply cbind_ret_void_inv in Hs as (r' & Hs & _).
    by eapply emplace_frame_lsteps.
  - apply cbind_ret_void_inv in Hs as (r' & Hs & _). by eapply emplace_frame_lsteps.
  - by eapply add_edge_lsteps.
  - by eapply add_edge_v_lsteps.
  - by eapply remove_edge_lsteps.
  - by eapply remove_edge_v_lsteps.
  - by eapply set_edge_property_lsteps.
  - by eapply set_edge_property_v_lsteps.
  - by eapply disconnect_frame_lsteps.
  - by eapply remove_frame_lsteps.
  - unfold set_frame_data in Hs. destruct (bg_alive _ _); injection Hs as <- <- <-; [|done].
    apply lsteps_one. cbn. constructor.
Qed.

Lemma run_lsteps h s s' ev r :
  dg_wf (gs_dg s) -> hist_noself h -> run d0 einv h s = (s', ev, r) -> ok r ->
  lsteps (gs_dg s) ev (gs_dg s').
Proof.
  revert s s' ev r. induction h as [|[ord op] h IH]; intros s s' ev r Hwf Hns; cbn [run].
  - intros [= <- <- _] _. constructor.
  - apply Forall_cons in Hns as [Hop Hns]. cbn in Hop.
    destruct (gstep d0 einv ord op s) as [[s1 ev1] r1] eqn:Hs.
    destruct r1 as [a|x| |]; [| |by intros [= <- <- <-] []..].
    + apply gstep_lsteps in Hs; [|done..].
      destruct (run d0 einv h s1) as [[s2 ev2] r2] eqn:Hr. intros [= <- <- <-] Hok.
      eapply lsteps_app; [done|]. eapply IH; eauto. by eapply lsteps_wf.
    + apply gstep_lsteps in Hs; [|done..].
      destruct (run d0 einv h s1) as [[s2 ev2] r2] eqn:Hr. intros [= <- <- <-] Hok.
      eapply lsteps_app; [done|]. eapply IH; eauto. by eapply lsteps_wf.
Qed.

Lemma run_wf h s ev r :
  hist_noself h -> run d0 einv h gst0 = (s, ev, r) -> ok r -> dg_wf (gs_dg s).
Proof.
  intros Hns Hr Hok. apply (lsteps_wf einv bg_empty ev); [apply dg_wf_empty|].
  change (@bg_empty D E) with (gs_dg (@gst0 D E)).
  eapply run_lsteps; [apply dg_wf_empty|done..].
Qed.

End step.
