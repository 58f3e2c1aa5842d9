(** Paths (C25-C27, C70). *)
From stdpp Require Import prelude strings gmap.
From Verif Require Import ListLib Outcome Digraph Bfs TreeView GraphModel GraphOps GraphWf GraphStep SpecStore SpecObs GraphStore
  GraphRefine GraphThms GraphThms2 SpecWalk WalkThms SpecSearch GraphSearch TransformModel SpecTransform TransformThms PathModel SpecPath.

(** ** Lists *)
Section lists.
Context {A : Type}.
Implicit Types l : list A.

Lemma consecutive_nil (a b : A) : ~ consecutive [] a b.
Proof. intros (k & Hk & _). by rewrite lookup_nil in Hk. Qed.

Lemma consecutive_one (x a b : A) : ~ consecutive [x] a b.
Proof. intros (k & _ & Hk). by destruct k. Qed.

Lemma consecutive_cons x y l (a b : A) : consecutive (x :: y :: l) a b <-> (a = x /\ b = y) \/ consecutive (y :: l) a b.
Proof.
  split.
  - intros ([|k] & H1 & H2); cbn in *; [left; by simplify_eq|]. right. by exists k.
  - intros [[-> ->] | (k & H1 & H2)]; [by exists 0|]. by exists (S k).
Qed.

Lemma chain_consecutive R l : chain R l <-> forall a b, consecutive l a b -> R a b.
Proof.
  induction l as [|x l IH]; [split; [intros _ a b []%consecutive_nil|done]|].
  destruct l as [|y l].
  { split; [intros _ a b []%consecutive_one|done]. }
  cbn [chain] in *. rewrite IH. split.
  - intros [H1 H2] a b [[-> ->]|?]%consecutive_cons; auto.
  - intros H. split; [apply H|intros a b ?; apply H]; apply consecutive_cons; auto.
Qed.

Lemma consecutive_elem l a b : consecutive l a b -> a ∈ l /\ b ∈ l.
Proof. intros (k & H1 & H2). split; eapply elem_of_list_lookup_2; done. Qed.

Lemma consecutive_flip l a b : NoDup l -> consecutive l a b -> ~ consecutive l b a.
Proof.
  intros Hnd (k & H1 & H2) (j & H3 & H4).
  pose proof (NoDup_lookup _ _ _ _ Hnd H2 H3). pose proof (NoDup_lookup _ _ _ _ Hnd H1 H4). lia.
Qed.

Lemma route_ends R (a b : A) l : route R a b l -> a <> b -> 2 <= length l.
Proof.
  intros (Hh & Hl & _) Hne. destruct l as [|x [|y l]]; cbn in *; [done| |lia]. simplify_eq.
Qed.

Lemma last_two l (b : A) : 2 <= length l -> last l = Some b -> exists a, consecutive l a b.
Proof.
  induction l as [|x l IH]; [cbn; lia|]. destruct l as [|y [|z l]]; cbn [length] in *; [lia| |].
  - intros _ [= ->]. exists x. apply consecutive_cons. by left.
  - intros _ Hl. rewrite last_cons_cons in Hl. destruct IH as [a Ha]; [lia|done|].
    exists a. apply consecutive_cons. by right.
Qed.

Lemma head_not_second l a b : NoDup l -> head l = Some a -> ~ consecutive l b a.
Proof.
  intros Hnd Hh (k & _ & H2). destruct l as [|x l]; [done|]. injection Hh as ->.
  by pose proof (NoDup_lookup (a :: l) 0 _ _ Hnd eq_refl H2).
Qed.

Lemma last_not_first l a b : NoDup l -> last l = Some a -> ~ consecutive l a b.
Proof.
  intros Hnd Hl (k & H1 & H2). rewrite last_lookup in Hl.
  pose proof (NoDup_lookup _ _ _ _ Hnd H1 Hl). apply lookup_lt_Some in H2. lia.
Qed.
End lists.

Lemma create_edges_spec l a b : (a, b) ∈ create_edges l <-> consecutive l a b.
Proof.
  induction l as [|x l IH]; cbn [create_edges].
  { split; [set_solver|intros []%consecutive_nil]. }
  destruct l as [|y l]; [split; [set_solver|intros []%consecutive_one]|].
  rewrite elem_of_union, elem_of_singleton, IH, consecutive_cons. naive_solver.
Qed.

(** ** Events *)
Definition hits (p : path) (e : event) : Prop :=
  match e with EvEdgeRemoved o t => (o, t) ∈ p_edges p | _ => False end.

Lemma path_notify_fixed e p :
  p_frames (path_notify e p) = p_frames p /\ p_edges (path_notify e p) = p_edges p /\ p_auto (path_notify e p) = p_auto p.
Proof.
  unfold path_notify. destruct (p_auto p) eqn:Ha; [|done]. destruct e; try done.
  unfold path_edge_removed. destruct (p_dirty p); [done|]. by destruct (bool_decide _).
Qed.

Lemma path_notify_dirty e p : p_auto p = true ->
  p_dirty (path_notify e p) = true <-> p_dirty p = true \/ hits p e.
Proof.
  intros Ha. unfold path_notify. rewrite Ha. destruct e; cbn; try naive_solver.
  unfold path_edge_removed. destruct (p_dirty p) eqn:Hd; [naive_solver|].
  case_bool_decide; cbn; rewrite ?Hd; naive_solver.
Qed.

Lemma notify_fixed evs p :
  let p' := foldl (fun p e => path_notify e p) p evs in
  p_frames p' = p_frames p /\ p_edges p' = p_edges p /\ p_auto p' = p_auto p.
Proof.
  revert p. induction evs as [|e evs IH]; intros p; [done|]. cbn [foldl].
  destruct (IH (path_notify e p)) as (-> & -> & ->). apply path_notify_fixed.
Qed.

Lemma notify_dirty evs p : p_auto p = true ->
  p_dirty (foldl (fun p e => path_notify e p) p evs) = true <-> p_dirty p = true \/ exists e, e ∈ evs /\ hits p e.
Proof.
  revert p. induction evs as [|e evs IH]; intros p Ha; cbn [foldl].
  { split; [by left|]. by intros [? | (? & ?%elem_of_nil & _)]. }
  destruct (path_notify_fixed e p) as (_ & He & Ha').
  assert (Hh : forall x, hits (path_notify e p) x <-> hits p x) by (intros []; unfold hits; by rewrite ?He).
  rewrite IH by congruence. rewrite path_notify_dirty by done. setoid_rewrite Hh.
  setoid_rewrite elem_of_cons. split.
  - intros [[?|?] | (e' & ? & ?)]; [by left|right; exists e; auto|right; exists e'; auto].
  - intros [? | (e' & [->|?] & ?)]; eauto.
Qed.

Lemma notify_manual evs p : p_auto p = false -> foldl (fun p e => path_notify e p) p evs = p.
Proof.
  intros Ha. induction evs as [|e evs IH]; [done|]. cbn [foldl]. unfold path_notify at 2. by rewrite Ha.
Qed.

(** ** Edges across steps *)
Section edges.
Context {D E : Type} (d0 : D) (einv : E -> E).
Local Notation dg_wf := (dg_wf einv).
Implicit Types s : gst D E.
Implicit Types g : digraph D E.

Lemma joined_store s st a b : dg_wf (gs_dg s) -> dgrepr (gs_dg s) st ->
  joined s a b <-> is_Some (st_edges st !! (a, b)).
Proof.
  intros Hwf Hr. unfold joined. rewrite (contains_edge_eq einv) by done.
  destruct (dg_map (gs_dg s) !! a) as [va|] eqn:Ha.
  - destruct (dg_map (gs_dg s) !! b) as [vb|] eqn:Hb.
    + rewrite (dgrepr_edge einv _ _ _ _ _ _ Hwf Hr Ha Hb), fmap_is_Some. split.
      * by intros [= ?%bool_decide_eq_true].
      * intros ?. f_equal. by apply bool_decide_eq_true.
    + split; [done|]. intros [p Hp]. apply (dgrepr_edge_known einv _ _ _ _ _ Hwf Hr) in Hp as [_ Hp].
      rewrite Hb in Hp. by destruct Hp.
  - split; [done|]. intros [p Hp]. apply (dgrepr_edge_known einv _ _ _ _ _ Hwf Hr) in Hp as [Hp _].
    rewrite Ha in Hp. by destruct Hp.
Qed.

Lemma dgrepr_set_data g st v d : dg_wf g -> dgrepr g st ->
  exists fr, dgrepr (bg_set_data v d g) (Store fr (st_edges st)).
Proof.
  intros Hwf Hr. exists (list_to_map ((fun r => (v_name r, v_data r)) <$> dg_verts (bg_set_data v d g))).
  assert (Hwf' : dg_wf (bg_set_data v d g)) by (eapply lstep_wf; [done|constructor]).
  split; [|apply (dr_edges _ _ Hr)].
  intros f d'. cbn [st_frames]. rewrite <- elem_of_list_to_map.
  - rewrite elem_of_list_fmap. split.
    + intros (r & [= -> ->] & ?). eauto.
    + intros (r & ? & <- & <-). eauto.
  - rewrite <- list_fmap_compose.
    exact (wf_vname einv _ Hwf').
Qed.

Lemma lstep_edge g ev g' st x y : dg_wf g -> dgrepr g st -> lstep einv g ev g' ->
  exists st', dgrepr g' st' /\
    (is_Some (st_edges st !! (x, y)) ->
     is_Some (st_edges st' !! (x, y)) \/ EvEdgeRemoved x y ∈ ev \/ EvEdgeRemoved y x ∈ ev).
Proof.
  intros Hwf Hr Hs. destruct Hs.
  - eexists. split; [by apply (dgrepr_add_vertex einv)|]. cbn. by left.
  - eexists. split; [by eapply (dgrepr_add2 einv)|]. cbn [st_edges]. intros Hx. left.
    destruct (decide ((fo, ft) = (x, y))) as [<- | ?]; [by rewrite lookup_insert|]. rewrite lookup_insert_ne by done.
    destruct (decide ((ft, fo) = (x, y))) as [<- | ?]; [by rewrite lookup_insert|]. by rewrite lookup_insert_ne.
  - eexists. split; [by eapply (dgrepr_rem2 einv _ _ o t _ _ fo ft)|]. cbn [st_edges]. intros Hx.
    destruct (decide ((fo, ft) = (x, y))) as [[= -> ->] | ?]; [right; left; set_solver|].
    destruct (decide ((ft, fo) = (x, y))) as [[= -> ->] | ?]; [right; right; set_solver|].
    left. by rewrite !lookup_delete_ne.
  - eexists. split; [by eapply (dgrepr_set2 einv _ _ o t _ _ _ fo ft)|]. cbn [st_edges]. intros Hx. left.
    destruct (decide ((fo, ft) = (x, y))) as [<- | ?]; [by rewrite lookup_insert|]. rewrite lookup_insert_ne by done.
    destruct (decide ((ft, fo) = (x, y))) as [<- | ?]; [by rewrite lookup_insert|]. by rewrite lookup_insert_ne.
  - eexists. split; [by eapply (dgrepr_remove_vertex einv)|]. cbn. by left.
  - destruct (dgrepr_set_data g st v d Hwf Hr) as [fr Hfr]. eexists. split; [done|]. cbn. by left.
Qed.

Lemma lsteps_edge g ev g' st x y : dg_wf g -> dgrepr g st -> lsteps einv g ev g' ->
  exists st', dgrepr g' st' /\
    (is_Some (st_edges st !! (x, y)) ->
     is_Some (st_edges st' !! (x, y)) \/ EvEdgeRemoved x y ∈ ev \/ EvEdgeRemoved y x ∈ ev).
Proof.
  intros Hwf Hr Hs. revert st Hr. induction Hs as [g|g1 ev1 g2 ev2 g3 H1 H2 IH]; intros st Hr.
  { exists st. split; [done|]. by left. }
  destruct (lstep_edge _ _ _ _ x y Hwf Hr H1) as (st1 & Hr1 & He1).
  destruct (IH (lstep_wf einv _ _ _ Hwf H1) st1 Hr1) as (st2 & Hr2 & He2).
  exists st2. split; [done|]. intros Hx. setoid_rewrite elem_of_app.
  destruct (He1 Hx) as [Hx1|[?|?]]; [|auto..]. destruct (He2 Hx1) as [?|[?|?]]; auto.
Qed.

Lemma gstep_edge s ord op s' ev r x y : dg_wf (gs_dg s) -> op_noself op -> gstep d0 einv ord op s = (s', ev, r) -> ok r ->
  joined s x y -> joined s' x y \/ EvEdgeRemoved x y ∈ ev \/ EvEdgeRemoved y x ∈ ev.
Proof.
  intros Hwf Hns Hs Hok Hj. pose proof (gstep_lsteps d0 einv _ _ _ _ _ _ Hwf Hns Hs Hok) as Hl.
  destruct (store_exists einv s Hwf) as [st Hst]. apply (observes_dgrepr einv) in Hst; [|done].
  destruct (lsteps_edge _ _ _ _ x y Hwf Hst Hl) as (st' & Hst' & He).
  rewrite (joined_store s st) in Hj by done. rewrite (joined_store s' st'); [auto| |done].
  by eapply lsteps_wf.
Qed.

Lemma get_path_route s a b auto p : reachable d0 einv s -> get_path s a b auto = Ret p -> p_frames p <> [] ->
  shortest (joined s) a b (p_frames p) /\ NoDup (p_frames p) /\ a <> b.
Proof.
  intros Hre Hp Hl0. pose proof (reachable_wf d0 einv s Hre) as Hwf. unfold get_path in Hp.
  destruct (get_frames s a b) as [l|x| |] eqn:Hg; [|done..]. injection Hp as <-. cbn [p_frames path_new] in *.
  destruct (get_frames_shortest einv s a b l Hwf Hg Hl0) as [Hs Hnd]. split; [done|]. split; [done|].
  intros ->. assert (Hb : contains_frame s b = true).
  { destruct (contains_frame s b) eqn:Hb; [done|].
    destruct (get_frames_unknown einv s b b Hwf) as [H _]. rewrite H in Hg; done. }
  rewrite (contains_frame_map einv) in Hb by done. apply bool_decide_eq_true in Hb as [u Hu].
  destruct (get_frames_known einv s b b u u Hwf Hu Hu) as (H & _). rewrite H in Hg by done. by injection Hg as <-.
Qed.

Lemma new_path s a b auto p : reachable d0 einv s -> get_path s a b auto = Ret p ->
  p_dirty p = false /\ p_auto p = auto /\
  (p_frames p = [] -> a = b \/ ~ linked (joined s) a b) /\
  (p_frames p <> [] -> shortest (joined s) a b (p_frames p) /\ NoDup (p_frames p) /\ a <> b /\
     path_origin p = Ret a /\ path_target p = Ret b /\
     forall i : Z, (0 <= i < Z.of_nat (path_size p))%Z -> exists f, path_at p i = Ret f /\ path_index p i = Ret f).
Proof.
  intros Hre Hp. pose proof (reachable_wf d0 einv s Hre) as Hwf.
  assert (Hpf : p_dirty p = false /\ p_auto p = auto /\ get_frames s a b = Ret (p_frames p)).
  { unfold get_path in Hp. destruct (get_frames s a b) as [l|x| |]; [|done..]. by injection Hp as <-. }
  destruct Hpf as (Hd & Ha & Hg). do 2 (split; [done|]). split.
  - intros Hnil. destruct (get_frames_unknown einv s a b Hwf) as [Hua Hub].
    destruct (contains_frame s a) eqn:Hca; [|rewrite Hua in Hg; done].
    destruct (contains_frame s b) eqn:Hcb; [|rewrite Hub in Hg; done].
    destruct (get_frames_empty einv s a b Hwf Hca Hcb) as (l & Hl & Hiff). apply Hiff. congruence.
  - intros Hl0. destruct (get_path_route s a b auto p Hre Hp Hl0) as (Hs & Hnd & Hne).
    destruct Hs as [(Hh & Hl & Hc) Hm]. do 3 (split; [done|]).
    unfold path_origin, path_target. rewrite Hh, Hl. do 2 (split; [done|]).
    intros i Hi. unfold path_at, path_index. rewrite (proj2 (Z.ltb_ge _ _)) by lia.
    destruct (lookup_lt_is_Some_2 (p_frames p) (Z.to_nat i)) as [f Hf]; [unfold path_size in Hi; lia|].
    exists f. by rewrite Hf.
Qed.

End edges.

(** ** Transform of a path *)
Section transform.
Context {T : Type} (one : T) (mul : T -> T -> T) (inv : T -> T) {D : Type} (d0 : D).
Hypothesis G : group one mul inv.
Local Notation einv := (tf_inverse inv).
Local Notation gst := (gst D (tf T)).
Local Notation dg_wf := (dg_wf einv).
Local Notation get_transform := (get_transform one mul).
Local Notation get_transform_path := (get_transform_path one mul).
Local Notation path_steps := (path_steps one mul).
Local Notation path_product := (path_product one mul).
Local Notation edge_tf := (edge_tf one).
Local Notation route_tf := (route_tf one mul).
Implicit Types s : gst.
Implicit Types p : path.

Lemma get_transform_joined s a b : dg_wf (gs_dg s) -> joined s a b ->
  exists q, get_edge_property s a b = Ret q /\ get_transform s a b = Ret q.
Proof.
  intros Hwf Hj. destruct (joined_known s a b Hj) as [Ha Hb].
  destruct (get_transform_cases one mul inv s a b Hwf Ha Hb) as [(Hn & _) | [(_ & _ & q & ? & ?) | [(_ & ? & _) | (_ & ? & _)]]];
    [|eauto|done..].
  exfalso. apply (joined_vnext einv) in Hj as (u & v & _ & _ & (e & He & _)%vnext_iff); [|done].
  unfold num_edges in Hn. rewrite (wf_ne einv _ Hwf) in Hn. destruct (dg_edges (gs_dg s)); [by apply elem_of_nil in He|done].
Qed.

(* Along joined frames the loop multiplies the edge transforms. *)
Lemma path_steps_joined s l acc : dg_wf (gs_dg s) -> chain (joined s) l ->
  path_steps s acc l = Ret (Tf (tf_time acc) (foldl mul (tf_tr acc) (zip_with (edge_tf s) l (tail l)))).
Proof.
  intros Hwf. revert acc. induction l as [|a l IH]; intros acc Hc; [by destruct acc|].
  destruct l as [|b l]; [by destruct acc|]. destruct Hc as [Hj Hc].
  destruct (get_transform_joined s a b Hwf Hj) as (q & Hq & Hg).
  cbn [PathModel.path_steps]. rewrite Hg. cbn [obind]. change (PathModel.path_steps one mul s) with (path_steps s) in IH.
  cbn [PathModel.path_steps] in IH. rewrite IH by done. cbn [tf_time tf_tr tail zip_with foldl].
  assert (edge_tf s a b = tf_tr q) as -> by (unfold SpecTransform.edge_tf; by rewrite Hq). done.
Qed.

Lemma path_product_joined s l : dg_wf (gs_dg s) -> chain (joined s) l -> 2 <= length l ->
  exists x a b q, path_product s l = Ret x /\ tf_tr x = route_tf s l /\
    l !! 0 = Some a /\ l !! 1 = Some b /\ get_edge_property s a b = Ret q /\ tf_time x = tf_time q.
Proof.
  intros Hwf Hc Hl. destruct l as [|a [|b l]]; cbn [length] in Hl; [lia..|]. destruct Hc as [Hj Hc].
  destruct (get_transform_joined s a b Hwf Hj) as (q & Hq & Hg).
  exists (Tf (tf_time q) (foldl mul (tf_tr q) (zip_with (edge_tf s) (b :: l) l))), a, b, q.
  split; [|split; [|done]].
  - unfold PathModel.path_product. rewrite Hg. cbn [obind]. by apply path_steps_joined.
  - unfold SpecTransform.route_tf, product. cbn [tail zip_with foldl tf_tr]. f_equal.
    rewrite (gr_one_l _ _ _ G). unfold SpecTransform.edge_tf. by rewrite Hq.
Qed.

(** *** C26 *)
Lemma path_query_short s p : length (p_frames p) <= 1 -> get_transform_path s p = (p, [], Ret (tf_of one)).
Proof.
  intros Hl. unfold PathModel.get_transform_path. unfold cbind at 1, cread at 1. cbn [path_size].
  unfold path_size. by rewrite (proj2 (Nat.leb_le _ _) Hl).
Qed.

Lemma path_query_long s p : 2 <= length (p_frames p) ->
  get_transform_path s p =
  match p_dirty p with
  | false => (p, [], path_product s (p_frames p))
  | true =>
      match obind (path_origin p) (fun o => obind (path_target p) (fun t => get_frames s o t)) with
      | Ret l => (PathV l (create_edges l) false (p_auto p), [],
                  if path_is_empty (PathV l (create_edges l) false (p_auto p)) then Throw XInvalidPath else path_product s l)
      | Throw x => (p, [], Throw x)
      | UB => (p, [], UB)
      | Fuel => (p, [], Fuel)
      end
  end.
Proof.
  intros Hl. unfold PathModel.get_transform_path. unfold cbind at 1, cread at 1.
  unfold path_size. rewrite (proj2 (Nat.leb_gt _ _)) by lia.
  destruct p as [l ed [] au]; cbn [p_dirty p_frames p_auto] in *.
  - unfold cbind, cread, cret, cmodify. cbn [p_dirty].
    destruct (path_origin _) as [o|x| |] eqn:Ho; cbn [obind]; [|done..].
    destruct (path_target _) as [t|x| |] eqn:Ht; cbn [obind]; [|done..].
    destruct (get_frames s o t) as [l'|x| |] eqn:Hf; [|done..].
    unfold set_frames, set_dirty. cbn [p_dirty p_frames p_auto p_edges].
    unfold path_is_empty, path_size. cbn [p_frames]. by destruct l'.
  - unfold cbind, cread, cret. cbn [p_dirty p_frames]. done.
Qed.

Lemma path_query_clean s p : reachable d0 einv s -> 2 <= length (p_frames p) -> p_dirty p = false ->
  chain (joined s) (p_frames p) ->
  exists x a b q, get_transform_path s p = (p, [], Ret x) /\ tf_tr x = route_tf s (p_frames p) /\
    p_frames p !! 0 = Some a /\ p_frames p !! 1 = Some b /\ get_edge_property s a b = Ret q /\ tf_time x = tf_time q.
Proof.
  intros Hwf%reachable_wf Hl Hd Hc. destruct (path_product_joined s _ Hwf Hc Hl) as (x & a & b & q & Hx & ?).
  exists x, a, b, q. split; [|done]. rewrite path_query_long by done. by rewrite Hd, Hx.
Qed.

Lemma path_query_dirty s p a b : reachable d0 einv s -> 2 <= length (p_frames p) -> p_dirty p = true ->
  head (p_frames p) = Some a -> last (p_frames p) = Some b ->
  (contains_frame s a = true -> contains_frame s b = true -> a <> b -> linked (joined s) a b ->
   exists p' x, get_transform_path s p = (p', [], Ret x) /\ p_dirty p' = false /\ p_auto p' = p_auto p /\
     shortest (joined s) a b (p_frames p') /\ get_frames s a b = Ret (p_frames p') /\
     (forall u v, (u, v) ∈ p_edges p' <-> consecutive (p_frames p') u v) /\
     tf_tr x = route_tf s (p_frames p')) /\
  (contains_frame s a = true -> contains_frame s b = true -> a = b \/ ~ linked (joined s) a b ->
   exists p', get_transform_path s p = (p', [], Throw XInvalidPath) /\ p_frames p' = [] /\ p_dirty p' = false) /\
  (contains_frame s a = false -> get_transform_path s p = (p, [], Throw (XUnknownFrame a))) /\
  (contains_frame s a = true -> contains_frame s b = false -> get_transform_path s p = (p, [], Throw (XUnknownFrame b))).
Proof.
  intros Hwf%reachable_wf Hl Hd Ho Ht. rewrite path_query_long, Hd by done.
  unfold path_origin, path_target. rewrite Ho, Ht. cbn [obind].
  destruct (get_frames_unknown einv s a b Hwf) as [Hua Hub].
  split; [|split; [|split]].
  - intros Ha Hb Hne Hlk. destruct (get_frames_empty einv s a b Hwf Ha Hb) as (l & Hg & Hnil). rewrite Hg.
    assert (Hl0 : l <> []) by (intros [?|?]%Hnil; done).
    destruct (get_frames_shortest einv s a b l Hwf Hg Hl0) as [Hs _].
    assert (Hl2 : 2 <= length l) by (eapply route_ends; [apply Hs|done]).
    destruct (path_product_joined s l Hwf) as (x & _ & _ & _ & Hx & Htr & _); [apply Hs|done|].
    exists (PathV l (create_edges l) false (p_auto p)), x. cbn [p_frames p_dirty p_auto p_edges].
    split; [|do 4 (split; [done|]); split; [|done]].
    + unfold path_is_empty, path_size. cbn [p_frames]. rewrite (proj2 (Nat.eqb_neq _ _)) by lia. by rewrite Hx.
    + intros u v. apply create_edges_spec.
  - intros Ha Hb Hn. destruct (get_frames_empty einv s a b Hwf Ha Hb) as (l & Hg & Hnil). rewrite Hg.
    apply Hnil in Hn as ->. eexists. split; [reflexivity|done].
  - intros Ha. by rewrite Hua.
  - intros Ha Hb. by rewrite Hub.
Qed.

(** *** C27: queries between unlinked frames *)
Lemma get_transform_total s a b : dg_wf (gs_dg s) ->
  (exists x, get_transform s a b = Ret x /\ linked (joined s) a b) \/ exists x, get_transform s a b = Throw x /\ x <> XInvalidPath.
Proof.
  intros Hwf. destruct (contains_frame s a) eqn:Ha.
  - destruct (contains_frame s b) eqn:Hb.
    + destruct (get_transform_cases one mul inv s a b Hwf Ha Hb)
        as [(_ & H) | [(_ & Hj & q & _ & H) | [(_ & _ & l & Hl & H) | (_ & _ & _ & H)]]].
      * right. eexists. split; [done|]. done.
      * left. eexists. split; [done|]. by apply linked_step.
      * left. eexists. split; [done|]. exists l. apply Hl.
      * right. eexists. split; [done|]. done.
    + right. exists (XUnknownFrame b). split; [|done]. rewrite (contains_frame_map einv) in Ha, Hb by done.
      apply bool_decide_eq_true in Ha as [u Hu]. apply bool_decide_eq_false in Hb.
      unfold TransformModel.get_transform. rewrite (get_vertex_some einv s a u) by done. cbn [obind].
      rewrite get_vertex_none by (by apply eq_None_not_Some). done.
  - right. exists (XUnknownFrame a). split; [|done]. rewrite (contains_frame_map einv) in Ha by done.
    apply bool_decide_eq_false in Ha. unfold TransformModel.get_transform.
    rewrite get_vertex_none by (by apply eq_None_not_Some). done.
Qed.

Lemma path_steps_total s l acc a b : dg_wf (gs_dg s) -> head l = Some a -> last l = Some b ->
  (exists x, path_steps s acc l = Ret x /\ linked (joined s) a b) \/ exists x, path_steps s acc l = Throw x /\ x <> XInvalidPath.
Proof.
  intros Hwf. revert acc a. induction l as [|x l IH]; intros acc a Hh Hl; [done|]. injection Hh as ->.
  destruct l as [|y l].
  { injection Hl as ->. left. eexists. split; [done|]. apply linked_refl. }
  rewrite last_cons_cons in Hl. cbn [PathModel.path_steps].
  destruct (get_transform_total s a y Hwf) as [(z & -> & Hz) | (z & -> & Hz)]; cbn [obind]; [|right; by eexists].
  edestruct (IH (Tf (tf_time acc) (mul (tf_tr acc) (tf_tr z))) y) as [(w & Hw & Hlk) | (w & Hw & ?)]; [done|done| |].
  - left. exists w. split; [exact Hw|]. by eapply linked_trans.
  - right. by exists w.
Qed.

Lemma path_product_total s l a b : dg_wf (gs_dg s) -> head l = Some a -> last l = Some b -> 2 <= length l ->
  (exists x, path_product s l = Ret x /\ linked (joined s) a b) \/ exists x, path_product s l = Throw x /\ x <> XInvalidPath.
Proof.
  intros Hwf Hh Hl H2. destruct l as [|x [|y l]]; cbn [length] in H2; [lia..|]. injection Hh as ->.
  rewrite last_cons_cons in Hl. unfold PathModel.path_product.
  destruct (get_transform_total s a y Hwf) as [(z & -> & Hz) | (z & -> & Hz)]; cbn [obind]; [|right; by eexists].
  destruct (path_steps_total s (y :: l) z y b Hwf eq_refl Hl) as [(w & Hw & Hlk) | (w & Hw & ?)].
  - left. exists w. split; [exact Hw|]. by eapply linked_trans.
  - right. by exists w.
Qed.

(* Every query of a path with two different ends: what it does to the path and when it gives a transform. *)
Lemma path_query_cases s p a b : dg_wf (gs_dg s) -> head (p_frames p) = Some a -> last (p_frames p) = Some b -> a <> b ->
  exists p' r, get_transform_path s p = (p', [], r) /\ p_auto p' = p_auto p /\
    ((p' = p /\ p_dirty p = false) \/
     (p' = p /\ p_dirty p = true /\ exists x, r = Throw (XUnknownFrame x)) \/
     (p_dirty p = true /\ p' = PathV [] ∅ false (p_auto p) /\ r = Throw XInvalidPath /\ ~ linked (joined s) a b) \/
     (p_dirty p = true /\ p' = PathV (p_frames p') (create_edges (p_frames p')) false (p_auto p) /\
      shortest (joined s) a b (p_frames p'))) /\
    ((exists x, r = Ret x /\ linked (joined s) a b) \/ exists x, r = Throw x /\ (x = XInvalidPath -> p_frames p' = [])).
Proof.
  intros Hwf Hh Hl Hne.
  assert (H2 : 2 <= length (p_frames p)).
  { destruct (p_frames p) as [|x [|y l]]; cbn in *; [done|congruence|lia]. }
  rewrite path_query_long by done. destruct (p_dirty p) eqn:Hd.
  - unfold path_origin, path_target. rewrite Hh, Hl. cbn [obind].
    destruct (get_frames_unknown einv s a b Hwf) as [Hua Hub].
    destruct (contains_frame s a) eqn:Ha; [|rewrite Hua by done; do 2 eexists; split; [done|]; split; [done|]; split; [right; left; eauto|right; by eexists]].
    destruct (contains_frame s b) eqn:Hb; [|rewrite Hub by done; do 2 eexists; split; [done|]; split; [done|]; split; [right; left; eauto|right; by eexists]].
    destruct (get_frames_empty einv s a b Hwf Ha Hb) as (l & Hg & Hnil). rewrite Hg.
    destruct (decide (l = [])) as [->|Hl0].
    + do 2 eexists. split; [done|]. split; [done|]. split; [|right; by eexists]. right; right; left.
      destruct (proj1 Hnil eq_refl); [done|]. done.
    + destruct (get_frames_shortest einv s a b l Hwf Hg Hl0) as [Hs _].
      do 2 eexists. split; [done|]. split; [done|]. split; [by do 3 right|].
      unfold path_is_empty, path_size. cbn [p_frames].
      rewrite (proj2 (Nat.eqb_neq _ _)) by (by destruct l).
      destruct Hs as [(? & ? & ?) _].
      destruct (path_product_total s l a b Hwf) as [?|(x & ? & ?)]; [done..| | |].
      * eapply route_ends; [|done]. by split_and!.
      * by left.
      * right. exists x. split; [done|]. done.
  - do 2 eexists. split; [done|]. split; [done|]. split; [by left|].
    destruct (path_product_total s (p_frames p) a b Hwf) as [?|(x & ? & ?)]; [done..|by left|].
    right. exists x. split; [done|]. done.
Qed.

(** *** Histories *)
Local Notation pstep := (pstep one mul inv d0).
Local Notation prun := (prun one mul inv d0).
Local Notation pst := (pst T D).
Local Notation pop := (pop T D).

Definition pop_ok (op : pop) : Prop := match op with PGraph _ op => op_noself op | PQuery => True end.

Lemma pstep_graph_inv ord op x x' ev r : reachable d0 einv (ps_g x) -> op_noself op -> pstep (PGraph ord op) x = (x', ev, r) -> defined r ->
  exists r', gstep d0 einv ord op (ps_g x) = (ps_g x', ev, r') /\ ok r' /\ reachable d0 einv (ps_g x') /\
    ps_p x' = foldl (fun p e => path_notify e p) (ps_p x) ev /\ r = obind r' (fun _ => Ret None).
Proof.
  intros Hre Hns Hs Hr. cbn in Hs. destruct (gstep d0 einv ord op (ps_g x)) as [[s' ev'] r'] eqn:Hg.
  injection Hs as <- <- <-. exists r'. assert (ok r') by by destruct r'. cbn [ps_g ps_p].
  do 2 (split; [done|]). split; [by eapply reachable_step|]. done.
Qed.

Lemma prun_cons op h x x' ev rs : prun (op :: h) x = (x', ev, rs) -> Forall defined rs ->
  exists x1 ev1 r ev2 rs2, pstep op x = (x1, ev1, r) /\ defined r /\ prun h x1 = (x', ev2, rs2) /\ Forall defined rs2 /\
    ev = ev1 ++ ev2 /\ rs = r :: rs2.
Proof.
  intros Hr Hd. cbn [PathModel.prun] in Hr. destruct (pstep op x) as [[x1 ev1] r] eqn:Hs.
  destruct r as [y|y| |].
  1,2: destruct (prun h x1) as [[x2 ev2] rs2] eqn:Hp; injection Hr as <- <- <-; apply list.Forall_cons in Hd as [Hd1 Hd2];
    do 5 eexists; split; [done|]; by rewrite Hp.
  1,2: injection Hr as <- <- <-; by apply list.Forall_cons in Hd as [[] _].
Qed.

(* What holds of an auto-updating path at any time; [ev] are the events so far. *)
Definition pinv (x : pst) (ev : list event) : Prop :=
  reachable d0 einv (ps_g x) /\ p_auto (ps_p x) = true /\ p_edges (ps_p x) = create_edges (p_frames (ps_p x)) /\
  (p_frames (ps_p x) = [] \/ exists a b, head (p_frames (ps_p x)) = Some a /\ last (p_frames (ps_p x)) = Some b /\ a <> b) /\
  (p_dirty (ps_p x) = false -> forall u v, consecutive (p_frames (ps_p x)) u v ->
     joined (ps_g x) u v \/ EvEdgeRemoved v u ∈ ev).

Lemma pinv_new s a b p : reachable d0 einv s -> get_path s a b true = Ret p -> pinv (PSt s p) [].
Proof.
  intros Hre Hp. pose proof (reachable_wf d0 einv s Hre) as Hwf. unfold get_path in Hp.
  destruct (get_frames s a b) as [l|x| |] eqn:Hg; [|done..]. injection Hp as <-. split; [done|].
  unfold path_new. cbn [ps_p ps_g p_auto p_edges p_frames p_dirty]. do 2 (split; [done|]).
  destruct (decide (l = [])) as [->|Hl0].
  { split; [by left|]. intros _ u v []%consecutive_nil. }
  destruct (get_frames_shortest einv s a b l Hwf Hg Hl0) as [[(Hh & Hl & Hc) _] _].
  split.
  - right. exists a, b. do 2 (split; [done|]). intros ->.
    assert (Hb : contains_frame s b = true).
    { destruct (contains_frame s b) eqn:Hb; [done|].
      destruct (get_frames_unknown einv s b b Hwf) as [H _]. rewrite H in Hg; done. }
    rewrite (contains_frame_map einv) in Hb by done. apply bool_decide_eq_true in Hb as [u Hu].
    destruct (get_frames_known einv s b b u u Hwf Hu Hu) as (H & _). rewrite H in Hg by done. by injection Hg as <-.
  - intros _ u v Huv. left. by apply (proj1 (chain_consecutive _ _) Hc).
Qed.

Lemma pinv_step op x ev x' ev1 r : pop_ok op -> pinv x ev -> pstep op x = (x', ev1, r) -> defined r -> pinv x' (ev ++ ev1).
Proof.
  intros Hns (Hre & Hau & Hed & Hend & Hinv) Hs Hr. destruct op as [ord op|].
  - destruct (pstep_graph_inv _ _ _ _ _ _ Hre Hns Hs Hr) as (r' & Hg & Hok & Hre' & Hp & _).
    destruct (notify_fixed ev1 (ps_p x)) as (Hf & He & Ha). rewrite <- Hp in Hf, He, Ha.
    split; [done|]. split; [congruence|]. split; [congruence|]. split; [by rewrite Hf|].
    intros Hd u v Huv. rewrite Hf in Huv.
    assert (Hnd : ~ (p_dirty (ps_p x) = true \/ exists e, e ∈ ev1 /\ hits (ps_p x) e)).
    { rewrite <- notify_dirty by done. rewrite <- Hp, Hd. done. }
    setoid_rewrite elem_of_app. destruct (Hinv ltac:(destruct (p_dirty (ps_p x)); [naive_solver|done]) u v Huv) as [Hj|?]; [|auto].
    destruct (gstep_edge d0 einv _ _ _ _ _ _ u v (reachable_wf d0 einv _ Hre) Hns Hg Hok Hj) as [?|[Hin|?]]; [auto| |auto].
    exfalso. apply Hnd. right. exists (EvEdgeRemoved u v). split; [done|]. cbn. rewrite Hed. by apply create_edges_spec.
  - cbn [PathModel.pstep] in Hs. destruct (get_transform_path (ps_g x) (ps_p x)) as [[p' ev'] r'] eqn:Hq. injection Hs as <- <- <-.
    rewrite app_nil_r. unfold pinv. cbn [ps_g ps_p].
    destruct Hend as [Hnil | (a & b & Hh & Hl & Hne)].
    { rewrite path_query_short in Hq by (rewrite Hnil; cbn; lia). injection Hq as <- <- <-. split_and!; auto. }
    destruct (path_query_cases (ps_g x) (ps_p x) a b (reachable_wf d0 einv _ Hre) Hh Hl Hne) as (p2 & r2 & Hq2 & Ha2 & Hcase & _).
    rewrite Hq in Hq2. injection Hq2 as -> -> ->. split; [done|]. split; [congruence|].
    destruct Hcase as [[-> _] | [[-> _] | [(_ & -> & _) | (_ & -> & Hs)]]]; cbn [p_frames p_edges p_dirty].
    + split; [done|]. split; [right; eauto|done].
    + split; [done|]. split; [right; eauto|done].
    + split; [done|]. split; [by left|]. intros _ u v []%consecutive_nil.
    + split; [done|]. destruct Hs as [(? & ? & Hc) _]. split; [right; eauto|].
      intros _ u v Huv. left. by apply (proj1 (chain_consecutive _ _) Hc).
Qed.

Lemma pinv_run h x ev x' ev1 rs : phist_ok h -> pinv x ev -> prun h x = (x', ev1, rs) -> Forall defined rs -> pinv x' (ev ++ ev1).
Proof.
  revert x ev ev1 rs. induction h as [|op h IH]; intros x ev ev1 rs Hok Hinv Hr Hd.
  { injection Hr as <- <- <-. by rewrite app_nil_r. }
  apply list.Forall_cons in Hok as [Hop Hok].
  destruct (prun_cons _ _ _ _ _ _ Hr Hd) as (x1 & e1 & r & e2 & rs2 & Hs & Hdr & Hr2 & Hd2 & -> & ->).
  rewrite app_assoc. eapply IH; [done| |done|done]. by eapply pinv_step.
Qed.

(** C25 *)
Lemma clean_path_partial s a b p h x' ev rs : reachable d0 einv s -> get_path s a b true = Ret p -> phist_ok h ->
  prun h (PSt s p) = (x', ev, rs) -> Forall defined rs -> p_dirty (ps_p x') = false ->
  forall u v, consecutive (p_frames (ps_p x')) u v -> joined (ps_g x') u v \/ EvEdgeRemoved v u ∈ ev.
Proof.
  intros Hre Hp Hok Hr Hd Hc u v Huv.
  destruct (pinv_run h _ [] _ _ _ Hok (pinv_new s a b p Hre Hp) Hr Hd) as (_ & _ & _ & _ & H). auto.
Qed.

(* Without queries: dirty exactly if an edge of the path was removed in the direction of the path. *)
Lemma graph_run h x x' ev rs : Forall (fun op => op <> PQuery) h -> prun h x = (x', ev, rs) -> Forall defined rs ->
  ps_p x' = foldl (fun p e => path_notify e p) (ps_p x) ev.
Proof.
  revert x ev rs. induction h as [|op h IH]; intros x ev rs Hq Hr Hd.
  { by injection Hr as <- <- <-. }
  apply list.Forall_cons in Hq as [Hop Hq].
  destruct (prun_cons _ _ _ _ _ _ Hr Hd) as (x1 & e1 & r & e2 & rs2 & Hs & _ & Hr2 & Hd2 & -> & ->).
  rewrite foldl_app. rewrite (IH _ _ _ Hq Hr2 Hd2). f_equal. destruct op as [ord op|]; [|done].
  cbn in Hs. destruct (gstep d0 einv ord op (ps_g x)) as [[s' ev'] r']. by injection Hs as <- <- <-.
Qed.

Lemma dirty_exactly s a b p h x' ev rs : get_path s a b true = Ret p ->
  Forall (fun op => op <> PQuery) h -> prun h (PSt s p) = (x', ev, rs) -> Forall defined rs ->
  p_frames (ps_p x') = p_frames p /\
  (p_dirty (ps_p x') = true <-> exists u v, consecutive (p_frames p) u v /\ EvEdgeRemoved u v ∈ ev).
Proof.
  intros Hp Hq Hr Hd. rewrite (graph_run _ _ _ _ _ Hq Hr Hd). cbn [ps_p].
  unfold get_path in Hp. destruct (get_frames s a b) as [l|x| |] eqn:Hg; [|done..]. injection Hp as <-.
  destruct (notify_fixed ev (path_new true l)) as (-> & _ & _). split; [done|].
  rewrite notify_dirty by done. unfold path_new. cbn [p_dirty p_frames]. split.
  - intros [? | (e & He & Hh)]; [done|]. destruct e; cbn in Hh; try done.
    eexists _, _. split; [|done]. by apply create_edges_spec.
  - intros (u & v & Huv & Hin). right. exists (EvEdgeRemoved u v). split; [done|]. cbn. by apply create_edges_spec.
Qed.

(* Removing an edge of the path by naming its frames in the other order is not noticed. *)
Lemma reversed_removal s a b p u v ord s' ev r : reachable d0 einv s -> gs_subs s = [] -> get_path s a b true = Ret p ->
  consecutive (p_frames p) u v -> gstep d0 einv ord (ORemoveEdge v u) s = (s', ev, r) ->
  r = Ret tt /\ pstep (PGraph ord (ORemoveEdge v u)) (PSt s p) = (PSt s' p, ev, Ret None) /\
  p_dirty p = false /\ ~ joined s' u v.
Proof.
  intros Hre Hsub Hp Huv Hg. pose proof (reachable_wf d0 einv s Hre) as Hwf.
  assert (Hl0 : p_frames p <> []) by (intros H; rewrite H in Huv; by apply consecutive_nil in Huv).
  destruct (get_path_route d0 einv s a b true p Hre Hp Hl0) as ([(Hh & Hl & Hc) _] & Hnd & Hne).
  assert (Hj : joined s v u) by (apply (joined_sym einv); [done|]; by apply (proj1 (chain_consecutive _ _) Hc)).
  apply (joined_vnext einv) in Hj as (o & t & Ho & Ht & Hv); [|done].
  assert (exists e1, bg_edge (gs_dg s) o t = Some e1) as [e1 He1] by by apply (vnext_edge einv) in Hv.
  assert (exists e2, bg_edge (gs_dg s) t o = Some e2) as [e2 He2].
  { apply (vnext_sym einv) in Hv; [|done]. by apply (vnext_edge einv) in Hv. }
  destruct (remove_edge_v_run einv ord v u o t e1 e2 s Hwf Ho Ht He1 He2) as (s1 & r1 & _ & Hrm & _ & Hdg & _ & _ & Hnil).
  destruct (Hnil Hsub) as [-> _]. cbn [gstep] in Hg. rewrite Hrm in Hg. injection Hg as <- <- <-.
  split; [done|]. 
  assert (Hpd : p_dirty p = false /\ p_auto p = true /\ p_edges p = create_edges (p_frames p)).
  { unfold get_path in Hp. destruct (get_frames s a b) as [l|x| |]; [|done..]. by injection Hp as <-. }
  destruct Hpd as (Hpd & Hpa & Hpe). split; [|split; [done|]].
  - cbn [PathModel.pstep ps_g ps_p gstep]. rewrite Hrm. cbn [obind foldl]. unfold path_notify. rewrite Hpa. unfold path_edge_removed. rewrite Hpd, Hpe.
    rewrite bool_decide_eq_false_2; [done|]. rewrite create_edges_spec. by apply consecutive_flip.
  - destruct (store_exists einv s Hwf) as [st Hst]. apply (observes_dgrepr einv) in Hst; [|done].
    assert (Hwf' : dg_wf (gs_dg s1)).
    { rewrite Hdg. eapply lstep_wf; [done|]. by eapply (LRemPair einv _ o t _ _ v u). }
    rewrite (joined_store einv s1 (Store (st_frames st) (delete (v, u) (delete (u, v) (st_edges st))))).
    + cbn [st_edges]. rewrite lookup_delete_ne by (intros [= Heq _]; subst; by eapply consecutive_flip).
      rewrite lookup_delete. by intros [? ?].
    + done.
    + rewrite Hdg. by eapply (dgrepr_rem2 einv _ _ o t).
Qed.

(* Disconnecting the last frame of the path is not noticed. *)
Lemma target_disconnected s a b p ord s' ev r : reachable d0 einv s -> gs_subs s = [] -> get_path s a b true = Ret p ->
  p_frames p <> [] -> gstep d0 einv ord (ODisconnect b) s = (s', ev, r) ->
  r = Ret tt /\ pstep (PGraph ord (ODisconnect b)) (PSt s p) = (PSt s' p, ev, Ret None) /\
  p_dirty p = false /\ exists u, consecutive (p_frames p) u b /\ ~ joined s' u b.
Proof.
  intros Hre Hsub Hp Hl0 Hg.
  destruct (get_path_route d0 einv s a b true p Hre Hp Hl0) as ([(Hh & Hl & Hc) Hmin] & Hnd & Hne).
  assert (H2 : 2 <= length (p_frames p)) by (eapply route_ends; [by split_and!|done]).
  destruct (last_two _ b H2 Hl) as [u Hu].
  assert (Hj : joined s u b) by by apply (proj1 (chain_consecutive _ _) Hc).
  destruct (joined_known s u b Hj) as [_ Hb].
  destruct (disconnect_thm d0 einv ord b s s' ev r Hre Hb Hg) as [Hret Hrest].
  specialize (Hret Hsub). destruct (Hrest Hret) as (He & _ & _ & _ & ns & _ & _ & ->). subst r. split; [done|].
  assert (Hpd : p_dirty p = false /\ p_auto p = true /\ p_edges p = create_edges (p_frames p)).
  { unfold get_path in Hp. destruct (get_frames s a b) as [l|x| |]; [|done..]. by injection Hp as <-. }
  destruct Hpd as (Hpd & Hpa & Hpe). split; [|split; [done|]].
  - unfold PathModel.pstep. cbn [ps_g ps_p]. rewrite Hg. cbn [obind]. f_equal. f_equal. f_equal.
    assert (Hn : forall ns, foldl (fun p e => path_notify e p) p (EvEdgeRemoved b <$> ns) = p).
    { induction ns0 as [|n ns0 IH]; [done|]. cbn. unfold path_notify at 2. rewrite Hpa. unfold path_edge_removed.
      rewrite Hpd, Hpe, bool_decide_eq_false_2; [done|]. rewrite create_edges_spec. by apply last_not_first. }
    apply Hn.
  - exists u. split; [done|]. intros Hj'. apply He in Hj' as (_ & _ & ?). done.
Qed.

(** C27 *)
Lemma ends_kept h x ev x' ev1 rs a b : phist_ok h -> pinv x ev ->
  head (p_frames (ps_p x)) = Some a -> last (p_frames (ps_p x)) = Some b -> a <> b ->
  prun h x = (x', ev1, rs) -> Forall defined rs -> Forall (fun r => r <> Throw XInvalidPath) rs \/ p_frames (ps_p x') <> [] ->
  (Forall (fun r => r <> Throw XInvalidPath) rs -> head (p_frames (ps_p x')) = Some a /\ last (p_frames (ps_p x')) = Some b).
Proof.
  intros Hok Hinv Hh Hl Hne Hr Hd _. revert x ev ev1 rs Hok Hinv Hh Hl Hr Hd.
  induction h as [|op h IH]; intros x ev ev1 rs Hok Hinv Hh Hl Hr Hd Hx.
  { by injection Hr as <- <- <-. }
  apply list.Forall_cons in Hok as [Hop Hok].
  destruct (prun_cons _ _ _ _ _ _ Hr Hd) as (x1 & e1 & r & e2 & rs2 & Hs & Hdr & Hr2 & Hd2 & -> & ->).
  apply list.Forall_cons in Hx as [Hx1 Hx2].
  pose proof (pinv_step _ _ _ _ _ _ Hop Hinv Hs Hdr) as Hinv1.
  assert (Hends : head (p_frames (ps_p x1)) = Some a /\ last (p_frames (ps_p x1)) = Some b).
  { destruct Hinv as (Hre & _). destruct op as [ord op|].
    - destruct (pstep_graph_inv _ _ _ _ _ _ Hre Hop Hs Hdr) as (r' & _ & _ & _ & Hp & _).
      destruct (notify_fixed e1 (ps_p x)) as (Hf & _). rewrite Hp, Hf. done.
    - cbn [PathModel.pstep] in Hs. destruct (get_transform_path (ps_g x) (ps_p x)) as [[p' ev'] r'] eqn:Hq. injection Hs as <- <- <-.
      destruct (path_query_cases (ps_g x) (ps_p x) a b (reachable_wf d0 einv _ Hre) Hh Hl Hne) as (p2 & r2 & Hq2 & Ha2 & Hcase & _).
      rewrite Hq in Hq2. injection Hq2 as -> -> ->. cbn [ps_p].
      destruct Hcase as [[-> _] | [[-> _] | [(_ & -> & -> & _) | (_ & -> & Hs)]]]; [done|done|done|].
      cbn [p_frames]. destruct Hs as [(? & ? & _) _]. done. }
  destruct Hends. by eapply IH.
Qed.

Lemma broken_path_partial s a b p h x' ev rs : reachable d0 einv s -> get_path s a b true = Ret p -> p_frames p <> [] ->
  phist_ok h -> prun h (PSt s p) = (x', ev, rs) -> Forall defined rs -> Forall (fun r => r <> Throw XInvalidPath) rs ->
  ~ linked (joined (ps_g x')) a b ->
  exists p' e, get_transform_path (ps_g x') (ps_p x') = (p', [], Throw e).
Proof.
  intros Hre Hp Hl0 Hok Hr Hd Hx Hnl. pose proof (pinv_new s a b p Hre Hp) as Hinv.
  destruct (get_path_route d0 einv s a b true p Hre Hp Hl0) as ([(Hh & Hl & _) _] & _ & Hne).
  destruct (ends_kept h _ [] _ _ _ a b Hok Hinv Hh Hl Hne Hr Hd (or_introl Hx) Hx) as [Hh' Hl'].
  destruct (pinv_run h _ [] _ _ _ Hok Hinv Hr Hd) as (Hre' & _).
  destruct (path_query_cases (ps_g x') (ps_p x') a b (reachable_wf d0 einv _ Hre') Hh' Hl' Hne)
    as (p2 & r2 & -> & _ & _ & [(y & _ & ?) | (e & -> & _)]); [done|]. eauto.
Qed.

(* A path without frames keeps none, and every query of it gives identity. *)
Lemma empty_stays h x x' ev rs : p_frames (ps_p x) = [] -> prun h x = (x', ev, rs) ->
  p_frames (ps_p x') = [].
Proof.
  revert x ev rs. induction h as [|op h IH]; intros x ev rs Hnil Hr.
  { by injection Hr as <- <- <-. }
  cbn [PathModel.prun] in Hr. destruct (pstep op x) as [[x1 ev1] r] eqn:Hs.
  assert (Hx1 : p_frames (ps_p x1) = []).
  { destruct op as [ord op|]; cbn [PathModel.pstep] in Hs.
    - destruct (gstep d0 einv ord op (ps_g x)) as [[s' ev'] r'] eqn:Hg. injection Hs as <- <- <-. cbn.
      by destruct (notify_fixed ev' (ps_p x)) as (-> & _).
    - rewrite path_query_short in Hs by (rewrite Hnil; cbn; lia). by injection Hs as <- <- <-. }
  destruct r as [y|y| |]; try by injection Hr as <- <- <-.
  all: destruct (prun h x1) as [[x2 ev2] rs2] eqn:Hp; injection Hr as <- <- <-; by eapply IH.
Qed.

Lemma broken_path_identity s p a b h x' ev rs : reachable d0 einv s ->
  p_dirty p = true -> head (p_frames p) = Some a -> last (p_frames p) = Some b ->
  contains_frame s a = true -> contains_frame s b = true -> a <> b -> ~ linked (joined s) a b ->
  prun (PQuery :: h) (PSt s p) = (x', ev, rs) ->
  head rs = Some (Throw XInvalidPath) /\ snd (get_transform_path (ps_g x') (ps_p x')) = Ret (tf_of one).
Proof.
  intros Hre Hd Hh Hl Ha Hb Hne Hnl Hr.
  assert (H2 : 2 <= length (p_frames p)).
  { destruct (p_frames p) as [|x [|y l]]; cbn in *; [done|congruence|lia]. }
  destruct (path_query_dirty s p a b Hre H2 Hd Hh Hl) as (_ & H & _).
  destruct (H Ha Hb (or_intror Hnl)) as (p' & Hq & Hnil & _).
  cbn [PathModel.prun PathModel.pstep ps_g ps_p] in Hr. rewrite Hq in Hr. cbn [obind] in Hr.
  destruct (prun h (PSt s p')) as [[x2 ev2] rs2] eqn:Hp. injection Hr as <- <- <-. split; [done|].
  rewrite path_query_short; [done|]. rewrite (empty_stays _ (PSt s p') _ _ _ Hnil Hp). cbn; lia.
Qed.

(** C70: paths that are not updated *)
Lemma fixed_path s a b p h x' ev rs : get_path s a b false = Ret p -> prun h (PSt s p) = (x', ev, rs) -> ps_p x' = p.
Proof.
  intros Hp. assert (Hpd : p_dirty p = false /\ p_auto p = false).
  { unfold get_path in Hp. destruct (get_frames s a b) as [l|x| |]; [|done..]. by injection Hp as <-. }
  clear Hp. destruct Hpd as [Hd Ha]. revert s x' ev rs.
  induction h as [|op h IH]; intros s x' ev rs Hr.
  { by injection Hr as <- <- <-. }
  cbn [PathModel.prun] in Hr. destruct (pstep op (PSt s p)) as [[x1 ev1] r] eqn:Hs.
  assert (Hx1 : ps_p x1 = p).
  { destruct op as [ord op|]; cbn [PathModel.pstep] in Hs.
    - cbn [ps_g ps_p] in Hs. destruct (gstep d0 einv ord op s) as [[s' ev'] r'] eqn:Hg. injection Hs as <- <- <-. cbn. by apply notify_manual.
    - cbn [ps_g ps_p] in Hs. destruct (get_transform_path s p) as [[p' ev'] r'] eqn:Hq. injection Hs as <- <- <-. cbn [ps_p].
      destruct (le_lt_dec (length (p_frames p)) 1) as [Hl|Hl].
      + rewrite path_query_short in Hq by done. by injection Hq as <- <- <-.
      + rewrite path_query_long, Hd in Hq by done. by injection Hq as <- <- <-. }
  destruct x1 as [s1 p1]. cbn in Hx1. subst p1.
  destruct r as [y|y| |]; try by injection Hr as <- <- <-.
  all: destruct (prun h (PSt s1 p)) as [[x2 ev2] rs2] eqn:Hp; injection Hr as <- <- <-; by eapply IH.
Qed.

End transform.
