(** Graphs that are never assigned to each other do not share anything. *)
From stdpp Require Import prelude strings gmap.
From Verif Require Import ListLib Outcome Digraph GraphModel GraphCopy AssignModel SpecAssign AssignThms.

Section apart.
Context {D E : Type} (d0 : D) (einv : E -> E) (c : agid).
Local Notation aworld := (aworld D E).
Local Notation vr := (agid * vrec D)%type.
Local Notation er := (agid * erec E)%type.
Implicit Types w : aworld.

Definition part w := ((fun o => (go_map o, go_nv o, go_ne o)) <$> aw_objs w !! c, aw_own_verts w c, aw_own_edges w c).

Lemma part_split w w' : (fun o => (go_map o, go_nv o, go_ne o)) <$> aw_objs w !! c = (fun o => (go_map o, go_nv o, go_ne o)) <$> aw_objs w' !! c ->
  filter (fun r => fst r = c) (aw_verts w) = filter (fun r => fst r = c) (aw_verts w') ->
  filter (fun r => fst r = c) (aw_edges w) = filter (fun r => fst r = c) (aw_edges w') -> part w = part w'.
Proof. unfold part, aw_own_verts, aw_own_edges. by intros -> -> ->. Qed.

Definition leaves {A} (m : call aworld A) : Prop := forall w, awf w -> part (fst (fst (m w))) = part w.

Lemma leaves_bind {A B} (m : call aworld A) (k : A -> call aworld B) : keeps m -> leaves m -> (forall x, leaves (k x)) -> leaves (cbind m k).
Proof.
  intros Hkm Hm Hk w Hw. unfold cbind. specialize (Hm w Hw). specialize (Hkm w Hw). destruct (m w) as [[w1 e1] [x| | |]]; try done.
  specialize (Hk x w1 Hkm). destruct (k x w1) as [[? ?] ?]. cbn in *. congruence.
Qed.
Lemma leaves_at {A B} (m : call aworld A) (k : A -> call aworld B) w : part (fst (fst (m w))) = part w ->
  (forall w1 e x, m w = (w1, e, Ret x) -> part (fst (fst (k x w1))) = part w1) -> part (fst (fst (cbind m k w))) = part w.
Proof.
  intros Hm Hk. unfold cbind. destruct (m w) as [[w1 e1] [x| | |]] eqn:Hmw; try done.
  specialize (Hk w1 e1 x eq_refl). destruct (k x w1) as [[? ?] ?]. cbn in *. congruence.
Qed.
Lemma leaves_read {A} (f : aworld -> outcome A) : leaves (cread f).
Proof. by intros w Hw. Qed.
Lemma leaves_ret {A} (x : A) : leaves (cret x).
Proof. by intros w Hw. Qed.
Local Ltac kr := first [apply keeps_read | apply keeps_ret].
Local Ltac lr := first [apply leaves_read | apply leaves_ret].

Lemma part_tell e l w : part (fst (fst (aw_tell e l w))) = part w.
Proof. revert w. induction l as [|s l IH]; intros w; [done|]. cbn. destruct (aw_pubs w !! s); [|done]. by rewrite IH. Qed.
Lemma part_notify a e w : part (fst (fst (aw_notify a e w))) = part w.
Proof. unfold aw_notify. apply leaves_at; [done|]. intros w1 e1 o _. apply part_tell. Qed.
Lemma leaves_notify a e : leaves (aw_notify a e).
Proof. intros w _. apply part_notify. Qed.

Lemma leaves_add_vertex a f d : a <> c -> leaves (aw_add_vertex a f d).
Proof.
  intros Hac w Hw. unfold aw_add_vertex. apply leaves_at; [done|]. intros w1 e1 o Hob. apply leaves_at.
  - destruct (go_map o !! f) as [v|]; [done|]. apply part_split; cbn; [by rewrite lookup_insert_ne| |done].
    rewrite filter_app, filter_cons_False by (by cbn). by rewrite app_nil_r.
  - intros w2 e2 v _. apply leaves_at; [apply part_notify|]. done.
Qed.

Lemma leaves_emplace a f d : a <> c -> leaves (aw_emplace a f d).
Proof.
  intros Hac. apply leaves_bind; [kr|lr|]. intros o. destruct (go_map o !! f); [lr|]. apply leaves_bind; [apply keeps_add_vertex|by apply leaves_add_vertex|]. intros _. lr.
Qed.

Lemma filter_fmap_same {A} (g : A -> A) (P : A -> Prop) `{forall x, Decision (P x)} (l : list A) :
  (forall x, x ∈ l -> P (g x) <-> P x) -> (forall x, x ∈ l -> P x -> g x = x) -> filter P (g <$> l) = filter P l.
Proof.
  induction l as [|x l IH]; intros H1 H2; [done|]. cbn [fmap list_fmap]. rewrite !filter_cons. fold (fmap g l).
  assert (Hl : filter P (g <$> l) = filter P l) by (apply IH; intros y Hy; [apply H1|apply H2]; by right).
  rewrite Hl. destruct (decide (P x)) as [Hx|Hx].
  - rewrite decide_True by (apply H1; [by left|done]). f_equal. apply H2; [by left|done].
  - rewrite decide_False; [done|]. intros Hg. apply Hx, H1; [by left|done].
Qed.
Lemma filter_filter_same {A} (Q P : A -> Prop) `{forall x, Decision (P x)} `{forall x, Decision (Q x)} (l : list A) :
  (forall x, x ∈ l -> P x -> Q x) -> filter P (filter Q l) = filter P l.
Proof.
  induction l as [|x l IH]; intros Hpq; [done|]. rewrite !filter_cons. assert (Hl : filter P (filter Q l) = filter P l) by (apply IH; intros y Hy; apply Hpq; by right).
  destruct (decide (Q x)) as [Hq|Hq].
  - rewrite filter_cons, Hl. done.
  - rewrite Hl. rewrite decide_False; [done|]. intros Hp. apply Hq, Hpq; [by left|done].
Qed.

Lemma get_vertex_own w a f v : awf w -> aw_get_vertex w a f = Ret v -> exists r, (a, r) ∈ aw_verts w /\ v_id r = v.
Proof.
  intros Hw. unfold aw_get_vertex. destruct (aw_objs w !! a) as [o|] eqn:Ho; [|done]. destruct (go_map o !! f) as [v'|] eqn:Hf; [|done].
  intros [= <-]. apply (aw_map w Hw a o f v' Ho) in Hf as (r & ? & ? & _). eauto.
Qed.

Lemma leaves_set_data a f d : a <> c -> leaves (aw_set_data a f d).
Proof.
  intros Hac w Hw. unfold aw_set_data. apply leaves_at; [done|]. intros w1 e1 v Hgv. injection Hgv as <- _ Hgv. apply leaves_at; [done|].
  intros w2 e2 [] Hc. injection Hc as <- _ _. destruct (get_vertex_own w a f v Hw Hgv) as (r & Hr & Hv). cbn.
  apply part_split; try done. cbn [aw_verts aw_set_verts]. apply filter_fmap_same.
  - intros x Hx. by destruct (Nat.eqb _ _).
  - intros x Hx Hxc. destruct (Nat.eqb (v_id (snd x)) v) eqn:Heq; [|done]. exfalso. apply Nat.eqb_eq in Heq. apply Hac.
    assert (x = (a, r)) as ->; [|done]. apply (vid_inj w); try done. unfold vidof. cbn. congruence.
Qed.

Lemma leaves_boost_add a u v p : a <> c -> leaves (aw_boost_add a u v p).
Proof.
  intros Hac w Hw. unfold aw_boost_add. destruct (_ && _); [|done]. destruct (aw_objs w !! a); [|done]. apply part_split; cbn; [by rewrite lookup_insert_ne|done|].
  rewrite filter_app, filter_cons_False by (by cbn). by rewrite app_nil_r.
Qed.

Lemma leaves_add_edge a o t p : a <> c -> leaves (aw_add_edge d0 einv a o t p).
Proof.
  intros Hac. apply leaves_bind; [kr|lr|]. intros g.
  apply leaves_bind; [destruct (go_map g !! o); [kr|apply keeps_add_vertex]|destruct (go_map g !! o); [lr|by apply leaves_add_vertex]|]. intros vo.
  apply leaves_bind; [destruct (go_map g !! t); [kr|apply keeps_add_vertex]|destruct (go_map g !! t); [lr|by apply leaves_add_vertex]|]. intros vt.
  apply leaves_bind; [kr|lr|]. intros [e|].
  - apply leaves_bind; [kr|lr|]. intros fo. apply leaves_bind; [kr|lr|]. intros ft. lr.
  - apply leaves_bind; [apply keeps_boost_add|by apply leaves_boost_add|]. intros i. apply leaves_bind; [apply keeps_boost_add|by apply leaves_boost_add|]. intros _.
    apply leaves_bind; [kr|lr|]. intros fo. apply leaves_bind; [kr|lr|]. intros ft. apply leaves_notify.
Qed.

Lemma eid_inj w r q : awf w -> r ∈ aw_edges w -> q ∈ aw_edges w -> eidof r = eidof q -> r = q.
Proof.
  intros Hw Hr Hq Heq. pose proof (aw_end w Hw) as Hnd. apply elem_of_list_lookup in Hr as [i Hi], Hq as [j Hj].
  assert (i = j) as ->; [|congruence]. eapply NoDup_lookup; [exact Hnd|..]; rewrite list_lookup_fmap; [by rewrite Hi|]. rewrite Hj. cbn. by f_equal.
Qed.

Lemma find_edge_own w a r t x e : awf w -> (a, r) ∈ aw_verts w -> aw_find_edge w (v_id r) t = Ret (Some (x, e)) -> x = a /\ (x, e) ∈ aw_edges w.
Proof.
  intros Hw Hr. unfold aw_find_edge. destruct (aw_vrec w _); [|done]. intros [= Hf]. apply find_some in Hf as [Hin [Hs%Nat.eqb_eq _]%andb_true_iff].
  apply elem_of_list_In in Hin. split; [|done]. destruct (aw_own w Hw x e Hin) as ((q & Hq & Hqs) & _).
  assert (Heq : (x, q) = (a, r)) by (apply (vid_inj w); try done; unfold vidof; cbn in *; congruence). congruence.
Qed.

Lemma part_set_edge w a e p : awf w -> a <> c -> (a, e) ∈ aw_edges w -> part (aw_set_edge (e_id e) p w) = part w.
Proof.
  intros Hw Hac He. apply part_split; try done. cbn [aw_edges aw_set_edge aw_set_edges]. apply filter_fmap_same.
  - intros x Hx. by destruct (Nat.eqb _ _).
  - intros x Hx Hxc. destruct (Nat.eqb (e_id (snd x)) (e_id e)) eqn:Heq; [|done]. exfalso. apply Nat.eqb_eq in Heq. apply Hac.
    assert (x = (a, e)) as ->; [|done]. by apply (eid_inj w).
Qed.

Lemma leaves_set_prop a o t p : a <> c -> leaves (aw_set_prop einv a o t p).
Proof.
  intros Hac w Hw. unfold aw_set_prop. apply leaves_at; [done|]. intros w1 e1 vo Hgo. injection Hgo as <- _ Hgo.
  apply leaves_at; [done|]. intros w2 e2 vt Hgt. injection Hgt as <- _ Hgt. apply leaves_at; [done|]. intros w3 e3 oe Hoe. injection Hoe as <- _ Hoe.
  destruct oe as [[x1 f1]|].
  - destruct (get_vertex_own w a o vo Hw Hgo) as (r & Hr & Hv). destruct (get_vertex_own w a t vt Hw Hgt) as (q & Hq & Hqv).
    rewrite <- Hv in Hoe. apply (find_edge_own w a r) in Hoe as [-> Hin1]; [|done|done].
    apply leaves_at; [by eapply part_set_edge|]. intros w4 e4 [] H4. injection H4 as <- _.
    pose proof (keeps_set_edge f1.(e_id) p w Hw) as Hw4. cbn in Hw4.
    apply leaves_at; [done|]. intros w5 e5 oe2 Hoe2. injection Hoe2 as <- _ Hoe2. destruct oe2 as [[x2 f2]|]; [|done].
    rewrite <- Hqv in Hoe2. apply (find_edge_own _ a q) in Hoe2 as [-> Hin2]; [|done|done].
    apply leaves_at; [by eapply part_set_edge|]. intros w6 e6 [] H6. injection H6 as <- _.
    pose proof (keeps_set_edge f2.(e_id) (einv p) _ Hw4) as Hw6. cbn in Hw6. revert Hw6. generalize (aw_set_edge (e_id f2) (einv p) (aw_set_edge (e_id f1) p w)).
    match goal with |- forall w0, awf w0 -> part (fst (fst (?m w0))) = part w0 => change (leaves m) end.
    apply leaves_bind; [kr|lr|]. intros fo. apply leaves_bind; [kr|lr|]. intros ft. apply leaves_notify.
  - revert Hw. clear. revert w. match goal with |- forall w0, awf w0 -> part (fst (fst (?m w0))) = part w0 => change (leaves m) end.
    apply leaves_bind; [kr|lr|]. intros fo. apply leaves_bind; [kr|lr|]. intros ft. lr.
Qed.

Lemma leaves_boost_remove a i : a <> c -> leaves (aw_boost_remove a i).
Proof.
  intros Hac w Hw. unfold aw_boost_remove. destruct (existsb _ _) eqn:Hex; [|done]. destruct (aw_objs w !! a); [|done].
  apply existsb_exists in Hex as (e & He & Hid%Nat.eqb_eq). apply elem_of_list_In, elem_own_edges in He.
  apply part_split; cbn; [by rewrite lookup_insert_ne|done|]. apply filter_filter_same. intros x Hx Hxc Hxi. apply Hac.
  assert (x = (a, e)) as ->; [|done]. apply (eid_inj w); try done. unfold eidof. cbn in *. congruence.
Qed.

Lemma leaves_remove_edge a o t : a <> c -> leaves (aw_remove_edge a o t).
Proof.
  intros Hac. do 4 (apply leaves_bind; [kr|lr|]; intros ?). destruct x1 as [e1|], x2 as [e2|]; try lr.
  apply leaves_bind; [apply keeps_boost_remove|by apply leaves_boost_remove|]. intros _. apply leaves_bind; [apply keeps_notify|apply leaves_notify|].
  intros _. by apply leaves_boost_remove.
Qed.

Lemma leaves_remove_frame a f : a <> c -> leaves (aw_remove_frame a f).
Proof.
  intros Hac w Hw. unfold aw_remove_frame. apply leaves_at; [done|]. intros w1 e1 v Hgv. injection Hgv as <- _ Hgv.
  apply leaves_at; [done|]. intros w2 e2 [] Hc2. injection Hc2 as <- _ _. apply leaves_at; [by destruct (aw_owns w a v)|]. intros w3 e3 [] Hc3.
  destruct (aw_owns w a v) eqn:Hown; [|done]. injection Hc3 as <- _. apply leaves_at; [done|]. intros w4 e4 o' Hc4.
  injection Hc4 as <- _ Hc4. apply leaves_at.
  - apply owns_true in Hown as (r & Hr & Hv). apply part_split; cbn; [by rewrite lookup_insert_ne| |done].
    apply filter_filter_same. intros x Hx Hxc Hxi. apply Hac. assert (x = (a, r)) as ->; [|done]. apply (vid_inj w); try done. unfold vidof. cbn in *. congruence.
  - intros w5 e5 [] _. apply part_notify.
Qed.

Lemma leaves_unsubscribe s : leaves (aw_unsubscribe s).
Proof.
  intros w Hw. unfold aw_unsubscribe. destruct (aw_pubs w !! s) as [[a|]|]; try done. destruct (aw_objs w !! a) as [o|] eqn:Ho; [|done].
  apply part_split; try done. cbn. destruct (decide (a = c)) as [->|]; [by rewrite lookup_insert, Ho|by rewrite lookup_insert_ne].
Qed.
Lemma leaves_subscribe s a : leaves (aw_subscribe s a).
Proof.
  assert (Hk : leaves (o <-- aw_obj a ;; cmodify (fun w : aworld => aw_set_pub s (Some a) (aw_set_obj a (GObj (go_map o) (go_maxvi o) (go_nv o) (go_ne o) (go_recv o ++ [s])) w)))).
  { intros w Hw. unfold cbind, aw_obj, cread, cmodify. destruct (aw_objs w !! a) as [o|] eqn:Ho; [|done].
    apply part_split; try done. cbn. destruct (decide (a = c)) as [->|]; [by rewrite lookup_insert, Ho|by rewrite lookup_insert_ne]. }
  intros w Hw. unfold aw_subscribe. destruct (aw_pubs w !! s).
  - by apply (leaves_bind (aw_unsubscribe s) (fun _ => _) (keeps_unsubscribe s) (leaves_unsubscribe s) (fun _ => Hk)).
  - by apply (leaves_bind (cret tt) (fun _ => _) (keeps_ret tt) (leaves_ret tt) (fun _ => Hk)).
Qed.
Lemma leaves_destroy_sub s : leaves (aw_destroy_sub s).
Proof. apply leaves_bind; [apply keeps_unsubscribe|apply leaves_unsubscribe|]. intros _ w Hw. by apply part_split. Qed.

Lemma leaves_release n a : a <> c -> leaves (aw_release n a).
Proof.
  intros Hac. induction n as [|n IH]; intros w Hw; cbn [aw_release]; destruct (aw_objs w !! a) as [o|]; try done; destruct (last (go_recv o)) as [s|]; try done.
  revert w Hw. match goal with |- forall w0, awf w0 -> part (fst (fst (?m w0))) = part w0 => change (leaves m) end.
  apply leaves_bind; [apply keeps_unsubscribe|apply leaves_unsubscribe|]. intros _ w1 Hw1. apply leaves_at; [done|]. intros w2 e2 o' Ho'.
  unfold aw_obj, cread in Ho'. destruct (aw_objs w1 !! a) as [o2|] eqn:Ho; [|done]. injection Ho' as <- _ ->.
  destruct (go_recv o') as [|x l]; [done|]. apply leaves_at.
  - apply part_split; try done. cbn. by rewrite lookup_insert_ne.
  - intros w3 e3 [] H3. injection H3 as <- _. apply IH. by apply (awf_set_obj w1 a o').
Qed.

Lemma leaves_destroy a : a <> c -> leaves (aw_destroy a).
Proof.
  intros Hac. apply leaves_bind; [kr|lr|]. intros o. apply leaves_bind; [apply keeps_release|by apply leaves_release|]. intros _ w Hw.
  apply part_split; cbn; [by rewrite lookup_delete_ne| |]; apply filter_filter_same; intros x _ -> ?; congruence.
Qed.

Lemma filter_owner {B} (g : nat -> B -> agid * B) a (l : list B) : a <> c -> (forall k x, fst (g k x) = a) -> filter (fun r => fst r = c) (imap g l) = [].
Proof.
  intros Hac Hg. destruct (filter _ _) as [|x l'] eqn:Hf; [done|]. assert (Hin : x ∈ filter (fun r => fst r = c) (imap g l)) by (rewrite Hf; by left).
  apply elem_of_list_filter in Hin as [Hx (k & y & _ & ->)%elem_imap]. rewrite Hg in Hx. done.
Qed.

Lemma leaves_copy a b : a <> c -> leaves (aw_copy a b).
Proof.
  intros Hac w Hw. unfold aw_copy. destruct (aw_objs w !! a) as [oa|] eqn:Ha; [done|]. destruct (aw_objs w !! b) as [o|] eqn:Hb; [|done].
  destruct (forallb _ _); [|done]. apply part_split; cbn; [by rewrite lookup_insert_ne| |]; rewrite filter_app.
  - rewrite (filter_owner _ a) by done. by rewrite app_nil_r.
  - unfold aw_copy_edges. rewrite (filter_owner _ a) by done. by rewrite app_nil_r.
Qed.

Lemma leaves_step op : no_assign op -> works_on op <> Some c -> leaves (awstep d0 einv op).
Proof.
  destruct op; cbn; intros H Hc; try done; try (assert (Hac : a <> c) by congruence).
  - intros w Hw. unfold aw_new. destruct (aw_objs w !! a); [done|]. apply part_split; try done. cbn. by rewrite lookup_insert_ne.
  - by apply leaves_copy.
  - by apply leaves_destroy.
  - by apply leaves_emplace.
  - by apply leaves_set_data.
  - by apply leaves_add_edge.
  - by apply leaves_set_prop.
  - by apply leaves_remove_edge.
  - by apply leaves_remove_frame.
  - apply leaves_subscribe.
  - apply leaves_destroy_sub.
Qed.

(** The answers of a graph are determined by its part. *)
Lemma vrec_part w r : awf w -> (c, r) ∈ aw_verts w -> aw_vrec w (v_id r) = Some (c, r).
Proof. intros Hw Hr. by apply vrec_Some. Qed.

Lemma find_snd {B} (p : B -> bool) (l : list (agid * B)) : (forall x, x ∈ l -> p (snd x) = true -> fst x = c) ->
  snd <$> find (fun x => p (snd x)) l = find p (snd <$> filter (fun x => fst x = c) l).
Proof.
  induction l as [|[a x] l IH]; intros H; [done|]. rewrite filter_cons. cbn.
  assert (Hl : snd <$> find (fun x => p (snd x)) l = find p (snd <$> filter (fun x => fst x = c) l)) by (apply IH; intros y Hy; apply H; by right).
  destruct (p x) eqn:Hp.
  - rewrite decide_True by (apply (H (a, x)); [by left|done]). cbn. by rewrite Hp.
  - destruct (decide (a = c)) as [->|]; cbn; [|done]. by rewrite Hp.
Qed.

Lemma find_edge_part w r t : awf w -> (c, r) ∈ aw_verts w -> exists e, aw_find_edge w (v_id r) t = Ret e /\
  snd <$> e = find (fun e => Nat.eqb (e_src e) (v_id r) && Nat.eqb (e_tgt e) t) (aw_own_edges w c).
Proof.
  intros Hw Hr. unfold aw_find_edge. rewrite vrec_part by done. eexists. split; [done|].
  unfold aw_own_edges. apply (find_snd (fun e => Nat.eqb (e_src e) (v_id r) && Nat.eqb (e_tgt e) t) (aw_edges w)).
  intros [x e] Hin [Hs%Nat.eqb_eq _]%andb_true_iff. cbn in *. destruct (aw_own w Hw x e Hin) as ((q & Hq & Hqs) & _).
  assert (Heq : (x, q) = (c, r)) by (apply (vid_inj w); try done; unfold vidof; cbn in *; congruence). congruence.
Qed.

Lemma part_answers w w' : awf w -> awf w' -> part w' = part w -> same_answers w' c w c.
Proof.
  intros Hw Hw' [= Ho Hv He].
  assert (Hgv : forall f, aw_get_vertex w' c f = aw_get_vertex w c f /\ aw_contains w' c f = aw_contains w c f /\
    aw_num_vertices w' c = aw_num_vertices w c /\ aw_num_edges w' c = aw_num_edges w c).
  { intros f. unfold aw_get_vertex, aw_contains, aw_num_vertices, aw_num_edges. destruct (aw_objs w' !! c) as [o'|], (aw_objs w !! c) as [o|]; try done.
    cbn in Ho. injection Ho as -> -> ->. done. }
  assert (Hboth : forall f v, aw_get_vertex w c f = Ret v -> exists r, (c, r) ∈ aw_verts w /\ (c, r) ∈ aw_verts w' /\ v_id r = v).
  { intros f v (r & Hr & Hrv)%get_vertex_own; [|done]. exists r. split_and!; try done. apply elem_own_verts. rewrite Hv. by apply elem_own_verts. }
  assert (Hid : forall f v, aw_get_vertex w c f = Ret v -> aw_frame_id w' v = aw_frame_id w v).
  { intros f v (r & H1 & H2 & <-)%Hboth. unfold aw_frame_id. by rewrite !vrec_part. }
  assert (Hfe : forall f v t, aw_get_vertex w c f = Ret v -> exists e e', aw_find_edge w v t = Ret e /\ aw_find_edge w' v t = Ret e' /\ snd <$> e = snd <$> e').
  { intros f v t (r & H1 & H2 & <-)%Hboth. destruct (find_edge_part w r t Hw H1) as (e & ? & Hs), (find_edge_part w' r t Hw' H2) as (e' & ? & Hs').
    exists e, e'. split_and!; try done. rewrite Hs, Hs'. by rewrite He. }
  split.
  - intros f. apply (Hgv f).
  - intros f. unfold aw_frame_property. rewrite (proj1 (Hgv f)). destruct (aw_get_vertex w c f) as [v| | |] eqn:Hf; try done. cbn.
    apply Hboth in Hf as (r & H1 & H2 & <-). by rewrite !vrec_part.
  - intros o t. unfold aw_contains_edge. rewrite (proj1 (Hgv o)), (proj1 (Hgv t)). destruct (aw_get_vertex w c o) as [v| | |] eqn:Hf; try done. cbn.
    destruct (aw_get_vertex w c t) as [u| | |] eqn:Hg; try done. cbn. destruct (Hfe o v u Hf) as (e & e' & -> & -> & Hs). cbn. f_equal. by destruct e, e'.
  - intros o t. unfold aw_edge_property. rewrite (proj1 (Hgv o)), (proj1 (Hgv t)). destruct (aw_get_vertex w c o) as [v| | |] eqn:Hf; try done. cbn.
    destruct (aw_get_vertex w c t) as [u| | |] eqn:Hg; try done. cbn. destruct (Hfe o v u Hf) as (e & e' & -> & -> & Hs). cbn.
    destruct e, e'; try done; [cbn in Hs; congruence|]. by rewrite (Hid o), (Hid t).
  - apply (Hgv "").
  - apply (Hgv "").
Qed.

Theorem apart w op : made d0 einv w -> no_assign op -> works_on op <> Some c -> same_answers (fst (fst (awstep d0 einv op w))) c w c.
Proof.
  intros Hw%made_awf Hn Hc. apply part_answers; [done|by apply keeps_step|]. by apply leaves_step.
Qed.

End apart.
