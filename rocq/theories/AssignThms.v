(** Proofs about graphs that are copied and assigned to each other. *)
From stdpp Require Import prelude strings gmap.
From Verif Require Import ListLib Outcome Digraph GraphModel GraphCopy AssignModel SpecAssign.

Section assign.
Context {D E : Type} (d0 : D) (einv : E -> E).
Local Notation aworld := (aworld D E).
Local Notation vr := (agid * vrec D)%type.
Local Notation er := (agid * erec E)%type.
Implicit Types w : aworld.

Definition vidof (r : vr) : vid := v_id (snd r).
Definition eidof (e : er) : eid := e_id (snd e).

Record awf (w : aworld) : Prop := AWf {
  aw_vnd : NoDup (vidof <$> aw_verts w);
  aw_vlt : forall r, r ∈ aw_verts w -> vidof r < aw_nextv w;
  aw_vob : forall r, r ∈ aw_verts w -> is_Some (aw_objs w !! fst r);
  aw_map : forall a o f v, aw_objs w !! a = Some o -> go_map o !! f = Some v <-> exists r, (a, r) ∈ aw_verts w /\ v_id r = v /\ v_name r = f;
  aw_end : NoDup (eidof <$> aw_edges w);
  aw_elt : forall e, e ∈ aw_edges w -> eidof e < aw_nexte w;
  aw_own : forall c e, (c, e) ∈ aw_edges w -> (exists r, (c, r) ∈ aw_verts w /\ v_id r = e_src e) /\ (exists r, (c, r) ∈ aw_verts w /\ v_id r = e_tgt e) }.

Lemma awf_ext w w' : aw_verts w' = aw_verts w -> aw_edges w' = aw_edges w -> aw_nextv w' = aw_nextv w -> aw_nexte w' = aw_nexte w ->
  (forall a, go_map <$> aw_objs w' !! a = go_map <$> aw_objs w !! a) -> awf w -> awf w'.
Proof.
  intros Hv He Hnv Hne Ho []. assert (Hob : forall a, is_Some (aw_objs w' !! a) <-> is_Some (aw_objs w !! a)).
  { intros a. rewrite <- !(fmap_is_Some go_map). by rewrite Ho. }
  split; rewrite ?Hv, ?He, ?Hnv, ?Hne; try done.
  - intros r Hr. apply Hob. eauto.
  - intros a o f v Hao. specialize (Ho a). rewrite Hao in Ho. destruct (aw_objs w !! a) as [o'|] eqn:Hao'; [|done].
    cbn in Ho. injection Ho as ->. eauto.
Qed.

Lemma vrec_Some w v r : awf w -> aw_vrec w v = Some r <-> r ∈ aw_verts w /\ vidof r = v.
Proof.
  intros Hw. unfold aw_vrec. split.
  - intros [Hin Hv]%find_some. split; [by apply elem_of_list_In|]. by apply Nat.eqb_eq in Hv.
  - intros [Hin <-]. destruct (find _ _) as [q|] eqn:Hf.
    + apply find_some in Hf as [Hq Hv]. apply Nat.eqb_eq in Hv. apply elem_of_list_In in Hq. f_equal.
      apply elem_of_list_lookup in Hin as [i Hi], Hq as [j Hj]. pose proof (aw_vnd w Hw) as Hnd.
      assert (i = j) as ->; [|congruence]. eapply NoDup_lookup; [exact Hnd|..]; rewrite list_lookup_fmap; [by rewrite Hi|]. rewrite Hj. cbn. by f_equal.
    + apply find_none with (x := r) in Hf; [|by apply elem_of_list_In]. cbn in Hf. by rewrite Nat.eqb_refl in Hf.
Qed.

Lemma vid_inj w r q : awf w -> r ∈ aw_verts w -> q ∈ aw_verts w -> vidof r = vidof q -> r = q.
Proof.
  intros Hw Hr Hq Heq. assert (H1 : aw_vrec w (vidof r) = Some r) by by apply vrec_Some.
  assert (H2 : aw_vrec w (vidof r) = Some q) by by apply vrec_Some. congruence.
Qed.

Lemma elem_own_verts w a r : r ∈ aw_own_verts w a <-> (a, r) ∈ aw_verts w.
Proof.
  unfold aw_own_verts. rewrite elem_of_list_fmap. split.
  - intros ([b q] & -> & [Hb Hq]%elem_of_list_filter). cbn in *. by subst.
  - intros H. exists (a, r). split; [done|]. by apply elem_of_list_filter.
Qed.
Lemma elem_own_edges w a r : r ∈ aw_own_edges w a <-> (a, r) ∈ aw_edges w.
Proof.
  unfold aw_own_edges. rewrite elem_of_list_fmap. split.
  - intros ([b q] & -> & [Hb Hq]%elem_of_list_filter). cbn in *. by subst.
  - intros H. exists (a, r). split; [done|]. by apply elem_of_list_filter.
Qed.

Lemma owns_true w a v : aw_owns w a v = true <-> exists r, (a, r) ∈ aw_verts w /\ v_id r = v.
Proof.
  unfold aw_owns. rewrite existsb_exists. split.
  - intros (r & Hr%elem_of_list_In & Hv%Nat.eqb_eq). apply elem_own_verts in Hr. eauto.
  - intros (r & Hr & <-). exists r. rewrite Nat.eqb_refl. split; [|done]. by apply elem_of_list_In, elem_own_verts.
Qed.

Lemma awf_separate w : awf w -> separate w.
Proof. intros Hw a o f v Ho Hf. apply owns_true. apply (aw_map w Hw a o f v Ho) in Hf as (r & ? & ? & _). eauto. Qed.

Lemma awf_empty : awf aw_empty.
Proof. split; cbn; try (by constructor); try (by intros ? ?%elem_of_nil); try (by intros ? ? ?%elem_of_nil). Qed.

(** What keeps the invariant, whatever the outcome. *)
Definition keeps {A} (m : call aworld A) : Prop := forall w, awf w -> awf (fst (fst (m w))).

Lemma keeps_bind {A B} (m : call aworld A) (k : A -> call aworld B) : keeps m -> (forall x, keeps (k x)) -> keeps (cbind m k).
Proof.
  intros Hm Hk w Hw. unfold cbind. specialize (Hm w Hw). destruct (m w) as [[w1 e1] [x| | |]]; try done.
  specialize (Hk x w1 Hm). by destruct (k x w1) as [[? ?] ?].
Qed.
Lemma bind_at {A B} (m : call aworld A) (k : A -> call aworld B) w : awf (fst (fst (m w))) ->
  (forall w1 e x, m w = (w1, e, Ret x) -> awf w1 -> awf (fst (fst (k x w1)))) -> awf (fst (fst (cbind m k w))).
Proof.
  intros Hm Hk. unfold cbind. destruct (m w) as [[w1 e1] [x| | |]] eqn:Hmw; try done.
  specialize (Hk w1 e1 x eq_refl Hm). by destruct (k x w1) as [[? ?] ?].
Qed.
Lemma keeps_read {A} (f : aworld -> outcome A) : keeps (cread f).
Proof. by intros w Hw. Qed.
Lemma keeps_ret {A} (x : A) : keeps (cret x).
Proof. by intros w Hw. Qed.
Local Ltac kr := first [apply keeps_read | apply keeps_ret].
Lemma keeps_tell e l : keeps (aw_tell e l).
Proof.
  induction l as [|s l IH]; intros w Hw; [done|]. cbn. destruct (aw_pubs w !! s); [|done]. apply IH. by apply (awf_ext w).
Qed.
Lemma keeps_notify a e : keeps (aw_notify a e).
Proof. apply keeps_bind; [kr|]. intros o. apply keeps_tell. Qed.

Lemma keeps_add_vertex a f d : keeps (aw_add_vertex a f d).
Proof.
  intros w Hw. apply bind_at; [done|]. intros w1 e1 o Hob _. unfold aw_obj, cread in Hob. destruct (aw_objs w !! a) as [o'|] eqn:Ho; [|done].
  injection Hob as <- _ ->. apply bind_at; [|intros w2 e2 v _ Hw2; apply bind_at; [by apply keeps_notify|done]].
  destruct (go_map o !! f) as [v|] eqn:Hf; [done|]. cbn [fst].
  destruct Hw. split; cbn.
  - rewrite fmap_app. apply NoDup_app. split_and!; [done| |apply NoDup_singleton].
    intros x (r & -> & Hr)%elem_of_list_fmap Hx%elem_of_list_singleton. cbn in Hx. specialize (aw_vlt0 r Hr). unfold vidof in *. cbn in *. lia.
  - intros r [Hr| ->%elem_of_list_singleton]%elem_of_app; [specialize (aw_vlt0 r Hr); lia|cbn; lia].
  - intros r [Hr| ->%elem_of_list_singleton]%elem_of_app; cbn; [|by rewrite lookup_insert].
    destruct (decide (fst r = a)) as [->|]; [by rewrite lookup_insert|]. rewrite lookup_insert_ne by done. eauto.
  - intros c o' g v. destruct (decide (c = a)) as [->|Hne].
    + rewrite lookup_insert. intros [= <-]. cbn. destruct (decide (g = f)) as [->|Hg].
      * rewrite lookup_insert. split.
        -- intros [= <-]. eexists. split; [apply elem_of_app; right; by apply elem_of_list_singleton|done].
        -- intros (r & [Hr|Hr%elem_of_list_singleton]%elem_of_app & <- & Hn).
           ++ exfalso. assert (Hx : go_map o !! f = Some (v_id r)) by (apply (aw_map0 a o f _ Ho); eauto). congruence.
           ++ injection Hr as ->. done.
      * rewrite lookup_insert_ne by done. rewrite (aw_map0 a o g v Ho). split; intros (r & Hr & H1 & H2).
        -- exists r. split; [apply elem_of_app; by left|done].
        -- exists r. split; [|done]. apply elem_of_app in Hr as [Hr|Hr%elem_of_list_singleton]; [done|]. injection Hr as ->. cbn in H2. congruence.
    + rewrite lookup_insert_ne by done. intros Ho'. rewrite (aw_map0 c o' g v Ho'). split; intros (r & Hr & H1 & H2).
      * exists r. split; [apply elem_of_app; by left|done].
      * exists r. split; [|done]. apply elem_of_app in Hr as [Hr|Hr%elem_of_list_singleton]; [done|]. injection Hr as -> ->. done.
  - done.
  - done.
  - intros c e He. destruct (aw_own0 c e He) as ((r & Hr & H1) & (q & Hq & H2)). split; [exists r|exists q]; (split; [apply elem_of_app; by left|done]).
Qed.

Lemma keeps_emplace a f d : keeps (aw_emplace a f d).
Proof.
  apply keeps_bind; [kr|]. intros o. destruct (go_map o !! f); [kr|]. apply keeps_bind; [apply keeps_add_vertex|]. intros _. apply keeps_ret.
Qed.

Lemma vset_ids v d (l : list vr) :
  vidof <$> ((fun r => if Nat.eqb (v_id (snd r)) v then (fst r, VRec (v_id (snd r)) (v_index (snd r)) (v_name (snd r)) d) else r) <$> l) = vidof <$> l.
Proof. rewrite <- list_fmap_compose. apply list_fmap_ext. intros i r _. cbn. by destruct (Nat.eqb _ _). Qed.

Lemma keeps_set_data a f d : keeps (aw_set_data a f d).
Proof.
  apply keeps_bind; [kr|]. intros v. apply keeps_bind; [kr|]. intros _ w Hw. cbn.
  set (g := fun r : vr => if Nat.eqb (v_id (snd r)) v then (fst r, VRec (v_id (snd r)) (v_index (snd r)) (v_name (snd r)) d) else r).
  assert (Hg : forall r, vidof (g r) = vidof r /\ fst (g r) = fst r /\ v_name (snd (g r)) = v_name (snd r)).
  { intros r. unfold g. by destruct (Nat.eqb _ _). }
  assert (Hin : forall c x, (exists r, (c, r) ∈ aw_verts w /\ v_id r = x) -> exists r, (c, r) ∈ g <$> aw_verts w /\ v_id r = x).
  { intros c x (r & Hr & <-). exists (snd (g (c, r))). destruct (Hg (c, r)) as (H1 & H2 & H3). split; [|done].
    apply elem_of_list_fmap. exists (c, r). split; [|done]. destruct (g (c, r)). cbn in *. by subst. }
  destruct Hw. split; cbn; try done.
  - unfold g. by rewrite vset_ids.
  - intros r (q & -> & Hq)%elem_of_list_fmap. destruct (Hg q) as (-> & _). eauto.
  - intros r (q & -> & Hq)%elem_of_list_fmap. destruct (Hg q) as (_ & -> & _). eauto.
  - intros c o h x Ho. rewrite (aw_map0 c o h x Ho). split; intros (r & Hr & H1 & H2).
    + destruct (Hg (c, r)) as (G1 & G2 & G3). exists (snd (g (c, r))). split.
      * apply elem_of_list_fmap. exists (c, r). split; [|done]. destruct (g (c, r)). cbn in *. by subst.
      * unfold vidof in G1. rewrite G1, G3. done.
    + apply elem_of_list_fmap in Hr as ([c' q] & Hr & Hq). destruct (Hg (c', q)) as (G1 & G2 & G3). rewrite <- Hr in *. cbn in *. subst c'. exists q. split; [done|]. unfold vidof in G1. cbn in G1. by rewrite <- G1, <- G3.
  - intros c e He. destruct (aw_own0 c e He) as [H1 H2]. split; by apply Hin.
Qed.

Lemma keeps_boost_add a u v p : keeps (aw_boost_add a u v p).
Proof.
  intros w Hw. unfold aw_boost_add. destruct (aw_owns w a u && aw_owns w a v) eqn:Hown; [|done].
  apply andb_true_iff in Hown as [Hu%owns_true Hv%owns_true]. destruct (aw_objs w !! a) as [o|] eqn:Ho; [|done]. destruct Hw. split; cbn; try done.
  - intros r Hr. destruct (decide (fst r = a)) as [->|]; [by rewrite lookup_insert|]. rewrite lookup_insert_ne by done. eauto.
  - intros c o' f x. destruct (decide (c = a)) as [->|Hne].
    + rewrite lookup_insert. intros [= <-]. cbn. eauto.
    + rewrite lookup_insert_ne by done. eauto.
  - rewrite fmap_app. apply NoDup_app. split_and!; [done| |apply NoDup_singleton].
    intros x (r & -> & Hr)%elem_of_list_fmap Hx%elem_of_list_singleton. specialize (aw_elt0 r Hr). cbn in Hx. lia.
  - intros r [Hr| ->%elem_of_list_singleton]%elem_of_app; [specialize (aw_elt0 r Hr); lia|cbn; lia].
  - intros c e [He|He%elem_of_list_singleton]%elem_of_app; [eauto|]. injection He as -> ->. done.
Qed.

Lemma keeps_add_edge a o t p : keeps (aw_add_edge d0 einv a o t p).
Proof.
  apply keeps_bind; [kr|]. intros g.
  apply keeps_bind; [destruct (go_map g !! o); [kr|apply keeps_add_vertex]|]. intros vo.
  apply keeps_bind; [destruct (go_map g !! t); [kr|apply keeps_add_vertex]|]. intros vt.
  apply keeps_bind; [kr|]. intros [e|].
  - apply keeps_bind; [kr|]. intros fo. apply keeps_bind; [kr|]. intros ft. kr.
  - apply keeps_bind; [apply keeps_boost_add|]. intros i. apply keeps_bind; [apply keeps_boost_add|]. intros _.
    apply keeps_bind; [kr|]. intros fo. apply keeps_bind; [kr|]. intros ft. apply keeps_notify.
Qed.

Lemma keeps_set_edge i p : keeps (cmodify (aw_set_edge i p)).
Proof.
  intros w Hw. cbn. unfold aw_set_edge.
  set (g := fun e : er => if Nat.eqb (e_id (snd e)) i then (fst e, ERec (e_id (snd e)) (e_src (snd e)) (e_tgt (snd e)) p) else e).
  assert (Hg : forall r, eidof (g r) = eidof r /\ fst (g r) = fst r /\ e_src (snd (g r)) = e_src (snd r) /\ e_tgt (snd (g r)) = e_tgt (snd r)).
  { intros r. unfold g. by destruct (Nat.eqb _ _). }
  destruct Hw. split; cbn; try done.
  - rewrite <- list_fmap_compose. erewrite list_fmap_ext; [exact aw_end0|]. intros k r _. cbn. apply Hg.
  - intros r (q & -> & Hq)%elem_of_list_fmap. destruct (Hg q) as (-> & _). eauto.
  - intros c e ([c' q] & Hr & Hq)%elem_of_list_fmap. destruct (Hg (c', q)) as (G1 & G2 & G3 & G4). rewrite <- Hr in *. cbn in *. subst c'.
    rewrite G3, G4. eauto.
Qed.

Lemma keeps_set_prop a o t p : keeps (aw_set_prop einv a o t p).
Proof.
  do 2 (apply keeps_bind; [kr|]; intros ?). apply keeps_bind; [kr|]. intros [e|].
  - apply keeps_bind; [apply keeps_set_edge|]. intros _. apply keeps_bind; [kr|]. intros [e'|]; [|kr].
    apply keeps_bind; [apply keeps_set_edge|]. intros _. do 2 (apply keeps_bind; [kr|]; intros ?). apply keeps_notify.
  - do 2 (apply keeps_bind; [kr|]; intros ?). kr.
Qed.

Lemma keeps_boost_remove a i : keeps (aw_boost_remove a i).
Proof.
  intros w Hw. unfold aw_boost_remove. destruct (existsb _ _); [|done]. destruct (aw_objs w !! a) as [o|] eqn:Ho; [|done]. destruct Hw. split; cbn; try done.
  - intros r Hr. destruct (decide (fst r = a)) as [->|]; [by rewrite lookup_insert|]. rewrite lookup_insert_ne by done. eauto.
  - intros c o' f x. destruct (decide (c = a)) as [->|Hne].
    + rewrite lookup_insert. intros [= <-]. cbn. eauto.
    + rewrite lookup_insert_ne by done. eauto.
  - by apply NoDup_fmap_filter.
  - intros e [_ He]%elem_of_list_filter. eauto.
  - intros c e [_ He]%elem_of_list_filter. eauto.
Qed.

Lemma keeps_remove_edge a o t : keeps (aw_remove_edge a o t).
Proof.
  do 4 (apply keeps_bind; [kr|]; intros ?). destruct x1 as [e1|], x2 as [e2|]; try kr.
  apply keeps_bind; [apply keeps_boost_remove|]. intros _. apply keeps_bind; [apply keeps_notify|]. intros _. apply keeps_boost_remove.
Qed.

Lemma keeps_remove_frame a f : keeps (aw_remove_frame a f).
Proof.
  intros w Hw. apply bind_at; [done|]. intros w1 e1 v Hgv _. injection Hgv as <- _ Hgv.
  unfold aw_get_vertex in Hgv. destruct (aw_objs w !! a) as [o|] eqn:Ho; [|done]. destruct (go_map o !! f) as [v'|] eqn:Hf; [|done].
  injection Hgv as ->. apply bind_at; [done|]. intros w2 e2 [] Hc _. injection Hc as <- _ Hc. destruct (aw_vrec w v) as [r|] eqn:Hv; [|done].
  destruct (existsb _ _) eqn:He; [done|]. apply bind_at; [by destruct (aw_owns w a v)|]. intros w3 e3 [] Hc3 _.
  destruct (aw_owns w a v) eqn:Hown; [|done]. injection Hc3 as <- _. apply bind_at; [done|]. intros w4 e4 o' Hc4 _.
  unfold aw_obj, cread in Hc4. rewrite Ho in Hc4. injection Hc4 as <- _ <-.
  apply bind_at; [|intros w5 e5 _ _ Hw5; by apply keeps_notify]. cbn [cmodify fst].
  assert (Hno : forall e, e ∈ aw_edges w -> e_src (snd e) <> v /\ e_tgt (snd e) <> v).
  { intros e Hin. apply elem_of_list_In in Hin. assert (Hx : Nat.eqb (e_src (snd e)) v || Nat.eqb (e_tgt (snd e)) v = false).
    { apply not_true_iff_false. intros Hcc. rewrite <- not_true_iff_false, existsb_exists in He. apply He. eauto. }
    apply orb_false_iff in Hx as [?%Nat.eqb_neq ?%Nat.eqb_neq]. done. }
  apply owns_true in Hown as (q & Hq & Hqv). pose proof (vid_inj w) as Hinj.
  assert (Hfq : v_name q = f).
  { destruct (proj1 (aw_map w Hw a o f v Ho) Hf) as (q' & Hq' & H1 & H2). assert (Heq : (a, q) = (a, q')); [|congruence].
    apply (Hinj (a, q) (a, q') Hw); try done. unfold vidof. cbn. congruence. }
  assert (Hmem : forall c r0, (c, r0) ∈ filter (fun r : vr => v_id (snd r) <> v) (aw_verts w) <-> v_id r0 <> v /\ (c, r0) ∈ aw_verts w).
  { intros c r0. by rewrite elem_of_list_filter. }
  pose proof Hw as []. split; cbn; try done.
  - by apply NoDup_fmap_filter.
  - intros x [_ Hx]%elem_of_list_filter. eauto.
  - intros x [_ Hx]%elem_of_list_filter. destruct (decide (fst x = a)) as [->|]; [by rewrite lookup_insert|]. rewrite lookup_insert_ne by done. eauto.
  - intros c o' g x. destruct (decide (c = a)) as [->|Hne].
    + rewrite lookup_insert. intros [= <-]. cbn. destruct (decide (g = f)) as [->|Hg].
      * rewrite lookup_delete. split; [done|]. intros (r0 & [H0 Hr0]%Hmem & H1 & H2). exfalso.
        assert (Hx : go_map o !! f = Some (v_id r0)) by (apply (aw_map0 a o f _ Ho); eauto). congruence.
      * rewrite lookup_delete_ne by done. rewrite (aw_map0 a o g x Ho). split; intros (r0 & Hr0 & H1 & H2).
        -- exists r0. split; [|done]. apply Hmem. split; [|done]. intros Hcx. assert (Heq : (a, q) = (a, r0)); [|congruence].
           apply (Hinj (a, q) (a, r0) Hw); try done. unfold vidof. cbn. congruence.
        -- apply Hmem in Hr0 as [_ Hr0]. eauto.
    + rewrite lookup_insert_ne by done. intros Ho'. rewrite (aw_map0 c o' g x Ho'). split; intros (r0 & Hr0 & H1 & H2).
      * exists r0. split; [|done]. apply Hmem. split; [|done]. intros Hcx. assert (Heq : (a, q) = (c, r0)); [|congruence].
        apply (Hinj (a, q) (c, r0) Hw); try done. unfold vidof. cbn. congruence.
      * apply Hmem in Hr0 as [_ Hr0]. eauto.
  - intros c e Hin. destruct (aw_own0 c e Hin) as ((r1 & Hr1 & H1) & (r2 & Hr2 & H2)). destruct (Hno _ Hin) as [N1 N2]. cbn in N1, N2.
    split; [exists r1|exists r2]; (split; [apply Hmem; split; [congruence|done]|done]).
Qed.

Lemma keeps_new a : keeps (aw_new a).
Proof.
  intros w Hw. unfold aw_new. destruct (aw_objs w !! a) as [o|] eqn:Ho; [done|]. pose proof Hw as []. split; cbn; try done.
  - intros r Hr. destruct (decide (fst r = a)) as [->|]; [by rewrite lookup_insert|]. rewrite lookup_insert_ne by done. eauto.
  - intros c o' f x. destruct (decide (c = a)) as [->|Hne].
    + rewrite lookup_insert. intros [= <-]. cbn. rewrite lookup_empty. split; [done|]. intros (r & Hr & _). exfalso.
      apply aw_vob0 in Hr. cbn in Hr. rewrite Ho in Hr. by destruct Hr.
    + rewrite lookup_insert_ne by done. eauto.
Qed.

Lemma awf_set_obj w a o o' : awf w -> aw_objs w !! a = Some o -> go_map o' = go_map o -> awf (aw_set_obj a o' w).
Proof.
  intros Hw Ho Hm. eapply awf_ext; [..|exact Hw]; try done. intros c. cbn. destruct (decide (c = a)) as [->|].
  - rewrite lookup_insert, Ho. cbn. by rewrite Hm.
  - by rewrite lookup_insert_ne.
Qed.
Lemma awf_set_pub w s p : awf w -> awf (aw_set_pub s p w).
Proof. by apply awf_ext. Qed.

Lemma keeps_unsubscribe s : keeps (aw_unsubscribe s).
Proof.
  intros w Hw. unfold aw_unsubscribe. destruct (aw_pubs w !! s) as [[a|]|]; try done. destruct (aw_objs w !! a) as [o|] eqn:Ho; [|done].
  cbn. by apply awf_set_pub, (awf_set_obj w a o).
Qed.

Lemma keeps_subscribe s a : keeps (aw_subscribe s a).
Proof.
  intros w. revert w. assert (Hk : keeps (o <-- aw_obj a ;; cmodify (fun w : aworld => aw_set_pub s (Some a) (aw_set_obj a (GObj (go_map o) (go_maxvi o) (go_nv o) (go_ne o) (go_recv o ++ [s])) w)))).
  { intros w Hw. unfold cbind, aw_obj, cread, cmodify. destruct (aw_objs w !! a) as [o|] eqn:Ho; [|done]. cbn. by apply awf_set_pub, (awf_set_obj w a o). }
  intros w Hw. unfold aw_subscribe. destruct (aw_pubs w !! s).
  - by apply (keeps_bind (aw_unsubscribe s) (fun _ => _) (keeps_unsubscribe s) (fun _ => Hk)).
  - by apply (keeps_bind (cret tt) (fun _ => _) (keeps_ret tt) (fun _ => Hk)).
Qed.

Lemma keeps_destroy_sub s : keeps (aw_destroy_sub s).
Proof. apply keeps_bind; [apply keeps_unsubscribe|]. intros _ w Hw. cbn. by apply (awf_ext w). Qed.

Lemma keeps_release n a : keeps (aw_release n a).
Proof.
  induction n as [|n IH]; intros w Hw; cbn [aw_release]; destruct (aw_objs w !! a) as [o|]; try done; destruct (last (go_recv o)) as [s|]; try done.
  apply bind_at; [by apply keeps_unsubscribe|]. intros w1 e1 _ _ Hw1. apply bind_at; [done|]. intros w2 e2 o' Ho' _.
  unfold aw_obj, cread in Ho'. destruct (aw_objs w1 !! a) as [o2|] eqn:Ho; [|done]. injection Ho' as <- _ ->.
  destruct (go_recv o') as [|x l]; [done|]. apply bind_at; [by apply (awf_set_obj w1 a o')|]. intros w3 e3 _ _ Hw3. by apply IH.
Qed.

Lemma keeps_destroy a : keeps (aw_destroy a).
Proof.
  apply keeps_bind; [kr|]. intros o. apply keeps_bind; [apply keeps_release|]. intros _ w Hw. cbn. pose proof Hw as [].
  assert (Hmem : forall c r, (c, r) ∈ filter (fun r : vr => fst r <> a) (aw_verts w) <-> c <> a /\ (c, r) ∈ aw_verts w) by (intros; by rewrite elem_of_list_filter).
  split; cbn.
  - by apply NoDup_fmap_filter.
  - intros x [_ Hx]%elem_of_list_filter. eauto.
  - intros x [Hne Hx]%elem_of_list_filter. rewrite lookup_delete_ne by done. eauto.
  - intros c o' f v [Hne Ho]%lookup_delete_Some. rewrite (aw_map0 c o' f v Ho). split; intros (r & Hr & H1 & H2); exists r; (split; [|done]).
    + by apply Hmem.
    + by apply Hmem in Hr as [_ ?].
  - by apply NoDup_fmap_filter.
  - intros x [_ Hx]%elem_of_list_filter. eauto.
  - intros c e [Hne He]%elem_of_list_filter. cbn in Hne. destruct (aw_own0 c e He) as ((r & Hr & H1) & (q & Hq & H2)).
    split; [exists r|exists q]; (split; [by apply Hmem|done]).
Qed.

Lemma own_vids_nodup w b : awf w -> NoDup (v_id <$> aw_own_verts w b).
Proof.
  intros Hw. unfold aw_own_verts. rewrite <- list_fmap_compose. apply NoDup_fmap_filter, (aw_vnd w Hw).
Qed.

Lemma own_names_nodup w b o : awf w -> aw_objs w !! b = Some o -> NoDup (v_name <$> aw_own_verts w b).
Proof.
  intros Hw Ho. pose proof (own_vids_nodup w b Hw) as Hnd.
  assert (Hmap : forall r, r ∈ aw_own_verts w b -> go_map o !! v_name r = Some (v_id r)).
  { intros r Hr. apply (aw_map w Hw b o _ _ Ho). exists r. split; [by apply elem_own_verts|done]. }
  revert Hnd Hmap. generalize (aw_own_verts w b). induction l as [|r l IH]; intros Hnd Hmap; cbn; [constructor|].
  cbn in Hnd. apply list.NoDup_cons in Hnd as [Hn Hnd]. apply list.NoDup_cons. split.
  - intros (q & Hq & Hin)%elem_of_list_fmap. apply Hn. apply elem_of_list_fmap. exists q. split; [|done].
    assert (H1 : go_map o !! v_name r = Some (v_id r)) by (apply Hmap; by left). assert (H2 : go_map o !! v_name q = Some (v_id q)) by (apply Hmap; by right).
    congruence.
  - apply IH; [done|]. intros q Hq. apply Hmap. by right.
Qed.

Lemma imap_ids {A B} (g : nat -> A -> B) (h : B -> nat) n (l : list A) : (forall k x, h (g k x) = n + k) -> h <$> imap g l = seq n (length l).
Proof.
  intros Hg. apply list_eq. intros k. rewrite list_lookup_fmap, list_lookup_imap. destruct (l !! k) as [x|] eqn:Hk; cbn.
  - rewrite Hg. rewrite lookup_seq_lt; [done|]. by eapply lookup_lt_Some.
  - symmetry. apply lookup_seq_ge. by apply lookup_ge_None.
Qed.

Lemma elem_imap {A B} (g : nat -> A -> B) (l : list A) y : y ∈ imap g l <-> exists k x, l !! k = Some x /\ y = g k x.
Proof.
  rewrite elem_of_list_lookup. split.
  - intros [k Hk]. rewrite list_lookup_imap in Hk. destruct (l !! k) as [x|] eqn:Hx; [|done]. injection Hk as <-. eauto.
  - intros (k & x & Hx & ->). exists k. rewrite list_lookup_imap, Hx. done.
Qed.

Lemma keeps_copy a b : keeps (aw_copy a b).
Proof.
  intros w Hw. unfold aw_copy. destruct (aw_objs w !! a) as [oa|] eqn:Ha; [done|]. destruct (aw_objs w !! b) as [o|] eqn:Hb; [|done].
  destruct (forallb _ _); [|done]. cbn [fst]. set (vs := imap _ (aw_own_verts w b)). set (es := aw_copy_edges w a b).
  pose proof Hw as []. assert (Hfresh : forall r, (a, r) ∈ aw_verts w -> False).
  { intros r Hr. apply aw_vob0 in Hr. cbn in Hr. rewrite Ha in Hr. by destruct Hr. }
  assert (Hvs : forall c r, (c, r) ∈ vs <-> exists k q, aw_own_verts w b !! k = Some q /\ c = a /\ r = VRec (aw_nextv w + k) k (v_name q) (v_data q)).
  { intros c r. unfold vs. rewrite elem_imap. split; intros (k & q & Hk & Hq); exists k, q; [by injection Hq as -> ->|by destruct Hq as [-> ->]]. }
  assert (Hpos : forall x, (exists r, (b, r) ∈ aw_verts w /\ v_id r = x) -> exists r, (a, r) ∈ vs /\ v_id r = aw_nextv w + position x (aw_own_verts w b)).
  { intros x (r & Hr & Hx). destruct (position_lookup x (aw_own_verts w b)) as (q & Hq & Hid).
    { apply elem_of_list_fmap. exists r. split; [done|]. by apply elem_own_verts. }
    eexists. split; [apply Hvs; by eexists _, q|done]. }
  assert (Hids : vidof <$> vs = seq (aw_nextv w) (length (aw_own_verts w b))) by (apply imap_ids; done).
  assert (Hlen : length vs = length (aw_own_verts w b)) by apply imap_length.
  assert (Heids : eidof <$> es = seq (aw_nexte w) (length (aw_own_edges w b))) by (apply imap_ids; done).
  assert (Helen : length es = length (aw_own_edges w b)) by apply imap_length.
  assert (Hnames : v_name <$> (snd <$> vs) = v_name <$> aw_own_verts w b).
  { rewrite <- list_fmap_compose. apply list_eq. intros k. rewrite !list_lookup_fmap. unfold vs. rewrite list_lookup_imap. by destruct (_ !! k). }
  split; cbn.
  - rewrite fmap_app, Hids. apply NoDup_app. split_and!; [done| |apply NoDup_seq].
    intros x (r & -> & Hr)%elem_of_list_fmap Hx%elem_of_seq. specialize (aw_vlt0 r Hr). lia.
  - intros r [Hr|Hr]%elem_of_app; [specialize (aw_vlt0 r Hr); lia|]. assert (Hx : vidof r ∈ vidof <$> vs) by (apply elem_of_list_fmap; eauto).
    rewrite Hids in Hx. apply elem_of_seq in Hx. lia.
  - intros [c r] [Hr|Hr]%elem_of_app; cbn.
    + destruct (decide (c = a)) as [->|]; [by rewrite lookup_insert|]. rewrite lookup_insert_ne by done. by apply (aw_vob0 (c, r)).
    + apply Hvs in Hr as (k & q & _ & -> & _). by rewrite lookup_insert.
  - intros c o' f v. destruct (decide (c = a)) as [->|Hne].
    + rewrite lookup_insert. intros [= <-]. cbn. rewrite regenerate_lookup by (rewrite Hnames; by eapply own_names_nodup).
      rewrite lookup_empty. split.
      * intros [(r & ([c q] & -> & Hq)%elem_of_list_fmap & H1 & H2)|[_ ?]]; [|done]. cbn in *. exists q. split; [|done].
        apply elem_of_app. right. pose proof (proj1 (Hvs c q) Hq) as (k & q' & _ & -> & _). done.
      * intros (r & [Hr|Hr]%elem_of_app & H1 & H2); [by apply Hfresh in Hr|]. left. exists r. split; [|done]. apply elem_of_list_fmap. by exists (a, r).
    + rewrite lookup_insert_ne by done. intros Ho'. rewrite (aw_map0 c o' f v Ho'). split; intros (r & Hr & H1 & H2); exists r; (split; [|done]).
      * apply elem_of_app. by left.
      * apply elem_of_app in Hr as [Hr|Hr]; [done|]. apply Hvs in Hr as (k & q & _ & ? & _). done.
  - rewrite fmap_app, Heids. apply NoDup_app. split_and!; [done| |apply NoDup_seq].
    intros x (r & -> & Hr)%elem_of_list_fmap Hx%elem_of_seq. specialize (aw_elt0 r Hr). lia.
  - intros r [Hr|Hr]%elem_of_app; [specialize (aw_elt0 r Hr); lia|]. assert (Hx : eidof r ∈ eidof <$> es) by (apply elem_of_list_fmap; eauto).
    rewrite Heids in Hx. apply elem_of_seq in Hx. lia.
  - intros c e [He|He]%elem_of_app.
    + destruct (aw_own0 c e He) as ((r & Hr & H1) & (q & Hq & H2)). split; [exists r|exists q]; (split; [apply elem_of_app; by left|done]).
    + apply elem_imap in He as (k & x & Hx & He). injection He as -> ->. cbn.
      apply elem_of_list_lookup_2, elem_own_edges in Hx. apply aw_own0 in Hx as [H1 H2].
      apply Hpos in H1 as (r1 & Hr1 & ?), H2 as (r2 & Hr2 & ?). split; [exists r1|exists r2]; (split; [apply elem_of_app; by right|done]).
Qed.

Lemma keeps_step op : no_assign op -> keeps (awstep d0 einv op).
Proof.
  destruct op; cbn; intros H; try done.
  - apply keeps_new.
  - apply keeps_copy.
  - apply keeps_destroy.
  - apply keeps_emplace.
  - apply keeps_set_data.
  - apply keeps_add_edge.
  - apply keeps_set_prop.
  - apply keeps_remove_edge.
  - apply keeps_remove_frame.
  - apply keeps_subscribe.
  - apply keeps_destroy_sub.
Qed.

Lemma keeps_run p : Forall no_assign p -> keeps (awrun d0 einv p).
Proof.
  induction 1 as [|op p Hop Hp IH]; intros w Hw; [done|]. cbn. pose proof (keeps_step op Hop w Hw) as Hk.
  destruct (awstep d0 einv op w) as [[w1 e] r]. cbn in Hk. destruct r; try done; by apply IH.
Qed.

Lemma made_awf w : made d0 einv w -> awf w.
Proof. intros (p & Hp & <- & _). apply keeps_run; [done|]. apply awf_empty. Qed.

Lemma made_separate w : made d0 einv w -> separate w.
Proof. intros H. by apply awf_separate, made_awf. Qed.

(** The assignment. *)
Lemma find_filter {A} (p : A -> bool) (q : A -> Prop) `{forall x, Decision (q x)} (l : list A) :
  (forall x, x ∈ l -> p x = true -> q x) -> find p (filter q l) = find p l.
Proof.
  induction l as [|x l IH]; intros Hq; [done|]. rewrite filter_cons. cbn. assert (Hl : find p (filter q l) = find p l).
  { apply IH. intros y Hy. apply Hq. by right. }
  destruct (decide (q x)) as [Hx|Hx]; cbn.
  - destruct (p x); [done|]. apply Hl.
  - destruct (p x) eqn:Hp; [|apply Hl]. exfalso. apply Hx, Hq; [by left|done].
Qed.
Lemma find_app {A} (p : A -> bool) (l k : list A) : (forall x, x ∈ k -> p x = false) -> find p (l ++ k) = find p l.
Proof.
  intros Hk. induction l as [|x l IH]; cbn.
  - destruct (find p k) as [x|] eqn:Hf; [|done]. apply find_some in Hf as [Hin Hp]. apply elem_of_list_In in Hin. rewrite Hk in Hp; done.
  - by rewrite IH.
Qed.

Definition assigned (a b : agid) (w : aworld) : aworld := fst (fst (aw_assign a b w)).

Section assigned.
Context (w : aworld) (a b : agid) (oa ob : gobj).
Context (Hw : awf w) (Hoa : aw_objs w !! a = Some oa) (Hob : aw_objs w !! b = Some ob) (Hab : a <> b).

Lemma assign_eq : aw_assign a b w = (assigned a b w, [], Ret tt).
Proof. unfold assigned, aw_assign. rewrite Hoa, Hob. apply Nat.eqb_neq in Hab. by rewrite Hab. Qed.

Lemma assigned_parts : aw_verts (assigned a b w) = filter (fun r => fst r <> a) (aw_verts w) ++ aw_copy_verts w a b /\
  aw_edges (assigned a b w) = filter (fun e => fst e <> a) (aw_edges w) ++ aw_copy_edges w a b /\
  aw_objs (assigned a b w) = <[a := ob]> (aw_objs w) /\ aw_pubs (assigned a b w) = aw_pubs w.
Proof. unfold assigned, aw_assign. rewrite Hoa, Hob. apply Nat.eqb_neq in Hab. by rewrite Hab. Qed.

Lemma assigned_vrec c r : (c, r) ∈ aw_verts w -> c <> a -> aw_vrec (assigned a b w) (v_id r) = Some (c, r) /\ aw_vrec w (v_id r) = Some (c, r).
Proof.
  intros Hr Hc. assert (H2 : aw_vrec w (v_id r) = Some (c, r)) by by apply vrec_Some. split; [|done].
  rewrite <- H2. unfold aw_vrec. destruct assigned_parts as (-> & _). rewrite find_app.
  - apply find_filter. intros x Hx Hid%Nat.eqb_eq Hxa. apply Hc. assert (x = (c, r)) as ->; [|done]. by apply (vid_inj w).
  - intros x (k & q & Hk & ->)%elem_imap. cbn. apply Nat.eqb_neq. specialize (aw_vlt w Hw _ Hr). unfold vidof. cbn. lia.
Qed.

Lemma assigned_find_edge c r t : (c, r) ∈ aw_verts w -> c <> a -> aw_find_edge (assigned a b w) (v_id r) t = aw_find_edge w (v_id r) t.
Proof.
  intros Hr Hc. unfold aw_find_edge. destruct (assigned_vrec c r Hr Hc) as [-> ->]. f_equal.
  destruct assigned_parts as (_ & -> & _). rewrite find_app.
  - apply find_filter. intros [c' e] He [Hs%Nat.eqb_eq _]%andb_true_iff. cbn in *. destruct (aw_own w Hw c' e He) as ((q & Hq & Hqs) & _).
    assert (Heq : (c', q) = (c, r)) by (apply (vid_inj w); try done; unfold vidof; cbn; congruence). injection Heq as -> _. done.
  - intros x (k & e & Hk & ->)%elem_imap. cbn. apply andb_false_iff. left. apply Nat.eqb_neq. specialize (aw_vlt w Hw _ Hr). unfold vidof. cbn. lia.
Qed.

(** The graph [x] has the names of graph [c] of before. *)
Lemma assigned_answers x c : c <> a -> is_Some (aw_objs w !! c) -> aw_objs (assigned a b w) !! x = aw_objs w !! c ->
  same_answers (assigned a b w) x w c.
Proof.
  intros Hca [o Ho] Hx. assert (Hgv : forall f, aw_get_vertex (assigned a b w) x f = aw_get_vertex w c f).
  { intros f. unfold aw_get_vertex. by rewrite Hx. }
  assert (Hin : forall f v, aw_get_vertex w c f = Ret v -> exists r, (c, r) ∈ aw_verts w /\ v_id r = v /\ v_name r = f).
  { intros f v. unfold aw_get_vertex. rewrite Ho. destruct (go_map o !! f) as [v'|] eqn:Hf; [|done]. intros [= <-]. by apply (aw_map w Hw c o). }
  assert (Hname : forall f v, aw_get_vertex w c f = Ret v -> aw_frame_id (assigned a b w) v = aw_frame_id w v).
  { intros f v (r & Hr & <- & _)%Hin. unfold aw_frame_id. by destruct (assigned_vrec c r Hr Hca) as [-> ->]. }
  assert (Hfe : forall f v t, aw_get_vertex w c f = Ret v -> aw_find_edge (assigned a b w) v t = aw_find_edge w v t).
  { intros f v t (r & Hr & <- & _)%Hin. by apply (assigned_find_edge c). }
  split.
  - intros f. unfold aw_contains. by rewrite Hx.
  - intros f. unfold aw_frame_property. rewrite Hgv. destruct (aw_get_vertex w c f) as [v| | |] eqn:Hf; try done. cbn.
    apply Hin in Hf as (r & Hr & <- & _). by destruct (assigned_vrec c r Hr Hca) as [-> ->].
  - intros o' t. unfold aw_contains_edge. rewrite !Hgv. destruct (aw_get_vertex w c o') as [v| | |] eqn:Hf; try done. cbn.
    destruct (aw_get_vertex w c t) as [u| | |] eqn:Hg; try done. cbn. by rewrite (Hfe o').
  - intros o' t. unfold aw_edge_property. rewrite !Hgv. destruct (aw_get_vertex w c o') as [v| | |] eqn:Hf; try done. cbn.
    destruct (aw_get_vertex w c t) as [u| | |] eqn:Hg; try done. cbn. rewrite (Hfe o') by done. by rewrite (Hname o'), (Hname t).
  - unfold aw_num_vertices. by rewrite Hx.
  - unfold aw_num_edges. by rewrite Hx.
Qed.

Lemma assigned_same : same_answers (assigned a b w) a w b.
Proof. apply assigned_answers; [done|by exists ob|]. destruct assigned_parts as (_ & _ & -> & _). by rewrite lookup_insert, Hob. Qed.

Lemma assigned_others c : c <> a -> is_Some (aw_objs w !! c) -> same_answers (assigned a b w) c w c.
Proof. intros Hc Ho. apply assigned_answers; [done|done|]. destruct assigned_parts as (_ & _ & -> & _). by rewrite lookup_insert_ne. Qed.

Lemma assigned_known f v : go_map ob !! f = Some v -> exists r, (b, r) ∈ aw_verts w /\ v_id r = v /\ v_name r = f.
Proof. by apply (aw_map w Hw b ob). Qed.

Lemma assigned_get_vertex f v : go_map ob !! f = Some v -> aw_get_vertex (assigned a b w) a f = Ret v /\ aw_get_vertex (assigned a b w) b f = Ret v.
Proof.
  intros Hf. unfold aw_get_vertex. destruct assigned_parts as (_ & _ & -> & _).
  rewrite lookup_insert, lookup_insert_ne by done. rewrite Hob, Hf. done.
Qed.

(** Names of a lead to frames that a does not hold. *)
Lemma assigned_not_own f v : go_map ob !! f = Some v -> aw_owns (assigned a b w) a v = false.
Proof.
  intros Hf. apply not_true_iff_false. intros (r & Hr & Hv)%owns_true. apply assigned_known in Hf as (q & Hq & Hqv & _).
  destruct assigned_parts as (Hp & _). rewrite Hp in Hr. apply elem_of_app in Hr as [[Hne _]%elem_of_list_filter|Hr]; [done|].
  apply elem_imap in Hr as (k & q' & _ & Hr). injection Hr as ->. specialize (aw_vlt w Hw _ Hq). unfold vidof. cbn in *. lia.
Qed.

Lemma assigned_separate_iff : separate (assigned a b w) <-> go_map ob = ∅.
Proof.
  split.
  - intros Hs. apply map_eq. intros f. rewrite lookup_empty. destruct (go_map ob !! f) as [v|] eqn:Hf; [|done].
    assert (Hx : aw_owns (assigned a b w) a v = true).
    { apply (Hs a ob f); [|done]. destruct assigned_parts as (_ & _ & -> & _). by rewrite lookup_insert. }
    rewrite assigned_not_own with (f := f) in Hx; done.
  - intros He c o f v. destruct assigned_parts as (Hp & _ & -> & _). destruct (decide (c = a)) as [->|Hc].
    + rewrite lookup_insert. intros [= <-]. by rewrite He, lookup_empty.
    + rewrite lookup_insert_ne by done. intros Ho Hf. apply owns_true. apply (aw_map w Hw c o f v Ho) in Hf as (r & Hr & Hv & _).
      exists r. split; [|done]. rewrite Hp. apply elem_of_app. left. by apply elem_of_list_filter.
Qed.

(** Writing to a frame through one graph shows in the other. *)
Lemma set_data_shared c x f d v : (c = a /\ x = b \/ c = b /\ x = a) -> go_map ob !! f = Some v ->
  exists w2, aw_set_data c f d (assigned a b w) = (w2, [], Ret tt) /\ aw_frame_property w2 x f = Ret d.
Proof.
  intros Hcx Hf. destruct (assigned_get_vertex f v Hf) as [Ga Gb]. pose proof (assigned_known f v Hf) as (r & Hr & Hv & Hn).
  destruct (assigned_vrec b r Hr (not_eq_sym Hab)) as [Hvr _]. rewrite Hv in Hvr.
  assert (Gc : aw_get_vertex (assigned a b w) c f = Ret v) by (destruct Hcx as [[-> ->]|[-> ->]]; done).
  assert (Gx : aw_get_vertex (assigned a b w) x f = Ret v) by (destruct Hcx as [[-> ->]|[-> ->]]; done).
  unfold aw_set_data, cbind at 1, cread. rewrite Gc. unfold cbind, cread. rewrite Hvr. unfold cmodify. eexists. split; [done|].
  unfold aw_frame_property. change (aw_get_vertex (aw_set_verts _ ?w0) x f) with (aw_get_vertex w0 x f). rewrite Gx. cbn [obind].
  unfold aw_vrec in Hvr |- *. cbn [aw_verts aw_set_verts]. revert Hvr. generalize (aw_verts (assigned a b w)). induction l as [|y l IH]; [done|]. cbn.
  destruct (Nat.eqb (v_id (snd y)) v) eqn:Hy; cbn; rewrite Hy; [done|done].
Qed.

(** Changing a further is undefined. *)
Lemma assigned_add_edge_ub o t p vo vt : go_map ob !! o = Some vo -> go_map ob !! t = Some vt -> aw_contains_edge w b o t = Ret false ->
  snd (aw_add_edge d0 einv a o t p (assigned a b w)) = UB.
Proof.
  intros Ho Ht Hne. pose proof (sa_contains_edge _ _ _ _ assigned_same o t) as Hce. rewrite Hne in Hce.
  unfold aw_contains_edge in Hce. destruct (assigned_get_vertex o vo Ho) as [Go _], (assigned_get_vertex t vt Ht) as [Gt _]. rewrite Go, Gt in Hce. cbn in Hce.
  destruct (aw_find_edge (assigned a b w) vo vt) as [[e|]| | |] eqn:Hfe; cbn in Hce; try done.
  unfold aw_add_edge, cbind, aw_obj, cread. destruct assigned_parts as (_ & _ & Hobj & _). rewrite Hobj, lookup_insert, Ho, Ht. unfold cret. rewrite Hfe.
  unfold aw_boost_add. rewrite (assigned_not_own o vo Ho). done.
Qed.

Lemma assigned_remove_edge_ub o t : aw_contains_edge w b o t = Ret true -> aw_contains_edge w b t o = Ret true ->
  snd (aw_remove_edge a o t (assigned a b w)) = UB.
Proof.
  intros H1 H2. pose proof H1 as H1'. rewrite <- (sa_contains_edge _ _ _ _ assigned_same) in H1, H2. unfold aw_contains_edge in H1, H2, H1'.
  destruct (aw_get_vertex w b o) as [vo'| | |] eqn:Gwo; try done. cbn in H1'. unfold aw_get_vertex in Gwo. rewrite Hob in Gwo.
  destruct (go_map ob !! o) as [vo|] eqn:Ho; [|done]. injection Gwo as ->.
  destruct (aw_get_vertex w b t) as [vt'| | |] eqn:Gwt; try done. cbn in H1'. unfold aw_get_vertex in Gwt. rewrite Hob in Gwt.
  destruct (go_map ob !! t) as [vt|] eqn:Ht; [|done]. injection Gwt as ->.
  destruct (assigned_get_vertex o vo' Ho) as [Go _], (assigned_get_vertex t vt' Ht) as [Gt _]. rewrite Go, Gt in H1, H2. cbn in H1, H2.
  unfold aw_remove_edge, cbind, cread. rewrite Go, Gt.
  destruct (aw_find_edge (assigned a b w) vo' vt') as [[[c1 e1]|]| | |] eqn:F1; cbn in H1; try done.
  destruct (aw_find_edge (assigned a b w) vt' vo') as [[[c2 e2]|]| | |] eqn:F2; cbn in H2; try done.
  unfold aw_boost_remove. destruct (existsb _ _) eqn:Hex; [|done]. exfalso.
  apply existsb_exists in Hex as (e & He & Hid%Nat.eqb_eq). apply elem_of_list_In, elem_own_edges in He. cbn in Hid.
  apply assigned_known in Ho as (r & Hr & Hrv & _).
  rewrite <- Hrv in F1. rewrite (assigned_find_edge b r vt' Hr (not_eq_sym Hab)) in F1. unfold aw_find_edge in F1.
  destruct (aw_vrec w (v_id r)); [|done]. injection F1 as F1. apply find_some in F1 as [Hin _]. apply elem_of_list_In in Hin.
  specialize (aw_elt w Hw _ Hin). unfold eidof. cbn. destruct assigned_parts as (_ & Hp & _). rewrite Hp in He.
  apply elem_of_app in He as [[Hna _]%elem_of_list_filter|He]; [done|]. apply elem_imap in He as (k & q & _ & He). injection He as ->. cbn in Hid. lia.
Qed.

Lemma assigned_remove_frame f v : go_map ob !! f = Some v ->
  snd (aw_remove_frame a f (assigned a b w)) = UB \/ snd (aw_remove_frame a f (assigned a b w)) = Throw (XFrameStillConnected f).
Proof.
  intros Hf. destruct (assigned_get_vertex f v Hf) as [Ga _]. unfold aw_remove_frame, cbind, cread. rewrite Ga.
  destruct (aw_vrec _ v); [|by left]. destruct (existsb _ _); [by right|]. rewrite (assigned_not_own f v Hf). by left.
Qed.

(** b is destroyed first. *)
Lemma assigned_dangling f v : go_map ob !! f = Some v -> go_recv ob = [] ->
  exists w2, aw_destroy b (assigned a b w) = (w2, [], Ret tt) /\ aw_contains w2 a f = Ret true /\ aw_frame_property w2 a f = UB.
Proof.
  intros Hf Hr. destruct assigned_parts as (Hv & He & Ho & _). pose proof (assigned_known f v Hf) as (r & Hrin & Hrv & _).
  unfold aw_destroy, cbind, aw_obj, cread. rewrite Ho, lookup_insert_ne by done. rewrite Hob, Hr. cbn [length aw_release].
  rewrite Ho, lookup_insert_ne by done. rewrite Hob, Hr. cbn [last]. unfold cmodify. eexists. split; [done|]. split.
  - unfold aw_contains. cbn [aw_objs]. rewrite Ho, lookup_delete_ne, lookup_insert by done. rewrite Hf. done.
  - unfold aw_frame_property, aw_get_vertex. cbn [aw_objs]. rewrite Ho, lookup_delete_ne, lookup_insert by done. rewrite Hf. cbn [obind].
    destruct (aw_vrec _ v) as [[c q]|] eqn:Hq; [|done]. exfalso. unfold aw_vrec in Hq. apply find_some in Hq as [Hin Hid%Nat.eqb_eq].
    apply elem_of_list_In in Hin. cbn in Hin. apply elem_of_list_filter in Hin as [Hcb Hin]. cbn in *. rewrite Hv in Hin.
    apply elem_of_app in Hin as [[_ Hin]%elem_of_list_filter|Hin].
    + assert (Heq : (c, q) = (b, r)) by (apply (vid_inj w); try done; unfold vidof; cbn; congruence). congruence.
    + apply elem_imap in Hin as (k & q' & _ & Hin). injection Hin as -> ->. specialize (aw_vlt w Hw _ Hrin). unfold vidof. cbn in *. lia.
Qed.

(** Subscribers: those of b are told about a, those of a are not. *)
Lemma tell_all e l w0 : Forall (fun s => is_Some (aw_pubs w0 !! s)) l -> exists w1, aw_tell e l (w0 : aworld) = (w1, [], Ret tt) /\
  aw_told w1 = aw_told w0 ++ ((fun s => (s, e)) <$> l).
Proof.
  revert w0. induction l as [|s l IH]; intros w0 Hl; cbn; [exists w0; by rewrite app_nil_r|].
  apply list.Forall_cons in Hl as [[p ->] Hl]. destruct (IH (AWorld (aw_verts w0) (aw_edges w0) (aw_objs w0) (aw_pubs w0) (aw_nextv w0) (aw_nexte w0) (aw_told w0 ++ [(s, e)]))) as (w1 & -> & Ht); [done|].
  exists w1. split; [done|]. rewrite Ht. cbn. by rewrite <- app_assoc.
Qed.
Lemma tell_dead e l s w0 : s ∈ l -> aw_pubs w0 !! s = None -> snd (aw_tell e l (w0 : aworld)) = UB.
Proof.
  revert w0. induction l as [|x l IH]; intros w0 Hs Hn; [by apply elem_of_nil in Hs|]. cbn. destruct (aw_pubs w0 !! x) as [p|] eqn:Hp; [|done].
  apply elem_of_cons in Hs as [->|Hs]; [congruence|]. by apply IH.
Qed.

Lemma assigned_told f d : go_map ob !! f = None -> Forall (fun s => is_Some (aw_pubs w !! s)) (go_recv ob) ->
  exists w2, aw_emplace a f d (assigned a b w) = (w2, [], Ret tt) /\
    aw_told w2 = aw_told w ++ ((fun s => (s, EvFrameAdded f)) <$> go_recv ob).
Proof.
  intros Hf Hall. destruct assigned_parts as (Hv & He & Ho & Hp).
  assert (Htold : aw_told (assigned a b w) = aw_told w).
  { unfold assigned, aw_assign. rewrite Hoa, Hob. apply Nat.eqb_neq in Hab. by rewrite Hab. }
  unfold aw_emplace, cbind at 1, aw_obj, cread. rewrite Ho, lookup_insert, Hf. unfold cbind at 1, aw_add_vertex, cbind at 1, aw_obj, cread.
  rewrite Ho, lookup_insert, Hf. unfold cbind at 1. unfold cbind at 1, aw_notify, cbind at 1, aw_obj, cread. cbn [aw_objs]. rewrite lookup_insert. cbn [go_recv].
  match goal with |- context [aw_tell ?e ?l ?w0] => destruct (tell_all e l w0) as (w1 & Hw1 & Ht) end; [by cbn [aw_pubs]; rewrite Hp|].
  rewrite Hw1. unfold cret. exists w1. split; [done|]. rewrite Ht. cbn [aw_told]. by rewrite Htold.
Qed.

Lemma assigned_dead_sub s f d : go_map ob !! f = None -> s ∈ go_recv ob -> aw_pubs w !! s = Some (Some b) ->
  exists w2, aw_destroy_sub s (assigned a b w) = (w2, [], Ret tt) /\ snd (aw_emplace a f d w2) = UB.
Proof.
  intros Hf Hs Hp. destruct assigned_parts as (Hv & He & Ho & Hpub).
  unfold aw_destroy_sub, cbind, aw_unsubscribe. rewrite Hpub, Hp, Ho, lookup_insert_ne by done. rewrite Hob. unfold cmodify.
  eexists. split; [done|]. unfold aw_emplace, cbind, aw_obj, cread. cbn [aw_objs aw_set_pub aw_set_obj]. rewrite Ho, lookup_insert_ne by done.
  rewrite lookup_insert, Hf. unfold aw_add_vertex, cbind, aw_obj, cread. cbn [aw_objs aw_set_pub aw_set_obj]. rewrite ?Ho, ?(lookup_insert_ne (<[a:=ob]> _) b a) by done.
  rewrite ?lookup_insert, ?Hf. unfold aw_notify, cbind, aw_obj, cread. cbn [aw_objs]. rewrite lookup_insert. cbn [go_recv].
  match goal with |- context [aw_tell ?e ?l ?w0] => assert (Ht : snd (aw_tell e l w0) = UB);
    [apply (tell_dead e l s w0 Hs); cbn; by rewrite lookup_delete|destruct (aw_tell e l w0) as [[? ?] r0]] end.
  cbn in Ht. by subst r0.
Qed.

End assigned.

(** The same about programs. *)
Lemma assign_self w a : is_Some (aw_objs w !! a) -> aw_assign a a w = (w, [], Ret tt).
Proof. intros [o Ho]. unfold aw_assign. rewrite Ho. by rewrite Nat.eqb_refl. Qed.

Lemma assign_exact w a b oa ob : made d0 einv w -> aw_objs w !! a = Some oa -> aw_objs w !! b = Some ob -> a <> b ->
  (exists w', aw_assign a b w = (w', [], Ret tt) /\ separate w') <-> go_map ob = ∅.
Proof.
  intros Hw%made_awf Ha Hb Hab. rewrite <- (assigned_separate_iff w a b oa ob Hw Ha Hb Hab), (assign_eq w a b oa ob Ha Hb Hab). split.
  - by intros (w' & [= <-] & Hs).
  - intros Hs. by exists (assigned a b w).
Qed.

Lemma contains_map w b f : aw_contains w b f = Ret true -> exists o v, aw_objs w !! b = Some o /\ go_map o !! f = Some v.
Proof.
  unfold aw_contains. destruct (aw_objs w !! b) as [o|]; [|done]. intros [= H]. apply bool_decide_eq_true in H as [v Hv]. eauto.
Qed.
Lemma contains_not w b o f : aw_objs w !! b = Some o -> aw_contains w b f = Ret false -> go_map o !! f = None.
Proof.
  unfold aw_contains. intros ->. intros [= H]. apply bool_decide_eq_false in H. by apply eq_None_not_Some.
Qed.

Lemma assign_shared w a b c x f d : made d0 einv w -> is_Some (aw_objs w !! a) -> a <> b -> aw_contains w b f = Ret true ->
  (c = a /\ x = b \/ c = b /\ x = a) ->
  exists w1 w2, aw_assign a b w = (w1, [], Ret tt) /\ aw_set_data c f d w1 = (w2, [], Ret tt) /\ aw_frame_property w2 x f = Ret d.
Proof.
  intros Hw%made_awf [oa Ha] Hab (ob & v & Hb & Hf)%contains_map Hcx. exists (assigned a b w).
  destruct (set_data_shared w a b oa ob Hw Ha Hb Hab c x f d v Hcx Hf) as (w2 & H1 & H2). exists w2. split; [|done]. by apply (assign_eq w a b oa ob).
Qed.

Lemma assign_change w a b : made d0 einv w -> is_Some (aw_objs w !! a) -> is_Some (aw_objs w !! b) -> a <> b ->
  exists w1, aw_assign a b w = (w1, [], Ret tt) /\
    (forall o t p, aw_contains_edge w b o t = Ret false -> snd (aw_add_edge d0 einv a o t p w1) = UB) /\
    (forall o t, aw_contains_edge w b o t = Ret true -> aw_contains_edge w b t o = Ret true -> snd (aw_remove_edge a o t w1) = UB) /\
    (forall f, aw_contains w b f = Ret true ->
       snd (aw_remove_frame a f w1) = UB \/ snd (aw_remove_frame a f w1) = Throw (XFrameStillConnected f)).
Proof.
  intros Hw%made_awf [oa Ha] [ob Hb] Hab. exists (assigned a b w). split; [by apply (assign_eq w a b oa ob)|]. split_and!.
  - intros o t p Hne. pose proof Hne as Hne'. unfold aw_contains_edge, aw_get_vertex in Hne'. rewrite Hb in Hne'.
    destruct (go_map ob !! o) as [vo|] eqn:Ho; [|done]. destruct (go_map ob !! t) as [vt|] eqn:Ht; [|done].
    by apply (assigned_add_edge_ub w a b oa ob Hw Ha Hb Hab o t p vo vt).
  - intros o t. by apply (assigned_remove_edge_ub w a b oa ob).
  - intros f (ob' & v & Hb' & Hf)%contains_map. assert (ob' = ob) as -> by congruence. by apply (assigned_remove_frame w a b oa ob Hw Ha Hb Hab f v).
Qed.

Lemma assign_dangling w a b oa ob f : made d0 einv w -> aw_objs w !! a = Some oa -> aw_objs w !! b = Some ob -> a <> b -> go_recv ob = [] ->
  aw_contains w b f = Ret true ->
  exists w1 w2, aw_assign a b w = (w1, [], Ret tt) /\ aw_destroy b w1 = (w2, [], Ret tt) /\
    aw_contains w2 a f = Ret true /\ aw_frame_property w2 a f = UB.
Proof.
  intros Hw%made_awf Ha Hb Hab Hr (ob' & v & Hb' & Hf)%contains_map. assert (ob' = ob) as -> by congruence.
  destruct (assigned_dangling w a b oa ob Hw Ha Hb Hab f v Hf Hr) as (w2 & H2). exists (assigned a b w), w2. split; [|done]. by apply (assign_eq w a b oa ob).
Qed.

Lemma assign_told w a b oa ob f d : made d0 einv w -> aw_objs w !! a = Some oa -> aw_objs w !! b = Some ob -> a <> b ->
  aw_contains w b f = Ret false -> Forall (fun s => is_Some (aw_pubs w !! s)) (go_recv ob) ->
  exists w1 w2, aw_assign a b w = (w1, [], Ret tt) /\ aw_emplace a f d w1 = (w2, [], Ret tt) /\
    aw_told w2 = aw_told w ++ ((fun s => (s, EvFrameAdded f)) <$> go_recv ob).
Proof.
  intros Hw%made_awf Ha Hb Hab Hc Hs. pose proof (contains_not w b ob f Hb Hc) as Hf.
  destruct (assigned_told w a b oa ob Ha Hb Hab f d Hf Hs) as (w2 & H2). exists (assigned a b w), w2. split; [|done]. by apply (assign_eq w a b oa ob).
Qed.

Lemma assign_dead_sub w a b oa ob s f d : made d0 einv w -> aw_objs w !! a = Some oa -> aw_objs w !! b = Some ob -> a <> b ->
  aw_contains w b f = Ret false -> s ∈ go_recv ob -> aw_pubs w !! s = Some (Some b) ->
  exists w1 w2, aw_assign a b w = (w1, [], Ret tt) /\ aw_destroy_sub s w1 = (w2, [], Ret tt) /\ snd (aw_emplace a f d w2) = UB.
Proof.
  intros Hw%made_awf Ha Hb Hab Hc Hs Hp. pose proof (contains_not w b ob f Hb Hc) as Hf.
  destruct (assigned_dead_sub w a b oa ob Ha Hb Hab s f d Hf Hs Hp) as (w2 & H2). exists (assigned a b w), w2. split; [|done]. by apply (assign_eq w a b oa ob).
Qed.

End assign.
