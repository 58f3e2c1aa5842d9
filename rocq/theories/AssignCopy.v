(** The copy constructor in programs with several graphs. *)
From stdpp Require Import prelude strings gmap.
From Verif Require Import ListLib Outcome Digraph GraphModel GraphCopy AssignModel SpecAssign AssignThms AssignApart.

Section copy.
Context {D E : Type} (d0 : D) (einv : E -> E).
Local Notation aworld := (aworld D E).
Implicit Types w : aworld.

(** The counters of a graph object count its vertices and edges. *)
Definition cnt w : Prop := forall c o, aw_objs w !! c = Some o -> go_nv o = length (aw_own_verts w c) /\ go_ne o = length (aw_own_edges w c).
Definition counts {A} (m : call aworld A) : Prop := forall w, awf w -> cnt w -> cnt (fst (fst (m w))).

Lemma counts_bind {A B} (m : call aworld A) (k : A -> call aworld B) : keeps m -> counts m -> (forall x, counts (k x)) -> counts (cbind m k).
Proof.
  intros Hkm Hm Hk w Hw Hc. unfold cbind. specialize (Hm w Hw Hc). specialize (Hkm w Hw). destruct (m w) as [[w1 e1] [x| | |]]; try done.
  specialize (Hk x w1 Hkm Hm). by destruct (k x w1) as [[? ?] ?].
Qed.
Lemma counts_at {A B} (m : call aworld A) (k : A -> call aworld B) w : cnt (fst (fst (m w))) ->
  (forall w1 e x, m w = (w1, e, Ret x) -> cnt w1 -> cnt (fst (fst (k x w1)))) -> cnt (fst (fst (cbind m k w))).
Proof.
  intros Hm Hk. unfold cbind. destruct (m w) as [[w1 e1] [x| | |]] eqn:Hmw; try done.
  specialize (Hk w1 e1 x eq_refl Hm). by destruct (k x w1) as [[? ?] ?].
Qed.
Lemma counts_read {A} (f : aworld -> outcome A) : counts (cread f).
Proof. by intros w Hw. Qed.
Lemma counts_ret {A} (x : A) : counts (cret x).
Proof. by intros w Hw. Qed.
Local Ltac kr := first [apply keeps_read | apply keeps_ret].
Local Ltac cr := first [apply counts_read | apply counts_ret].

Lemma obj_at w a w1 e o : aw_obj a w = (w1, e, Ret o) -> w1 = w /\ aw_objs w !! a = Some o.
Proof. unfold aw_obj, cread. destruct (aw_objs w !! a); [|done]. by intros [= <- _ ->]. Qed.

Lemma cnt_tell e l w : cnt w -> cnt (fst (fst (aw_tell e l w))).
Proof. revert w. induction l as [|s l IH]; intros w Hc; [done|]. cbn. destruct (aw_pubs w !! s); [|done]. by apply IH. Qed.
Lemma cnt_notify a e w : cnt w -> cnt (fst (fst (aw_notify a e w))).
Proof. intros Hc. unfold aw_notify. apply counts_at; [done|]. intros w1 e1 o _ Hc1. by apply cnt_tell. Qed.

Lemma counts_add_vertex a f d : counts (aw_add_vertex a f d).
Proof.
  intros w Hw Hc. unfold aw_add_vertex. apply counts_at; [done|]. intros w1 e1 o [-> Ho]%obj_at _. apply counts_at.
  - destruct (go_map o !! f) as [v|]; [done|]. intros c q. unfold aw_own_verts, aw_own_edges. cbn [fst aw_verts aw_edges aw_objs]. rewrite filter_app, fmap_app, app_length.
    destruct (decide (c = a)) as [->|Hca].
    + rewrite lookup_insert. intros [= <-]. destruct (Hc a o Ho) as [H1 H2]. rewrite filter_cons_True by done. cbn. unfold aw_own_verts in H1. split; [lia|done].
    + rewrite lookup_insert_ne by done. rewrite filter_cons_False by (cbn; congruence). cbn. rewrite Nat.add_0_r. apply Hc.
  - intros w2 e2 v _ Hc2. apply counts_at; [by apply cnt_notify|done].
Qed.
Lemma counts_emplace a f d : counts (aw_emplace a f d).
Proof.
  apply counts_bind; [kr|cr|]. intros o. destruct (go_map o !! f); [cr|]. apply counts_bind; [apply keeps_add_vertex|apply counts_add_vertex|]. intros _. cr.
Qed.

Lemma filter_fmap_length {A} (g : A -> A) (P : A -> Prop) `{forall x, Decision (P x)} (l : list A) :
  (forall x, P (g x) <-> P x) -> length (filter P (g <$> l)) = length (filter P l).
Proof.
  intros Hg. induction l as [|x l IH]; [done|]. cbn [fmap list_fmap]. rewrite !filter_cons. fold (fmap g l). specialize (Hg x).
  destruct (decide (P (g x))), (decide (P x)); try tauto; cbn; by rewrite IH.
Qed.
Lemma counts_set_data a f d : counts (aw_set_data a f d).
Proof.
  apply counts_bind; [kr|cr|]. intros v. apply counts_bind; [kr|cr|]. intros _ w Hw Hc c o Ho. unfold aw_own_verts. cbn. cbn in Ho.
  destruct (Hc c o Ho) as [H1 H2]. split; [|done]. rewrite H1. unfold aw_own_verts. rewrite !fmap_length. rewrite filter_fmap_length; [done|].
  intros x. by destruct (Nat.eqb _ _).
Qed.
Lemma counts_set_edge i p : counts (cmodify (aw_set_edge i p)).
Proof.
  intros w Hw Hc c o Ho. cbn in Ho. destruct (Hc c o Ho) as [H1 H2]. split; [done|]. rewrite H2. unfold aw_own_edges. cbn. rewrite !fmap_length. rewrite filter_fmap_length; [done|].
  intros x. by destruct (Nat.eqb _ _).
Qed.
Lemma counts_boost_add a u v p : counts (aw_boost_add a u v p).
Proof.
  intros w Hw Hc. unfold aw_boost_add. destruct (_ && _); [|done]. destruct (aw_objs w !! a) as [o|] eqn:Ho; [|done].
  intros c q. unfold aw_own_verts, aw_own_edges. cbn [fst aw_verts aw_edges aw_objs]. rewrite filter_app, fmap_app, app_length.
  destruct (decide (c = a)) as [->|Hca].
  - rewrite lookup_insert. intros [= <-]. destruct (Hc a o Ho) as [H1 H2]. rewrite filter_cons_True by done. cbn. unfold aw_own_edges in H2. split; [done|lia].
  - rewrite lookup_insert_ne by done. rewrite filter_cons_False by (cbn; congruence). cbn. rewrite Nat.add_0_r. apply Hc.
Qed.
Lemma counts_notify a e : counts (aw_notify a e).
Proof. intros w _. apply cnt_notify. Qed.
Lemma counts_add_edge a o t p : counts (aw_add_edge d0 einv a o t p).
Proof.
  apply counts_bind; [kr|cr|]. intros g.
  apply counts_bind; [destruct (go_map g !! o); [kr|apply keeps_add_vertex]|destruct (go_map g !! o); [cr|apply counts_add_vertex]|]. intros vo.
  apply counts_bind; [destruct (go_map g !! t); [kr|apply keeps_add_vertex]|destruct (go_map g !! t); [cr|apply counts_add_vertex]|]. intros vt.
  apply counts_bind; [kr|cr|]. intros [e|].
  - do 2 (apply counts_bind; [kr|cr|intros ?]). cr.
  - do 2 (apply counts_bind; [apply keeps_boost_add|apply counts_boost_add|intros ?]). do 2 (apply counts_bind; [kr|cr|intros ?]). apply counts_notify.
Qed.
Lemma counts_set_prop a o t p : counts (aw_set_prop einv a o t p).
Proof.
  do 3 (apply counts_bind; [kr|cr|intros ?]). destruct x1 as [e1|]; [|do 2 (apply counts_bind; [kr|cr|intros ?]); cr].
  apply counts_bind; [apply keeps_set_edge|apply counts_set_edge|]. intros _. apply counts_bind; [kr|cr|]. intros [e2|]; [|cr].
  apply counts_bind; [apply keeps_set_edge|apply counts_set_edge|]. intros _. do 2 (apply counts_bind; [kr|cr|intros ?]). apply counts_notify.
Qed.

Lemma filter_one {B} (h : B -> nat) (c : agid) (l : list (agid * B)) x i : NoDup ((fun r => h (snd r)) <$> l) -> x ∈ l -> h (snd x) = i ->
  length (filter (fun r => fst r = c) (filter (fun r => h (snd r) <> i) l)) = length (filter (fun r => fst r = c) l) - (if decide (fst x = c) then 1 else 0).
Proof.
  induction l as [|y l IH]; [by intros _ ?%elem_of_nil|]. cbn [fmap list_fmap]. intros [Hy Hnd]%NoDup_cons [->|Hx]%elem_of_cons Hi.
  - rewrite filter_cons_False by (intros Hf; by apply Hf). assert (Hl : filter (fun r => h (snd r) <> i) l = l).
    { clear -Hy Hi. subst i. induction l as [|z l IH]; [done|]. rewrite filter_cons_True.
      - f_equal. apply IH. intros H. apply Hy. by right.
      - intros Hz. apply Hy. rewrite <- Hz. by left. }
    rewrite Hl, filter_cons. destruct (decide _); cbn; lia.
  - assert (Hne : h (snd y) <> i). { intros <-. apply Hy. rewrite <- Hi. apply elem_of_list_fmap. eauto. }
    rewrite filter_cons_True by done. rewrite !filter_cons. specialize (IH Hnd Hx Hi).
    assert (Hlen : (if decide (fst x = c) then 1 else 0) <= length (filter (fun r => fst r = c) l)).
    { destruct (decide _) as [Hc|]; [|lia]. assert (Hin : x ∈ filter (fun r => fst r = c) l) by (by apply elem_of_list_filter). destruct (filter (fun r => fst r = c) l) as [|z l']; [by apply elem_of_nil in Hin|]. cbn. lia. }
    destruct (decide (fst y = c)); cbn [length]; rewrite IH; lia.
Qed.

Lemma counts_boost_remove a i : counts (aw_boost_remove a i).
Proof.
  intros w Hw Hc. unfold aw_boost_remove. destruct (existsb _ _) eqn:Hex; [|done]. destruct (aw_objs w !! a) as [o|] eqn:Ho; [|done].
  apply existsb_exists in Hex as (e & He & Hid%Nat.eqb_eq). apply elem_of_list_In, elem_own_edges in He.
  intros c q. cbn. intros Hq.
  assert (Hlen : length (aw_own_edges (aw_set_edges (filter (fun e => e_id (snd e) <> i) (aw_edges w)) w) c) = length (aw_own_edges w c) - (if decide (a = c) then 1 else 0)).
  { unfold aw_own_edges. cbn. rewrite !fmap_length. apply (filter_one e_id c (aw_edges w) (a, e) i (aw_end w Hw) He Hid). }
  destruct (decide (c = a)) as [->|Hca].
  - rewrite lookup_insert in Hq. injection Hq as <-. cbn. destruct (Hc a o Ho) as [H1 H2]. split; [done|].
    etrans; [|symmetry; exact Hlen]. rewrite decide_True by done. lia.
  - rewrite lookup_insert_ne in Hq by done. destruct (Hc c q Hq) as [H1 H2]. split; [done|]. etrans; [|symmetry; exact Hlen]. rewrite decide_False by done. lia.
Qed.
Lemma counts_remove_edge a o t : counts (aw_remove_edge a o t).
Proof.
  do 4 (apply counts_bind; [kr|cr|intros ?]). destruct x1 as [e1|], x2 as [e2|]; try cr.
  apply counts_bind; [apply keeps_boost_remove|apply counts_boost_remove|]. intros _. apply counts_bind; [apply keeps_notify|apply counts_notify|]. intros _. apply counts_boost_remove.
Qed.
Lemma counts_remove_frame a f : counts (aw_remove_frame a f).
Proof.
  do 2 (apply counts_bind; [kr|cr|intros ?]). intros w Hw Hc. apply counts_at; [by destruct (aw_owns _ _ _)|]. intros w1 e1 [] H1 _.
  destruct (aw_owns w a x) eqn:Hown; [|done]. injection H1 as <- _. apply counts_at; [done|]. intros w2 e2 o [-> Ho]%obj_at _.
  apply counts_at; [|intros w3 e3 [] _ Hc3; by apply cnt_notify]. apply owns_true in Hown as (r & Hr & Hv).
  intros c q. cbn. intros Hq.
  assert (Hlen : length (aw_own_verts (aw_set_verts (filter (fun e => v_id (snd e) <> x) (aw_verts w)) w) c) = length (aw_own_verts w c) - (if decide (a = c) then 1 else 0)).
  { unfold aw_own_verts. cbn. rewrite !fmap_length. apply (filter_one v_id c (aw_verts w) (a, r) x (aw_vnd w Hw) Hr Hv). }
  destruct (decide (c = a)) as [->|Hca].
  - rewrite lookup_insert in Hq. injection Hq as <-. cbn. destruct (Hc a o Ho) as [H1 H2]. split; [|done].
    etrans; [|symmetry; exact Hlen]. rewrite decide_True by done. lia.
  - rewrite lookup_insert_ne in Hq by done. destruct (Hc c q Hq) as [H1 H2]. split; [|done]. etrans; [|symmetry; exact Hlen]. rewrite decide_False by done. lia.
Qed.

Lemma own_none w a : awf w -> aw_objs w !! a = None -> filter (fun r => fst r = a) (aw_verts w) = [] /\ filter (fun r => fst r = a) (aw_edges w) = [].
Proof.
  intros Hw Ha. assert (Hv : forall r, (a, r) ∈ aw_verts w -> False).
  { intros r Hr. apply (aw_vob w Hw) in Hr as [? Hr]. cbn in Hr. congruence. }
  split.
  - destruct (filter _ _) as [|[x r] l] eqn:Hf; [done|]. assert (Hin : (x, r) ∈ filter (fun r => fst r = a) (aw_verts w)) by (rewrite Hf; by left).
    apply elem_of_list_filter in Hin as [Hx Hin]. cbn in Hx. subst x. by apply Hv in Hin.
  - destruct (filter _ _) as [|[x r] l] eqn:Hf; [done|]. assert (Hin : (x, r) ∈ filter (fun r => fst r = a) (aw_edges w)) by (rewrite Hf; by left).
    apply elem_of_list_filter in Hin as [Hx Hin]. cbn in Hx. subst x. destruct (aw_own w Hw a r Hin) as ((q & Hq & _) & _). by apply Hv in Hq.
Qed.

Lemma cnt_ext w w' : aw_verts w' = aw_verts w -> aw_edges w' = aw_edges w ->
  (forall c o, aw_objs w' !! c = Some o -> exists o', aw_objs w !! c = Some o' /\ go_nv o' = go_nv o /\ go_ne o' = go_ne o) -> cnt w -> cnt w'.
Proof.
  intros Hv He Ho Hc c o (o' & Ho' & <- & <-)%Ho. unfold aw_own_verts, aw_own_edges. rewrite Hv, He. by apply Hc.
Qed.

Lemma counts_new a : counts (aw_new a).
Proof.
  intros w Hw Hc. unfold aw_new. destruct (aw_objs w !! a) as [o|] eqn:Ho; [done|]. intros c q. unfold aw_own_verts, aw_own_edges. cbn.
  destruct (decide (c = a)) as [->|Hca]; [|rewrite lookup_insert_ne by done; apply Hc]. rewrite lookup_insert. intros [= <-].
  destruct (own_none w a Hw Ho) as [-> ->]. done.
Qed.
Lemma filter_mine {B C} (g : nat -> B -> agid * C) a (l : list B) : (forall k x, fst (g k x) = a) -> filter (fun r => fst r = a) (imap g l) = imap g l.
Proof.
  revert g. induction l as [|x l IH]; intros g Hg; [done|]. cbn [imap]. rewrite filter_cons_True by apply Hg. f_equal. apply IH. intros. apply Hg.
Qed.
Lemma filter_other {B C} (g : nat -> B -> agid * C) a c (l : list B) : a <> c -> (forall k x, fst (g k x) = a) -> filter (fun r => fst r = c) (imap g l) = [].
Proof.
  intros Hac. revert g. induction l as [|x l IH]; intros g Hg; [done|]. cbn [imap]. rewrite filter_cons_False by (rewrite Hg; done). apply IH. intros. apply Hg.
Qed.

Lemma copy_parts w a b o : awf w -> aw_objs w !! a = None -> aw_objs w !! b = Some o -> forall w', aw_copy a b w = (w', [], Ret tt) ->
  aw_own_verts w' a = imap (fun k r => VRec (aw_nextv w + k) k (v_name r) (v_data r)) (aw_own_verts w b) /\
  aw_own_edges w' a = imap (fun k e => ERec (aw_nexte w + k) (aw_nextv w + position (e_src e) (aw_own_verts w b))
                         (aw_nextv w + position (e_tgt e) (aw_own_verts w b)) (e_prop e)) (aw_own_edges w b) /\
  (exists o', aw_objs w' !! a = Some o' /\ go_nv o' = length (aw_own_verts w b) /\ go_ne o' = length (aw_own_edges w b)) /\
  (forall c, c <> a -> aw_own_verts w' c = aw_own_verts w c /\ aw_own_edges w' c = aw_own_edges w c /\ aw_objs w' !! c = aw_objs w !! c).
Proof.
  intros Hw Ha Hb w'. unfold aw_copy. rewrite Ha, Hb. destruct (forallb _ _); [|done]. intros [= <-].
  destruct (own_none w a Hw Ha) as [Hv He]. unfold aw_own_verts at 1, aw_own_edges at 1. cbn [aw_verts aw_edges aw_objs]. rewrite !filter_app, Hv, He.
  unfold aw_copy_edges. rewrite !filter_mine by done. cbn [app]. split_and!.
  - apply list_eq. intros k. rewrite list_lookup_fmap, !list_lookup_imap. by destruct (_ !! k).
  - apply list_eq. intros k. rewrite list_lookup_fmap, !list_lookup_imap. by destruct (_ !! k).
  - rewrite lookup_insert. eexists. split; [done|]. cbn. by rewrite !imap_length.
  - intros c Hc. unfold aw_own_verts, aw_own_edges. cbn. rewrite !filter_app. rewrite !(filter_other _ a c) by done. rewrite !app_nil_r. by rewrite lookup_insert_ne.
Qed.

Lemma counts_copy a b : counts (aw_copy a b).
Proof.
  intros w Hw Hc. destruct (aw_objs w !! a) as [oa|] eqn:Ha; [unfold aw_copy; by rewrite Ha|]. destruct (aw_objs w !! b) as [o|] eqn:Hb; [|unfold aw_copy; by rewrite Ha, Hb].
  destruct (aw_copy a b w) as [[w' e] r] eqn:Hcp. destruct r as [[]| | |]; [|unfold aw_copy in Hcp; rewrite Ha, Hb in Hcp; destruct (forallb _ _); [done|]; by injection Hcp as <- _ ..].
  assert (e = []) as -> by (unfold aw_copy in Hcp; rewrite Ha, Hb in Hcp; destruct (forallb _ _); [by injection Hcp|done]).
  destruct (copy_parts w a b o Hw Ha Hb w' Hcp) as (Hv & He & (o' & Ho' & H1 & H2) & Hoth). cbn. intros c q Hq. destruct (decide (c = a)) as [->|Hca].
  - assert (q = o') as -> by congruence. rewrite Hv, He, !imap_length. done.
  - destruct (Hoth c Hca) as (-> & -> & Hqo). rewrite Hqo in Hq. by apply Hc.
Qed.

Lemma counts_unsubscribe s : counts (aw_unsubscribe s).
Proof.
  intros w Hw Hc. unfold aw_unsubscribe. destruct (aw_pubs w !! s) as [[a|]|]; try done. destruct (aw_objs w !! a) as [o|] eqn:Ho; [|done].
  apply (cnt_ext w); try done. intros c q. cbn. destruct (decide (c = a)) as [->|Hca]; [rewrite lookup_insert; intros [= <-]; by exists o|].
  rewrite lookup_insert_ne by done. intros Hq. by exists q.
Qed.
Lemma counts_subscribe s a : counts (aw_subscribe s a).
Proof.
  assert (Hk : counts (o <-- aw_obj a ;; cmodify (fun w : aworld => aw_set_pub s (Some a) (aw_set_obj a (GObj (go_map o) (go_maxvi o) (go_nv o) (go_ne o) (go_recv o ++ [s])) w)))).
  { intros w Hw Hc. unfold cbind, aw_obj, cread, cmodify. destruct (aw_objs w !! a) as [o|] eqn:Ho; [|done].
    apply (cnt_ext w); try done. intros c q. cbn. destruct (decide (c = a)) as [->|Hca]; [rewrite lookup_insert; intros [= <-]; by exists o|].
    rewrite lookup_insert_ne by done. intros Hq. by exists q. }
  intros w Hw. unfold aw_subscribe. destruct (aw_pubs w !! s).
  - by apply (counts_bind (aw_unsubscribe s) (fun _ => _) (keeps_unsubscribe s) (counts_unsubscribe s) (fun _ => Hk)).
  - by apply (counts_bind (cret tt) (fun _ => _) (keeps_ret tt) (counts_ret tt) (fun _ => Hk)).
Qed.
Lemma counts_destroy_sub s : counts (aw_destroy_sub s).
Proof. apply counts_bind; [apply keeps_unsubscribe|apply counts_unsubscribe|]. intros _ w Hw Hc. apply (cnt_ext w); try done. intros c o Ho. by exists o. Qed.
Lemma counts_release n a : counts (aw_release n a).
Proof.
  induction n as [|n IH]; intros w Hw Hc; cbn [aw_release]; destruct (aw_objs w !! a) as [o|]; try done; destruct (last (go_recv o)) as [s|]; try done.
  revert w Hw Hc. match goal with |- forall w0, awf w0 -> cnt w0 -> cnt (fst (fst (?m w0))) => change (counts m) end.
  apply counts_bind; [apply keeps_unsubscribe|apply counts_unsubscribe|]. intros _ w1 Hw1 Hc1. apply counts_at; [done|]. intros w2 e2 o' [-> Ho]%obj_at _.
  destruct (go_recv o') as [|x l]; [done|]. apply counts_at.
  - apply (cnt_ext w1); try done. intros c q. cbn. destruct (decide (c = a)) as [->|Hca]; [rewrite lookup_insert; intros [= <-]; by exists o'|].
    rewrite lookup_insert_ne by done. intros Hq. by exists q.
  - intros w3 e3 [] H3 Hc3. injection H3 as <- _. apply IH; [|done]. by apply (awf_set_obj w1 a o').
Qed.
Lemma counts_destroy a : counts (aw_destroy a).
Proof.
  apply counts_bind; [kr|cr|]. intros o. apply counts_bind; [apply keeps_release|apply counts_release|]. intros _ w Hw Hc.
  intros c q. unfold aw_own_verts, aw_own_edges. cbn. intros [Hca Hq]%lookup_delete_Some. rewrite !filter_filter_same by (intros x _ -> ?; congruence). by apply Hc.
Qed.

Lemma counts_step op : no_assign op -> counts (awstep d0 einv op).
Proof.
  destruct op; cbn; intros H; try done.
  - apply counts_new.
  - apply counts_copy.
  - apply counts_destroy.
  - apply counts_emplace.
  - apply counts_set_data.
  - apply counts_add_edge.
  - apply counts_set_prop.
  - apply counts_remove_edge.
  - apply counts_remove_frame.
  - apply counts_subscribe.
  - apply counts_destroy_sub.
Qed.
Lemma counts_run p w : Forall no_assign p -> awf w -> cnt w -> cnt (fst (fst (awrun d0 einv p w))).
Proof.
  revert w. induction p as [|op p IH]; intros w Hp Hw Hc; [done|]. apply Forall_cons in Hp as [Hop Hp]. cbn. pose proof (counts_step op Hop w Hw Hc) as Hs.
  pose proof (keeps_step d0 einv op Hop w Hw) as Hk. destruct (awstep d0 einv op w) as [[w1 e1] r1]. cbn in Hs, Hk. destruct r1; try done; by apply IH.
Qed.
Lemma made_cnt w : made d0 einv w -> cnt w.
Proof. intros (p & Hp & <- & _). apply counts_run; [done|apply awf_empty|]. by intros c o. Qed.

(** The copy answers like the original. *)
Lemma find_imap {A B C} (p : A -> bool) (p' : B -> bool) (g : nat -> A -> B) (h : A -> C) (h' : B -> C) (l : list A) :
  (forall k x, x ∈ l -> p' (g k x) = p x /\ h' (g k x) = h x) -> h' <$> find p' (imap g l) = h <$> find p l.
Proof.
  revert g. induction l as [|x l IH]; intros g Hg; [done|]. cbn. destruct (Hg 0 x ltac:(by left)) as [-> Hh]. destruct (p x); [cbn; by rewrite Hh|].
  apply IH. intros k y Hy. apply Hg. by right.
Qed.

Theorem copy_same w a b w' : made d0 einv w -> aw_copy a b w = (w', [], Ret tt) -> same_answers w' a w b.
Proof.
  intros Hm Hcp. pose proof (made_awf d0 einv w Hm) as Hw. pose proof (made_cnt w Hm) as Hcnt.
  destruct (aw_objs w !! a) as [oa|] eqn:Ha; [unfold aw_copy in Hcp; by rewrite Ha in Hcp|]. destruct (aw_objs w !! b) as [o|] eqn:Hb; [|unfold aw_copy in Hcp; by rewrite Ha, Hb in Hcp].
  destruct (copy_parts w a b o Hw Ha Hb w' Hcp) as (Hv & He & (o' & Ho' & Hnv & Hne) & _).
  assert (Hw' : awf w') by (pose proof (keeps_copy a b w Hw) as Hk; by rewrite Hcp in Hk).
  assert (Hget : forall f v, aw_get_vertex w b f = Ret v -> exists k q, aw_own_verts w b !! k = Some q /\ v_id q = v /\ v_name q = f /\ aw_get_vertex w' a f = Ret (aw_nextv w + k)).
  { intros f v Hg. unfold aw_get_vertex in Hg. rewrite Hb in Hg. destruct (go_map o !! f) as [v'|] eqn:Hf; [|done]. injection Hg as ->.
    apply (aw_map w Hw b o f v Hb) in Hf as (q & Hq & Hqv & Hqn). apply elem_own_verts, elem_of_list_lookup in Hq as [k Hk]. exists k, q. split_and!; try done.
    unfold aw_get_vertex. rewrite Ho'. assert (Hx : go_map o' !! f = Some (aw_nextv w + k)).
    { apply (aw_map w' Hw' a o' f _ Ho'). eexists. rewrite <- elem_own_verts, Hv. split; [apply elem_imap; by exists k, q|done]. }
    by rewrite (Hx : lookup (A:=vid) f (go_map o') = Some _). }
  assert (Hnone : forall f, (forall v, aw_get_vertex w b f <> Ret v) -> aw_get_vertex w b f = Throw (XUnknownFrame f) /\ aw_get_vertex w' a f = Throw (XUnknownFrame f)).
  { intros f Hn. unfold aw_get_vertex in *. rewrite Hb in Hn |- *. rewrite Ho'. destruct (go_map o !! f) as [v|] eqn:Hf; [by destruct (Hn v)|]. split; [done|].
    destruct (go_map o' !! f) as [v|] eqn:Hf'; [|done]. exfalso. apply (aw_map w' Hw' a o' f v Ho') in Hf' as (r & Hr & _ & Hn').
    apply elem_own_verts in Hr. rewrite Hv in Hr. apply elem_imap in Hr as (k & q & Hk & ->). cbn in Hn'.
    assert (Hx : go_map o !! f = Some (v_id q)) by (apply (aw_map w Hw b o f _ Hb); exists q; split; [apply elem_own_verts; by eapply elem_of_list_lookup_2|done]). congruence. }
  assert (Hcase : forall f, (exists v, aw_get_vertex w b f = Ret v) \/ (forall v, aw_get_vertex w b f <> Ret v)).
  { intros f. destruct (aw_get_vertex w b f) as [v| | |]; [left; by exists v|right; done..]. }
  assert (Hold : forall k q, aw_own_verts w b !! k = Some q -> aw_vrec w (v_id q) = Some (b, q)).
  { intros k q Hk. apply vrec_Some; [done|]. split; [|done]. apply elem_own_verts. by eapply elem_of_list_lookup_2. }
  assert (Hnewin : forall k q, aw_own_verts w b !! k = Some q -> (a, VRec (aw_nextv w + k) k (v_name q) (v_data q)) ∈ aw_verts w').
  { intros k q Hk. apply elem_own_verts. rewrite Hv. apply elem_imap. by exists k, q. }
  assert (Hnew : forall k q, aw_own_verts w b !! k = Some q -> aw_vrec w' (aw_nextv w + k) = Some (a, VRec (aw_nextv w + k) k (v_name q) (v_data q))).
  { intros k q Hk. apply vrec_Some; [done|]. split; [by apply Hnewin|done]. }
  assert (Hfe : forall k q k1 q1, aw_own_verts w b !! k = Some q -> aw_own_verts w b !! k1 = Some q1 -> exists e e', aw_find_edge w (v_id q) (v_id q1) = Ret e /\
    aw_find_edge w' (aw_nextv w + k) (aw_nextv w + k1) = Ret e' /\ e_prop <$> (snd <$> e') = e_prop <$> (snd <$> e)).
  { intros k q k1 q1 Hk Hk1. destruct (find_edge_part b w q (v_id q1) Hw) as (e & H1 & H2); [apply elem_own_verts; by eapply elem_of_list_lookup_2|].
    destruct (find_edge_part a w' _ (aw_nextv w + k1) Hw' (Hnewin k q Hk)) as (e' & H3 & H4). cbn in H3. exists e, e'. split_and!; try done. rewrite H2, H4, He. apply find_imap.
    intros j x Hx. cbn. split; [|done]. apply elem_own_edges in Hx. destruct (aw_own w Hw b x Hx) as ((r & Hr & Hrs) & (r1 & Hr1 & Hrs1)).
    assert (Hp : forall i r0 j q0, i = v_id r0 -> (b, r0) ∈ aw_verts w -> aw_own_verts w b !! j = Some q0 ->
      Nat.eqb (aw_nextv w + position i (aw_own_verts w b)) (aw_nextv w + j) = Nat.eqb i (v_id q0)).
    { intros i r0 j0 q0 -> Hr0 Hj0. apply elem_own_verts in Hr0. assert (Hin : v_id r0 ∈ v_id <$> aw_own_verts w b) by (apply elem_of_list_fmap; eauto).
      destruct (position_lookup _ _ Hin) as (r' & Hr' & Hid). pose proof (own_vids_nodup w b Hw) as Hnd.
      destruct (Nat.eqb_spec (v_id r0) (v_id q0)) as [Heq|Hneq].
      - apply Nat.eqb_eq. f_equal. eapply NoDup_lookup; [exact Hnd| |]; rewrite list_lookup_fmap; [by rewrite Hr'|]. rewrite Hj0. cbn. f_equal. congruence.
      - apply Nat.eqb_neq. intros Hpos. assert (Hpj : position (v_id r0) (aw_own_verts w b) = j0) by lia. rewrite Hpj in Hr'. congruence. }
    by rewrite (Hp _ r k q (eq_sym Hrs) Hr Hk), (Hp _ r1 k1 q1 (eq_sym Hrs1) Hr1 Hk1). }
  split.
  - intros f. unfold aw_contains. rewrite Ho', Hb. f_equal. destruct (Hcase f) as [[v Hg]|Hn].
    + pose proof Hg as (k & q & _ & _ & _ & Hg')%Hget. unfold aw_get_vertex in Hg, Hg'. rewrite Hb in Hg. rewrite Ho' in Hg'.
      by destruct (go_map o !! f), (go_map o' !! f).
    + apply Hnone in Hn as [Hg Hg']. unfold aw_get_vertex in Hg, Hg'. rewrite Hb in Hg. rewrite Ho' in Hg'. by destruct (go_map o !! f), (go_map o' !! f).
  - intros f. unfold aw_frame_property. destruct (Hcase f) as [[v Hg]|Hn].
    + pose proof Hg as (k & q & Hk & <- & _ & Hg')%Hget. rewrite Hg, Hg'. cbn. by rewrite (Hnew k q Hk), (Hold k q Hk).
    + by apply Hnone in Hn as [-> ->].
  - intros f t. unfold aw_contains_edge. destruct (Hcase f) as [[v Hg]|Hn]; [|by apply Hnone in Hn as [-> ->]].
    pose proof Hg as (k & q & Hk & <- & _ & Hg')%Hget. rewrite Hg, Hg'. cbn. destruct (Hcase t) as [[v1 Hg1]|Hn]; [|by apply Hnone in Hn as [-> ->]].
    pose proof Hg1 as (k1 & q1 & Hk1 & <- & _ & Hg1')%Hget. rewrite Hg1, Hg1'. cbn. destruct (Hfe k q k1 q1 Hk Hk1) as (e & e' & -> & -> & Hs). cbn. f_equal. by destruct e, e'.
  - intros f t. unfold aw_edge_property. destruct (Hcase f) as [[v Hg]|Hn]; [|by apply Hnone in Hn as [-> ->]].
    pose proof Hg as (k & q & Hk & <- & _ & Hg')%Hget. rewrite Hg, Hg'. cbn. destruct (Hcase t) as [[v1 Hg1]|Hn]; [|by apply Hnone in Hn as [-> ->]].
    pose proof Hg1 as (k1 & q1 & Hk1 & <- & _ & Hg1')%Hget. rewrite Hg1, Hg1'. cbn. destruct (Hfe k q k1 q1 Hk Hk1) as (e & e' & -> & -> & Hs). cbn.
    destruct e, e'; try done; [cbn in Hs; congruence|]. unfold aw_frame_id. by rewrite (Hnew k q Hk), (Hnew k1 q1 Hk1), (Hold k q Hk), (Hold k1 q1 Hk1).
  - unfold aw_num_vertices. rewrite Ho', Hb, Hnv. f_equal. symmetry. by apply Hcnt.
  - unfold aw_num_edges. rewrite Ho', Hb, Hne. f_equal. symmetry. by apply Hcnt.
Qed.

End copy.
