(** Proofs about access objects. *)
From stdpp Require Import prelude gmap.
From Verif Require Import AccessModel SpecAccess.

Definition img (m : gmap avar nat) : gset nat := list_to_set (map_to_list m).*2.
Definition oset (o : option nat) : gset nat := match o with Some g => {[g]} | None => ∅ end.

Lemma elem_img m g : g ∈ img m <-> exists x, m !! x = Some g.
Proof.
  unfold img. rewrite elem_of_list_to_set, elem_of_list_fmap. split.
  - intros ([x h] & -> & H%elem_of_map_to_list). by exists x.
  - intros [x H]. exists (x, g). split; [done|]. by apply elem_of_map_to_list.
Qed.

Lemma shared_img m g : shared m g = bool_decide (g ∈ img m).
Proof. unfold shared, img. apply bool_decide_ext. by rewrite elem_of_list_to_set. Qed.

Lemma img_insert m x g : img (<[x := g]> m) ∪ oset (m !! x) = {[g]} ∪ img m.
Proof.
  apply set_eq. intros h. rewrite !elem_of_union, !elem_img, elem_of_singleton. split.
  - intros [[y Hy]|Hy].
    + apply lookup_insert_Some in Hy as [[_ ->]|[_ Hy]]; [by left|right; by exists y].
    + destruct (m !! x) eqn:E; cbn in Hy; [|set_solver]. apply elem_of_singleton in Hy as ->. right. by exists x.
  - intros [->|[y Hy]].
    + left. exists x. apply lookup_insert.
    + destruct (decide (y = x)) as [->|Hne].
      * right. rewrite Hy. set_solver.
      * left. exists y. by rewrite lookup_insert_ne.
Qed.

Lemma img_delete m x g : m !! x = Some g -> img (delete x m) ∪ {[g]} = img m.
Proof.
  intros Hx. apply set_eq. intros h. rewrite !elem_of_union, !elem_img, elem_of_singleton. split.
  - intros [[y Hy]| ->]; [|by exists x]. apply lookup_delete_Some in Hy as [_ Hy]. by exists y.
  - intros [y Hy]. destruct (decide (y = x)) as [->|Hne]; [right; congruence|]. left. exists y. by rewrite lookup_delete_ne.
Qed.

(* The mutex when the lock_guards [G] exist and thread [o] created them. *)
Definition mux (o : nat) (G : gset nat) : option (nat * nat) := match size G with 0 => None | S k => Some (o, S k) end.

Lemma release_spec i m old o : size (img m ∪ oset old) <> 0 ->
  release i m old (mux o (img m ∪ oset old)) = Some (mux o (img m)) \/
  (release i m old (mux o (img m ∪ oset old)) = None /\ o <> i).
Proof.
  intros Hn. unfold release. destruct old as [g|]; cbn [oset].
  - rewrite shared_img. destruct (decide (g ∈ img m)) as [Hin|Hin]; [rewrite bool_decide_true by done|rewrite bool_decide_false by done].
    + left. by replace (img m ∪ {[g]}) with (img m) by set_solver.
    + unfold mux. assert (size (img m ∪ {[g]}) = S (size (img m))) as ->.
      { rewrite size_union by set_solver. rewrite size_singleton. lia. }
      destruct (Nat.eqb_spec o i) as [->|Hne]; [|by right]. left. f_equal. destruct (size (img m)); done.
  - left. by rewrite union_empty_r_L.
Qed.

(** *** Any programs *)
Record ainv (s : astate) : Prop := {
  ai_new : forall x g, a_vars s !! x = Some g -> g < a_next s;
  ai_mutex : exists o, a_mutex s = mux o (img (a_vars s)) /\ forall x g, a_vars s !! x = Some g -> a_getter s g = o }.

Lemma size_pos (G : gset nat) g : g ∈ G -> size G <> 0.
Proof. intros Hg H%size_empty_inv. set_solver. Qed.

(* What one step does to everything but the programs. *)
Lemma astep_inv i s s' : ainv s -> astep i s = AWent s' -> ainv s'.
Proof.
  intros [HN (o & HM & HG)]. unfold astep. destruct (a_threads s !! i) as [[|op k]|]; [done| |done].
  destruct op as [x|x y|x|x].
  - assert (forall o', (img (a_vars s) = ∅ \/ o = o') -> o' = i ->
      match release i (<[x := a_next s]> (a_vars s)) (a_vars s !! x) (mux o' ({[a_next s]} ∪ img (a_vars s))) with
      | Some mu' => AWent (AState (<[x := a_next s]> (a_vars s)) mu' (<[i := k]> (a_threads s))
          (fun h => if Nat.eqb h (a_next s) then i else a_getter s h) (S (a_next s)) (a_log s))
      | None => AUndefined end = AWent s' -> ainv s') as Hgo.
    { intros o' Ho -> H. rewrite <-(img_insert (a_vars s) x (a_next s)) in H.
      destruct (release_spec i (<[x := a_next s]> (a_vars s)) (a_vars s !! x) i) as [E|[_ E]]; [|rewrite E in H|done].
      { rewrite (img_insert (a_vars s) x (a_next s)). apply (size_pos _ (a_next s)). set_solver. }
      injection H as <-. constructor; cbn.
      - intros y g [[_ <-]|[_ Hy]]%lookup_insert_Some; [lia|]. specialize (HN _ _ Hy). lia.
      - exists i. split; [done|]. intros y g [[_ <-]|[_ Hy]]%lookup_insert_Some; [by rewrite Nat.eqb_refl|].
        specialize (HN _ _ Hy). destruct (Nat.eqb_spec g (a_next s)); [done|]. rewrite (HG _ _ Hy).
        destruct Ho as [Ho| ->]; [|done]. exfalso. assert (g ∈ img (a_vars s)) by (apply elem_img; by exists y). set_solver. }
    assert (Hfresh : a_next s ∉ img (a_vars s)). { intros [y Hy]%elem_img. specialize (HN _ _ Hy). lia. }
    assert (Hsz : size ({[a_next s]} ∪ img (a_vars s)) = S (size (img (a_vars s)))).
    { rewrite size_union by set_solver. by rewrite size_singleton. }
    rewrite HM. unfold mux. destruct (size (img (a_vars s))) as [|n] eqn:En.
    + apply size_empty_inv in En. fold_leibniz. intros H. apply (Hgo i); [by left|done|]. unfold mux. rewrite Hsz. exact H.
    + destruct (Nat.eqb_spec o i) as [->|]; [|done]. intros H. apply (Hgo i); [by right|done|]. unfold mux. rewrite Hsz. exact H.
  - destruct (a_vars s !! x) as [g|] eqn:Hx; [|done]. intros H.
    assert (Hg : g ∈ img (a_vars s)) by (apply elem_img; by exists x).
    assert (Himg : img (a_vars s) = img (<[y := g]> (a_vars s)) ∪ oset (a_vars s !! y)) by (rewrite img_insert; set_solver).
    rewrite HM, Himg in H.
    destruct (release_spec i (<[y := g]> (a_vars s)) (a_vars s !! y) o) as [E|[E _]]; [|rewrite E in H|by rewrite E in H].
    { rewrite <-Himg. by apply (size_pos _ g). }
    injection H as <-. constructor; cbn.
    + intros z h [[_ <-]|[_ Hz]]%lookup_insert_Some; eauto.
    + exists o. split; [done|]. intros z h [[_ <-]|[_ Hz]]%lookup_insert_Some; eauto.
  - destruct (a_vars s !! x) as [g|] eqn:Hx; [|done]. intros H.
    pose proof (img_delete _ _ _ Hx) as Himg. rewrite HM, <-Himg in H.
    destruct (release_spec i (delete x (a_vars s)) (Some g) o) as [E|[E _]]; cbn [oset] in *; [|rewrite E in H|by rewrite E in H].
    { apply (size_pos _ g). set_solver. }
    injection H as <-. constructor; cbn.
    + intros z h [_ Hz]%lookup_delete_Some; eauto.
    + exists o. split; [done|]. intros z h [_ Hz]%lookup_delete_Some; eauto.
  - destruct (a_vars s !! x) as [g|] eqn:Hx; [|done]. intros [= <-]. constructor; cbn; [done|]. by exists o.
Qed.

Lemma ainv_start ps : ainv (access_start ps).
Proof. constructor; cbn; [done|]. exists 0. split; [by vm_compute|done]. Qed.

Lemma aruns_inv sched s s' : ainv s -> aruns sched s = Some s' -> ainv s'.
Proof.
  revert s; induction sched as [|i sched IH]; intros s HI; cbn; [by intros [= <-]|].
  destruct (astep i s) as [s1| | |] eqn:E; [| | |done]; intros H; [|by apply (IH s)..]. apply (IH s1); [by eapply astep_inv|done].
Qed.

Lemma held ps sched s x g : aruns sched (access_start ps) = Some s -> a_vars s !! x = Some g -> owner s = Some (a_getter s g).
Proof.
  intros H Hx. destruct (aruns_inv _ _ _ (ainv_start ps) H) as [_ (o & HM & HG)]. unfold owner. rewrite HM. unfold mux.
  destruct (size _) eqn:E.
  - exfalso. revert E. apply (size_pos _ g). apply elem_img. by exists x.
  - cbn. by rewrite (HG _ _ Hx).
Qed.

Lemma free ps sched s : aruns sched (access_start ps) = Some s -> a_vars s = ∅ <-> owner s = None.
Proof.
  intros H. destruct (aruns_inv _ _ _ (ainv_start ps) H) as [_ (o & HM & HG)]. unfold owner. rewrite HM. unfold mux. split.
  - intros E. rewrite E. done.
  - destruct (size _) eqn:E; [|done]. intros _. apply size_empty_inv in E. fold_leibniz. apply map_eq. intros x. rewrite lookup_empty.
    destruct (a_vars s !! x) as [g|] eqn:Hx; [|done]. exfalso. assert (g ∈ img (a_vars s)) by (apply elem_img; by exists x). set_solver.
Qed.

(* The last copy destroyed by a thread that did not create the object. *)
Lemma wrong_thread ps sched s i x g k : aruns sched (access_start ps) = Some s -> a_threads s !! i = Some (ADrop x :: k) ->
  a_vars s !! x = Some g -> a_getter s g <> i -> (forall y, a_vars s !! y = Some g -> y = x) -> astep i s = AUndefined.
Proof.
  intros H Ht Hx Hi Hl. pose proof (held _ _ _ _ _ H Hx) as Ho. unfold owner in Ho.
  unfold astep. rewrite Ht, Hx. unfold release. rewrite shared_img, bool_decide_false.
  - destruct (a_mutex s) as [[j [|n]]|]; [done| |done]. cbn in Ho. injection Ho as ->.
    destruct (Nat.eqb_spec (a_getter s g) i); done.
  - intros [y [Hne Hy]%lookup_delete_Some]%elem_img. by specialize (Hl _ Hy).
Qed.

(** *** Programs that keep their objects to themselves *)
Record linv (s : astate) : Prop := {
  li_getter : forall x g, a_vars s !! x = Some g -> a_getter s g = x.1;
  li_thread : forall x g, a_vars s !! x = Some g -> is_Some (a_threads s !! x.1);
  li_prog : forall i p, a_threads s !! i = Some p -> exists xs, keeps_own i xs p /\ forall x, x ∈ xs <-> x.1 = i /\ is_Some (a_vars s !! x) }.

Lemma own_owner s x g : ainv s -> linv s -> a_vars s !! x = Some g -> exists n, a_mutex s = Some (x.1, S n).
Proof.
  intros [_ (o & HM & HG)] HL Hx. rewrite HM. unfold mux. destruct (size _) eqn:E.
  - exfalso. revert E. apply (size_pos _ g). apply elem_img. by exists x.
  - exists n. rewrite <-(li_getter _ HL _ _ Hx). by rewrite (HG _ _ Hx).
Qed.

Lemma linv_put s m get i k xs o (Hi : a_threads s !! i = Some (o :: k)) mu nx log : linv s ->
  (forall x g, m !! x = Some g -> get g = x.1) -> (forall x, x.1 <> i -> m !! x = a_vars s !! x) ->
  keeps_own i xs k -> (forall x, x ∈ xs <-> x.1 = i /\ is_Some (m !! x)) ->
  linv (AState m mu (<[i := k]> (a_threads s)) get nx log).
Proof.
  intros HL Hget Hoth HK Hxs. constructor; cbn.
  - done.
  - intros x g Hx. destruct (decide (x.1 = i)) as [->|Hne].
    + rewrite list_lookup_insert; [done|]. by eapply lookup_lt_Some.
    + rewrite list_lookup_insert_ne by done. rewrite Hoth in Hx by done. by eapply li_thread.
  - intros j p Hj. destruct (decide (i = j)) as [->|Hne].
    + rewrite list_lookup_insert in Hj by (by eapply lookup_lt_Some). injection Hj as <-. by exists xs.
    + rewrite list_lookup_insert_ne in Hj by done. destruct (li_prog _ HL _ _ Hj) as (xs' & HK' & Hx'). exists xs'. split; [done|].
      intros x. rewrite Hx'. split; intros [Hx1 Hx2]; (split; [done|]); [rewrite Hoth by congruence|rewrite <-Hoth by congruence]; done.
Qed.

Lemma lstep i s : ainv s -> linv s ->
  (exists s', astep i s = AWent s' /\ linv s') \/ (astep i s = AEnded /\ (a_threads s !! i = None \/ a_threads s !! i = Some [])) \/
  (astep i s = AWaits /\ exists o, owner s = Some o /\ o <> i).
Proof.
  intros HA HL. unfold astep. destruct (a_threads s !! i) as [[|op k]|] eqn:Hi; [by right; left; auto| |by right; left; auto].
  destruct (li_prog _ HL _ _ Hi) as (xs & HK & Hxs).
  assert (Hown : forall x, x ∈ xs -> exists g n, a_vars s !! x = Some g /\ a_mutex s = Some (i, S n)).
  { intros x Hx. apply Hxs in Hx as [<- [g Hg]]. destruct (own_owner _ _ _ HA HL Hg) as [n Hn]. eauto. }
  assert (Hrel : forall m old mu n, mu = Some (i, S n) -> exists mu', release i m old mu = Some mu').
  { intros m old mu n ->. unfold release. destruct old; [|by eexists]. destruct (shared m n0); [by eexists|]. rewrite Nat.eqb_refl. by eexists. }
  destruct op as [x|x y|x|x]; cbn [keeps_own] in HK.
  - destruct HK as [Hx HK].
    assert (Hgo : forall n, exists s', match release i (<[x := a_next s]> (a_vars s)) (a_vars s !! x) (Some (i, S n)) with
      | Some mu' => AWent (AState (<[x := a_next s]> (a_vars s)) mu' (<[i := k]> (a_threads s))
          (fun h => if Nat.eqb h (a_next s) then i else a_getter s h) (S (a_next s)) (a_log s))
      | None => AUndefined end = AWent s' /\ linv s').
    { intros n. destruct (Hrel (<[x := a_next s]> (a_vars s)) (a_vars s !! x) (Some (i, S n)) n eq_refl) as [mu' ->].
      eexists; split; [done|]. apply (linv_put s _ _ i k ({[x]} ∪ xs) (AGet x) Hi); try done.
      - intros y g [[<- <-]|[_ Hy]]%lookup_insert_Some; [by rewrite Nat.eqb_refl|].
        pose proof (ai_new _ HA _ _ Hy). destruct (Nat.eqb_spec g (a_next s)); [lia|]. by apply (li_getter _ HL).
      - intros y Hy. apply lookup_insert_ne. congruence.
      - intros y. rewrite elem_of_union, elem_of_singleton, Hxs. destruct (decide (y = x)) as [->|Hne].
        + rewrite lookup_insert. naive_solver.
        + rewrite lookup_insert_ne by done. naive_solver. }
    destruct (a_mutex s) as [[j n]|] eqn:Em.
    + destruct (Nat.eqb_spec j i) as [->|Hne].
      * left. apply Hgo.
      * right; right. split; [done|]. exists j. unfold owner. by rewrite Em.
    + left. apply Hgo.
  - left. destruct HK as (Hx & Hy & HK). destruct (Hown x Hx) as (g & n & Hg & Hm). rewrite Hg.
    destruct (Hrel (<[y := g]> (a_vars s)) (a_vars s !! y) (a_mutex s) n Hm) as [mu' ->]. eexists; split; [done|].
    apply (linv_put s _ _ i k ({[y]} ∪ xs) (ACopy x y) Hi); try done.
    + intros z h [[<- <-]|[_ Hz]]%lookup_insert_Some; [|by apply (li_getter _ HL)].
      rewrite (li_getter _ HL _ _ Hg). apply Hxs in Hx as [-> _]. done.
    + intros z Hz. apply lookup_insert_ne. congruence.
    + intros z. rewrite elem_of_union, elem_of_singleton, Hxs. destruct (decide (z = y)) as [->|Hne].
      * rewrite lookup_insert. naive_solver.
      * rewrite lookup_insert_ne by done. naive_solver.
  - left. destruct HK as (Hx & HK). destruct (Hown x Hx) as (g & n & Hg & Hm). rewrite Hg.
    destruct (Hrel (delete x (a_vars s)) (Some g) (a_mutex s) n Hm) as [mu' ->]. eexists; split; [done|].
    apply Hxs in Hx as [Hx1 _].
    apply (linv_put s _ _ i k (xs ∖ {[x]}) (ADrop x) Hi); try done.
    + intros z h [_ Hz]%lookup_delete_Some. by apply (li_getter _ HL).
    + intros z Hz. apply lookup_delete_ne. congruence.
    + intros z. rewrite elem_of_difference, elem_of_singleton, Hxs. destruct (decide (z = x)) as [->|Hne].
      * rewrite lookup_delete. split; [naive_solver|]. intros [_ [? ?]]. done.
      * rewrite lookup_delete_ne by done. naive_solver.
  - left. destruct HK as (Hx & HK). destruct (Hown x Hx) as (g & n & Hg & Hm). rewrite Hg. eexists; split; [done|].
    apply (linv_put s _ _ i k xs (AUse x) Hi); try done. apply (li_getter _ HL).
Qed.

Lemma linv_start ps : all_keep_own ps -> linv (access_start ps).
Proof.
  intros H. constructor; cbn; [done|done|]. intros i p Hp. exists ∅. split; [by apply H|]. intros x. rewrite lookup_empty.
  split; [set_solver|]. intros [_ [? ?]]. done.
Qed.

Lemma aruns_linv sched s : ainv s -> linv s -> exists s', aruns sched s = Some s' /\ ainv s' /\ linv s'.
Proof.
  revert s; induction sched as [|i sched IH]; intros s HA HL; cbn; [by exists s|].
  destruct (lstep i s HA HL) as [(s1 & E & HL1)|[[E _]|[E _]]]; rewrite E; [|by apply IH|by apply IH].
  apply IH; [by eapply astep_inv|done].
Qed.

Lemma own_defined ps sched : all_keep_own ps -> exists s, aruns sched (access_start ps) = Some s.
Proof.
  intros H. destruct (aruns_linv sched (access_start ps)) as (s & E & _); [apply ainv_start|by apply linv_start|]. by exists s.
Qed.

Lemma own_both ps sched s : all_keep_own ps -> aruns sched (access_start ps) = Some s -> ainv s /\ linv s.
Proof.
  intros H E. destruct (aruns_linv sched (access_start ps)) as (s' & E' & HI); [apply ainv_start|by apply linv_start|].
  rewrite E in E'. by injection E' as <-.
Qed.

Lemma own_use ps sched s i : all_keep_own ps -> aruns sched (access_start ps) = Some s -> about_to_use s i -> owner s = Some i.
Proof.
  intros H E (x & k & Hi). destruct (own_both _ _ _ H E) as [HA HL]. destruct (li_prog _ HL _ _ Hi) as (xs & (Hx & _) & Hxs).
  apply Hxs in Hx as [<- [g Hg]]. destruct (own_owner _ _ _ HA HL Hg) as [n Hn]. unfold owner. by rewrite Hn.
Qed.

Lemma own_no_race ps sched s : all_keep_own ps -> aruns sched (access_start ps) = Some s -> ~ graph_race s.
Proof.
  intros H E (i & j & Hne & Hi & Hj). pose proof (own_use _ _ _ _ H E Hi). pose proof (own_use _ _ _ _ H E Hj). congruence.
Qed.

Lemma astep_shorter i s s' : astep i s = AWent s' -> left_to_do s' < left_to_do s.
Proof.
  intros Hs. assert (exists o k, a_threads s !! i = Some (o :: k) /\ a_threads s' = <[i := k]> (a_threads s)) as (o & k & Hi & E).
  { unfold astep in Hs. destruct (a_threads s !! i) as [[|o k]|]; [done| |done]. exists o, k. split; [done|].
    destruct o; repeat case_match; try done; by injection Hs as <-. }
  unfold left_to_do. rewrite E. clear -Hi. revert i Hi. induction (a_threads s) as [|p l IH]; intros i Hi; [done|]. destruct i as [|i].
  - injection Hi as ->. cbn. lia.
  - change (<[S i := k]> (p :: l)) with (p :: <[i := k]> l). cbn [concat]. rewrite !app_length. specialize (IH i Hi). lia.
Qed.

Lemma own_progress ps sched s : all_keep_own ps -> aruns sched (access_start ps) = Some s ->
  finished s \/ exists i s', astep i s = AWent s'.
Proof.
  intros H E. destruct (own_both _ _ _ H E) as [HA HL].
  assert (Hgo : (exists i s', astep i s = AWent s') \/ finished s).
  { destruct (a_mutex s) as [[o n]|] eqn:Em.
    - left. assert (exists x g, a_vars s !! x = Some g) as (x & g & Hx).
      { destruct (map_choose (a_vars s)) as (x & g & Hx); [|eauto]. intros Hv. apply (free _ _ _ E) in Hv. unfold owner in Hv. by rewrite Em in Hv. }
      destruct (own_owner _ _ _ HA HL Hx) as [n' Hn']. rewrite Em in Hn'. injection Hn' as -> ->.
      exists x.1. destruct (lstep x.1 s HA HL) as [(s1 & E1 & _)|[[_ [He|He]]|[_ (o & Ho & Hne)]]]; [eauto| | |].
      + destruct (li_thread _ HL _ _ Hx) as [p Hp]. congruence.
      + destruct (li_prog _ HL _ _ He) as (xs & -> & Hxs). exfalso. assert (x ∈ (∅ : gset avar)) by (apply Hxs; eauto). set_solver.
      + unfold owner in Ho. rewrite Em in Ho. by injection Ho as <-.
    - destruct (decide (Forall (fun p => p = []) (a_threads s))) as [Hall|Hex].
      + right. intros i p Hp. rewrite Forall_lookup in Hall. by eapply Hall.
      + left. apply not_Forall_Exists in Hex; [|apply _]. apply Exists_exists in Hex as (p & Hin & Hp). apply elem_of_list_lookup in Hin as [i Hi].
        exists i. destruct (lstep i s HA HL) as [(s1 & E1 & _)|[[_ [He|He]]|[_ (o & Ho & Hne)]]]; [eauto|congruence|congruence|].
        unfold owner in Ho. by rewrite Em in Ho. }
  destruct Hgo as [(i & s' & Hs)|Hf]; [right; eauto|by left].
Qed.

Lemma aruns_app s1 s2 s : aruns (s1 ++ s2) s = match aruns s1 s with Some s' => aruns s2 s' | None => None end.
Proof. revert s; induction s1 as [|i s1 IH]; intros s; cbn; [done|]. destruct (astep i s); auto. Qed.

Lemma own_finished ps sched s : all_keep_own ps -> aruns sched (access_start ps) = Some s -> finished s -> a_vars s = ∅ /\ owner s = None.
Proof.
  intros H E Hf. destruct (own_both _ _ _ H E) as [HA HL]. assert (a_vars s = ∅) as Hv; [|by split; [|apply (free _ _ _ E)]].
  apply map_eq. intros x. rewrite lookup_empty. destruct (a_vars s !! x) as [g|] eqn:Hx; [|done]. exfalso.
  destruct (li_thread _ HL _ _ Hx) as [p Hp]. pose proof (Hf _ _ Hp) as ->. destruct (li_prog _ HL _ _ Hp) as (xs & -> & Hxs).
  assert (x ∈ (∅ : gset avar)) by (apply Hxs; eauto). set_solver.
Qed.

Lemma own_can_finish ps sched s : all_keep_own ps -> aruns sched (access_start ps) = Some s ->
  exists more s', aruns (sched ++ more) (access_start ps) = Some s' /\ finished s' /\ a_vars s' = ∅ /\ owner s' = None.
Proof.
  intros H. remember (left_to_do s) as n eqn:En. revert sched s En. induction (lt_wf n) as [n _ IH]; intros sched s -> E.
  destruct (own_progress _ _ _ H E) as [Hf|(i & s' & Hs)].
  - exists [], s. rewrite app_nil_r. split; [done|]. split; [done|]. by eapply own_finished.
  - destruct (IH _ (astep_shorter _ _ _ Hs) (sched ++ [i]) s' eq_refl) as (more & s2 & E2 & R).
    + rewrite aruns_app, E. cbn. by rewrite Hs.
    + exists (i :: more), s2. by rewrite <-app_assoc in E2.
Qed.

(* While one thread has an object, the others do nothing at all. *)
Lemma own_others ps sched s i x g : all_keep_own ps -> aruns sched (access_start ps) = Some s -> a_vars s !! x = Some g -> i <> x.1 ->
  astep i s = AWaits \/ astep i s = AEnded.
Proof.
  intros H E Hx Hne. destruct (own_both _ _ _ H E) as [HA HL]. destruct (own_owner _ _ _ HA HL Hx) as [n Hn].
  unfold astep. destruct (a_threads s !! i) as [[|op k]|] eqn:Hi; [by right| |by right]. destruct (li_prog _ HL _ _ Hi) as (xs & HK & Hxs).
  assert (Hown : forall y, y ∈ xs -> False).
  { intros y Hy. apply Hxs in Hy as [<- [h Hh]]. destruct (own_owner _ _ _ HA HL Hh) as [n' Hn']. congruence. }
  destruct op as [y|y z|y|y]; cbn [keeps_own] in HK; try (exfalso; eapply Hown; apply HK).
  rewrite Hn. destruct (Nat.eqb_spec x.1 i); [done|by left].
Qed.
