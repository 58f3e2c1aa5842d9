(** Proofs about the identifiers of items. *)
From stdpp Require Import prelude gmap.
From Verif Require Import UuidModel SpecUuid.

Section thms.
Context {G U : Type} (draw : G -> U * G) (which : nat -> nat).
Implicit Types s : ids G U.
Implicit Types gz : nat -> G.
Local Notation next := (fun g => (draw g).2).

Lemma origins_snoc l a : origins (l ++ [a]) = origins l ++ [origin_of (origins l) a].
Proof. unfold origins. by rewrite foldl_app. Qed.
Lemma origins_length l : length (origins l) = length l.
Proof. induction l as [|a l IH] using rev_ind; [done|]. rewrite origins_snoc, !app_length, IH. done. Qed.

(** Where the identifier of every item was drawn: generator and number. *)
Record drawn gz (c : nat -> nat) (l : list (mk * U)) (src : list (nat * nat)) : Prop := {
  dr_src : Forall2 (fun x p => x.2 = nth_id draw (gz p.1) p.2 /\ p.2 < c p.1) l src;
  dr_eq : forall k k', k < length src -> k' < length src -> src !! k = src !! k' <-> origins l.*1 !! k = origins l.*1 !! k';
  dr_lt : forall k o, origins l.*1 !! k = Some o -> o < length src }.

Lemma nth_draw gz i n : draw (Nat.iter n next (gz i)) = (nth_id draw (gz i) n, Nat.iter (S n) next (gz i)).
Proof. unfold nth_id. cbn. by destruct (draw _). Qed.

Lemma drawn_mono gz c c' l src : (forall i, c i <= c' i) -> drawn gz c l src -> drawn gz c' l src.
Proof.
  intros Hc []. split; try done. eapply Forall2_impl; [done|]. intros x p [??]. split; [done|]. specialize (Hc p.1). lia.
Qed.
Lemma drawn_len gz c l src : drawn gz c l src -> length src = length l.
Proof. intros []. symmetry. by eapply Forall2_length. Qed.
Lemma drawn_olen gz c l src : drawn gz c l src -> length (origins l.*1) = length src.
Proof. intros Hd. by rewrite origins_length, fmap_length, (drawn_len _ _ _ _ Hd). Qed.

Lemma drawn_new gz c l src i : drawn gz c l src ->
  drawn gz (fun j => if Nat.eqb j i then S (c i) else c j) (l ++ [(MNew, nth_id draw (gz i) (c i))]) (src ++ [(i, c i)]).
Proof.
  intros Hd. pose proof (drawn_olen _ _ _ _ Hd) as Ho. 
  assert (Hn : (i, c i) ∉ src).
  { intros (k & Hk)%elem_of_list_lookup_1. destruct Hd as [Hs _ _]. destruct (Forall2_lookup_r _ _ _ _ _ Hs Hk) as (x & _ & _ & Hlt). cbn in Hlt. lia. }
  apply (drawn_mono _ _ (fun j => if Nat.eqb j i then S (c i) else c j)) in Hd as [Hs He Hl].
  2:{ intros j. destruct (Nat.eqb_spec j i) as [->|]; lia. }
  assert (Hos : origins (l ++ [(MNew, nth_id draw (gz i) (c i))]).*1 = origins l.*1 ++ [length src]).
  { rewrite fmap_app. cbn [fmap list_fmap]. rewrite origins_snoc. cbn. by rewrite Ho. }
  split.
  - apply Forall2_app; [done|]. constructor; [|constructor]. cbn. split; [done|]. rewrite Nat.eqb_refl. lia.
  - intros k k'. rewrite Hos, app_length. cbn [length]. intros Hk Hk'.
    assert (Hc : forall k, k < length src -> (src ++ [(i, c i)]) !! k = src !! k /\ (origins l.*1 ++ [length src]) !! k = origins l.*1 !! k).
    { intros q Hq. rewrite !lookup_app_l by lia. done. }
    assert (Hz : (src ++ [(i, c i)]) !! length src = Some (i, c i) /\ (origins l.*1 ++ [length src]) !! length src = Some (length src)).
    { split; [by apply list_lookup_middle|]. apply list_lookup_middle. by rewrite Ho. }
    assert (Hx : forall q, src !! q <> Some (i, c i)) by (intros q Hq; apply Hn; by eapply elem_of_list_lookup_2).
    assert (Hy : forall q, origins l.*1 !! q <> Some (length src)) by (intros q Hq; apply Hl in Hq; lia).
    destruct (decide (k < length src)) as [H1|H1], (decide (k' < length src)) as [H2|H2].
    + destruct (Hc k H1) as [-> ->], (Hc k' H2) as [-> ->]. by apply He.
    + replace k' with (length src) by lia. destruct Hz as [-> ->], (Hc k H1) as [-> ->]. specialize (Hx k). specialize (Hy k). naive_solver.
    + replace k with (length src) by lia. destruct Hz as [-> ->], (Hc k' H2) as [-> ->]. specialize (Hx k'). specialize (Hy k'). naive_solver.
    + replace k with k' by lia. done.
  - intros k o. rewrite Hos, app_length. cbn [length]. intros [Hk|(_ & Hk)]%lookup_app_Some; [apply Hl in Hk; lia|].
    apply list_lookup_singleton_Some in Hk as [_ <-]. lia.
Qed.

Lemma drawn_copy gz c l src i a b u : (a = MCopy i \/ a = MClone i) -> l !! i = Some (b, u) -> drawn gz c l src ->
  exists p, drawn gz c (l ++ [(a, u)]) (src ++ [p]).
Proof.
  intros Ha Hi Hd. pose proof (drawn_olen _ _ _ _ Hd) as Ho. pose proof (drawn_len _ _ _ _ Hd) as Hlen. destruct Hd as [Hs He Hl].
  destruct (Forall2_lookup_l _ _ _ _ _ Hs Hi) as (p & Hp & Hu & Hlt). cbn in Hu. exists p.
  assert (Hil : i < length src) by by eapply lookup_lt_Some.
  destruct (lookup_lt_is_Some_2 (origins l.*1) i) as [o Hoi]; [lia|].
  assert (Hos : origins (l ++ [(a, u)]).*1 = origins l.*1 ++ [o]).
  { rewrite fmap_app. cbn [fmap list_fmap]. rewrite origins_snoc. by destruct Ha as [->| ->]; cbn; rewrite Hoi. }
  split.
  - apply Forall2_app; [done|]. by repeat constructor.
  - intros k k'. rewrite Hos, app_length. cbn [length]. intros Hk Hk'.
    assert (Hc : forall k, k < S (length src) -> exists q, q < length src /\ (src ++ [p]) !! k = src !! q /\ (origins l.*1 ++ [o]) !! k = origins l.*1 !! q).
    { intros q Hq. destruct (decide (q < length src)); [exists q; by rewrite !lookup_app_l by lia|].
      exists i. split; [done|]. replace q with (length src) by lia. rewrite Hp, Hoi. split; [by apply list_lookup_middle|].
      apply list_lookup_middle. by rewrite Ho. }
    destruct (Hc k ltac:(lia)) as (q & Hq & -> & ->), (Hc k' ltac:(lia)) as (q' & Hq' & -> & ->). by apply He.
  - intros k x. rewrite Hos, app_length. cbn [length]. intros [Hk|(_ & Hk)]%lookup_app_Some; [apply Hl in Hk; lia|].
    apply list_lookup_singleton_Some in Hk as [_ <-]. apply Hl in Hoi. lia.
Qed.

Record inv gz s : Prop := {
  iv_drawn : exists c src, (forall i, id_gens s i = Nat.iter (c i) next (gz i)) /\ drawn gz c (id_objs s) src;
  iv_busy : forall t g a, id_busy s !! t = Some (g, a) -> g = id_gens s (which t) /\ possible a (id_objs s) = true /\ (forall i, a <> MCopy i);
  iv_alone : forall t t' x x', id_busy s !! t = Some x -> id_busy s !! t' = Some x' -> which t = which t' -> t = t' }.

Lemma possible_more a (l l' : list (mk * U)) : possible a l = true -> possible a (l ++ l') = true.
Proof.
  destruct a as [|i|i]; cbn; [done| |]; intros H%bool_decide_eq_true; apply bool_decide_eq_true; rewrite app_length; lia.
Qed.
Lemma finish_more a u (l : list (mk * U)) : exists l', finish a u l = l ++ l'.
Proof. destruct a as [|i|i]; cbn; [by eexists| |]; destruct (l !! i) as [[? ?]|]; eauto; exists []; by rewrite app_nil_r. Qed.

Lemma inv_step gz t a s : inv gz s -> (id_busy s !! t = None -> a <> MNew /\ (forall i, a <> MClone i) \/
    forall t', t' <> t -> which t' = which t -> id_busy s !! t' = None) -> inv gz (id_step draw which (t, a) s).
Proof.
  intros [(c & src & Hg & Hd) Hb Ha] Hturn. cbn [id_step]. destruct (id_busy s !! t) as [[g a']|] eqn:Ht.
  - destruct (Hb t g a' Ht) as (-> & Hpos & Hnc). rewrite Hg, nth_draw. set (i := which t) in *.
    set (c' := fun j => if Nat.eqb j i then S (c i) else c j).
    assert (Hcc : forall j, c j <= c' j) by (intros j; unfold c'; destruct (Nat.eqb_spec j i) as [->|]; lia).
    split.
    + exists c'. assert (Hg' : forall j, (if Nat.eqb j i then Nat.iter (S (c i)) next (gz i) else id_gens s j) = Nat.iter (c' j) next (gz j)).
      { intros j. unfold c'. destruct (Nat.eqb_spec j i) as [->|]; [done|]. by rewrite Hg. }
      cbn [id_gens id_objs finish]. destruct a' as [|k|k]; [|by destruct (Hnc k)|].
      * exists (src ++ [(i, c i)]). split; [done|]. by apply drawn_new.
      * cbn in Hpos. apply bool_decide_eq_true in Hpos. destruct (lookup_lt_is_Some_2 _ _ Hpos) as [[b u] Hk]. cbn [finish]. rewrite Hk.
        destruct (drawn_copy gz c (id_objs s) src k (MClone k) b u) as [p Hp]; [by right|done..|].
        exists (src ++ [p]). split; [done|]. by eapply drawn_mono.
    + intros t' g1 a1. cbn [id_busy id_gens id_objs]. intros [Hne H1]%lookup_delete_Some.
      destruct (Hb t' g1 a1 H1) as (-> & Hp1 & Hn1). split; [|split; [|done]].
      * destruct (Nat.eqb_spec (which t') i) as [Hw|]; [|done]. destruct Hne. by eapply Ha.
      * destruct (finish_more a' (nth_id draw (gz i) (c i)) (id_objs s)) as [l' ->]. by apply possible_more.
    + intros t1 t2 x1 x2. cbn [id_busy]. intros [_ H1]%lookup_delete_Some [_ H2]%lookup_delete_Some. by eapply Ha.
  - specialize (Hturn eq_refl). destruct (possible a (id_objs s)) eqn:Hpos.
    2:{ split; [exists c, src; done|done|done]. }
    assert (Hstart : (forall i, a <> MCopy i) -> (forall t', t' <> t -> which t' = which t -> id_busy s !! t' = None) ->
      inv gz (Ids (id_gens s) (<[t := (id_gens s (which t), a)]> (id_busy s)) (id_objs s))).
    { intros Hnc Hal. split; [exists c, src; done| |].
      - intros t' g1 a1. cbn [id_busy id_gens id_objs]. intros [[<- [= <- <-]]|[_ H1]]%lookup_insert_Some; [done|]. by apply Hb.
      - intros t1 t2 x1 x2. cbn [id_busy]. intros [[<- _]|[Hn1 H1]]%lookup_insert_Some [[<- _]|[Hn2 H2]]%lookup_insert_Some Hw; [done| | |by eapply Ha].
        + rewrite Hal in H2 by done. done.
        + rewrite Hal in H1 by done. done. }
    destruct a as [|k|k].
    + apply Hstart; [done|]. by destruct Hturn as [[? _]|].
    + cbn in Hpos. apply bool_decide_eq_true in Hpos. destruct (lookup_lt_is_Some_2 _ _ Hpos) as [[b u] Hk]. rewrite Hk.
      destruct (drawn_copy gz c (id_objs s) src k (MCopy k) b u) as [p Hp]; [by left|done..|].
      split; [exists c, (src ++ [p]); done| |done].
      intros t' g1 a1 H1. cbn [id_objs]. destruct (Hb t' g1 a1 H1) as (? & ? & ?). split; [done|]. split; [by apply possible_more|done].
    + apply Hstart; [done|]. destruct Hturn as [[_ Hx]|]; [|done]. by destruct (Hx k).
Qed.
Lemma inv_run gz l s : inv gz s -> in_turns draw which l s -> inv gz (id_run draw which l s).
Proof.
  revert s. induction l as [|[t a] l IH]; intros s Hi; [done|]. cbn [in_turns]. intros [H1 H2].
  change (id_run draw which ((t, a) :: l) s) with (id_run draw which l (id_step draw which (t, a) s)). apply IH; [|done]. by apply inv_step.
Qed.
Lemma inv_new gz : inv gz (ids_new gz).
Proof.
  split; cbn; try done.
  exists (fun _ => 0), []. split; [done|]. split; [constructor| |]; cbn; [lia|]. intros k o Hk. by rewrite lookup_nil in Hk.
Qed.

Lemma same_origin gz l s k k' a a' u u' : no_repetition draw gz -> in_turns draw which l (ids_new gz) ->
  id_run draw which l (ids_new gz) = s -> id_objs s !! k = Some (a, u) -> id_objs s !! k' = Some (a', u') ->
  u = u' <-> origins (id_objs s).*1 !! k = origins (id_objs s).*1 !! k'.
Proof.
  intros Hn Ht Hr Hk Hk'. pose proof (inv_run gz l _ (inv_new gz) Ht) as [(c & src & _ & [Hs He _]) _ _]. rewrite Hr in Hs, He.
  destruct (Forall2_lookup_l _ _ _ _ _ Hs Hk) as ([i m] & Hp & Hu & _). destruct (Forall2_lookup_l _ _ _ _ _ Hs Hk') as ([i' m'] & Hp' & Hu' & _).
  cbn in Hu, Hu'. rewrite <- He by by eapply lookup_lt_Some. rewrite Hp, Hp', Hu, Hu'. split.
  - by intros [-> ->]%Hn.
  - by intros [= -> ->].
Qed.

(** One generator per thread, or one thread. *)
Lemma own_turns l s : (forall t t', which t = which t' -> t = t') -> in_turns draw which l s.
Proof.
  intros Hw. revert s. induction l as [|[t a] l IH]; intros s; [done|]. cbn [in_turns]. split; [|apply IH].
  intros _. right. intros t' Hne Ht. by apply Hw in Ht.
Qed.
Lemma one_thread_turns t l s : (forall x, x ∈ l -> x.1 = t) -> (forall t', t' <> t -> id_busy s !! t' = None) -> in_turns draw which l s.
Proof.
  revert s. induction l as [|[t1 a] l IH]; intros s Hl Hb; [done|]. cbn [in_turns].
  assert (t1 = t) as -> by (apply (Hl (t1, a)); by left). split; [intros _; right; by intros; apply Hb|].
  apply IH; [intros x Hx; apply Hl; by right|]. intros t' Hne. cbn [id_step].
  destruct (id_busy s !! t) as [[g a']|].
  - destruct (draw g). cbn. rewrite lookup_delete_ne by done. by apply Hb.
  - destruct (possible a (id_objs s)); [|by apply Hb]. destruct a; cbn; rewrite ?lookup_insert_ne by done; by apply Hb.
Qed.
End thms.

Section refuted.
Context {G U : Type} (draw : G -> U * G).
Implicit Types s : ids G U.

Lemma duplicate s t t' : t <> t' -> id_busy s !! t = None -> id_busy s !! t' = None ->
  exists u, id_objs (id_run draw shared_generator [(t, MNew); (t', MNew); (t, MNew); (t', MNew)] s) = id_objs s ++ [(MNew, u); (MNew, u)].
Proof.
  intros Hne Ht Ht'. unfold id_run. cbn [foldl]. cbn [id_step]. rewrite Ht. cbn [possible id_busy id_gens id_objs].
  rewrite lookup_insert_ne by done. rewrite Ht'. cbn [possible id_busy id_gens id_objs].
  rewrite lookup_insert_ne by done. rewrite lookup_insert. destruct (draw (id_gens s (shared_generator t))) as [u g'] eqn:E.
  cbn [id_busy]. rewrite lookup_delete_ne by done. rewrite lookup_insert. change (shared_generator t') with (shared_generator t). rewrite E.
  cbn [id_objs finish]. exists u. by rewrite <- app_assoc.
Qed.

(** Thread [t] makes [n] items. *)
Lemma alone_run t n s : id_busy s !! t = None -> let s' := id_run draw shared_generator (makes t n) s in
  id_gens s' 0 = Nat.iter n (fun g => (draw g).2) (id_gens s 0) /\ id_busy s' = id_busy s /\
  id_objs s' = id_objs s ++ ((fun k => (MNew, nth_id draw (id_gens s 0) k)) <$> seq 0 n).
Proof.
  cbv zeta. revert s. induction n as [|n IH]; intros s Ht; [by rewrite app_nil_r|].
  replace (makes t (S n)) with (makes t n ++ [(t, MNew); (t, MNew)]).
  2:{ unfold makes. rewrite <- (Nat.add_1_r n), replicate_add, concat_app. done. }
  unfold id_run. rewrite foldl_app. fold (id_run draw shared_generator (makes t n) s).
  destruct (IH s Ht) as (H1 & H2 & H3). set (s1 := id_run draw shared_generator (makes t n) s) in *.
  cbn [foldl id_step]. rewrite H2, Ht. cbn [possible id_busy id_gens id_objs]. rewrite lookup_insert.
  change (shared_generator t) with 0. rewrite H1. destruct (draw (Nat.iter n (fun g => (draw g).2) (id_gens s 0))) as [u g'] eqn:E.
  cbn [id_gens id_busy id_objs finish]. split; [|split].
  - rewrite Nat.iter_succ, E. done.
  - by rewrite delete_insert.
  - rewrite H3, seq_S, fmap_app, app_assoc. cbn [fmap list_fmap]. do 3 f_equal. unfold nth_id. change (0 + n) with n. by rewrite E.
Qed.

(** A thread that is held up in the generator sets it back. *)
Lemma set_back s t t' n : t <> t' -> id_busy s !! t = None -> id_busy s !! t' = None ->
  id_objs (id_run draw shared_generator ([(t, MNew)] ++ makes t' n ++ [(t, MNew)] ++ makes t' n) s) =
    id_objs s ++ ((fun k => (MNew, nth_id draw (id_gens s 0) k)) <$> seq 0 n ++ seq 0 (S n)).
Proof.
  intros Hne Ht Ht'. unfold id_run. rewrite !foldl_app.
  set (s1 := foldl (fun s x => id_step draw shared_generator x s) s [(t, MNew)]).
  assert (H1 : s1 = Ids (id_gens s) (<[t := (id_gens s 0, MNew)]> (id_busy s)) (id_objs s)).
  { unfold s1. cbn [foldl id_step]. by rewrite Ht. }
  destruct (alone_run t' n s1) as (A1 & A2 & A3). { rewrite H1. cbn. by rewrite lookup_insert_ne. }
  unfold id_run in A1, A2, A3. set (s2 := foldl (fun s x => id_step draw shared_generator x s) s1 (makes t' n)) in *.
  set (s3 := foldl (fun s x => id_step draw shared_generator x s) s2 [(t, MNew)]).
  assert (H3 : id_gens s3 0 = (draw (id_gens s 0)).2 /\ id_busy s3 = id_busy s /\ id_objs s3 = id_objs s2 ++ [(MNew, nth_id draw (id_gens s 0) 0)]).
  { unfold s3. cbn [foldl id_step]. rewrite A2, H1. cbn [id_busy]. rewrite lookup_insert. unfold nth_id. cbn.
    destruct (draw (id_gens s 0)) as [u g']. cbn. split; [done|]. split; [by rewrite delete_insert|done]. }
  destruct H3 as (G3 & B3 & O3).
  destruct (alone_run t' n s3) as (_ & _ & C3). { by rewrite B3. }
  unfold id_run in C3. rewrite C3, O3, A3, H1. cbn [id_objs id_gens]. rewrite G3.
  rewrite fmap_app, <- !app_assoc. f_equal. f_equal. cbn [seq fmap list_fmap app]. f_equal.
  rewrite <- fmap_S_seq, <- list_fmap_compose. apply list_fmap_ext. intros k j _. cbn. unfold nth_id.
  by rewrite Nat.iter_succ_r.
Qed.
End refuted.
