(** Lemmas on routes. *)
From stdpp Require Import prelude.
From Verif Require Import SpecWalk.

Section walk.
Context {A : Type}.
Implicit Types (R : A -> A -> Prop) (l : list A).

Lemma chain_app R l1 l2 : chain R (l1 ++ l2) <->
  chain R l1 /\ chain R l2 /\ (forall a b, last l1 = Some a -> head l2 = Some b -> R a b).
Proof.
  induction l1 as [|a l1 IH]; cbn.
  - split; [|naive_solver]. intros H. split; [done|]. split; done.
  - rewrite IH. destruct l1 as [|b l1]; cbn [app last].
    + destruct l2 as [|c l2]; cbn; naive_solver.
    + destruct (l1 ++ l2); naive_solver.
Qed.

Lemma route_nil R a b : ~ route R a b [].
Proof. intros [? _]. done. Qed.

Lemma route_refl R a : route R a a [a].
Proof. done. Qed.

Lemma route_snoc R a b c l : route R a b l -> R b c -> route R a c (l ++ [c]).
Proof.
  intros (Hh & Hl & Hc) Hbc. split; [|split].
  - by destruct l.
  - by rewrite last_snoc.
  - apply chain_app. split; [done|]. split; [done|]. intros x y Hx [= <-]. congruence.
Qed.

Lemma route_cons R a b c l : R a b -> route R b c l -> route R a c (a :: l).
Proof.
  intros Hab (Hh & Hl & Hc). destruct l as [|x l]; [done|]. cbn in Hh. injection Hh as ->.
  split; [done|]. split; [by rewrite last_cons_cons|]. cbn. done.
Qed.

Lemma route_inv_snoc R a c l : route R a c l ->
  (l = [a] /\ a = c) \/ exists l' b, l = l' ++ [c] /\ route R a b l' /\ R b c.
Proof.
  intros (Hh & Hl & Hc). destruct l as [|x l _] using rev_ind; [done|].
  rewrite last_snoc in Hl. injection Hl as ->.
  destruct l as [|y l _] using rev_ind.
  - cbn in Hh. injection Hh as ->. by left.
  - right. apply chain_app in Hc as (Hc1 & _ & Hr).
    exists (l ++ [y]), y. split; [done|]. split; [|apply Hr; by rewrite ?last_snoc].
    split; [|split; [by rewrite last_snoc|done]]. destruct l; done.
Qed.

Lemma route_app R a b c l1 l2 : route R a b l1 -> route R b c l2 -> route R a c (l1 ++ tail l2).
Proof.
  intros H1 (Hh & Hl & Hc). destruct l2 as [|x l2]; [done|]. cbn in Hh. injection Hh as ->. cbn [tail].
  destruct l2 as [|y l2].
  { cbn in Hl. injection Hl as <-. by rewrite app_nil_r. }
  destruct H1 as (Hh1 & Hl1 & Hc1). split; [|split].
  - by destruct l1.
  - rewrite last_cons_cons in Hl. rewrite last_app, Hl. done.
  - apply chain_app. cbn in Hc. destruct Hc as [Hxy Hc]. split; [done|]. split; [done|].
    intros u v Hu [= <-]. congruence.
Qed.

Lemma chain_fmap {B} (f : A -> B) R (S : B -> B -> Prop) l :
  (forall x y, x ∈ l -> y ∈ l -> R x y -> S (f x) (f y)) -> chain R l -> chain S (f <$> l).
Proof.
  induction l as [|a l IH]; intros Hf; [done|]. cbn. intros [H1 H2]. split.
  - destruct l as [|b l]; [done|]. cbn. apply Hf; [set_solver|set_solver|done].
  - apply IH; [|done]. intros x y Hx Hy. apply Hf; set_solver.
Qed.

Lemma chain_impl R (S : A -> A -> Prop) l : (forall x y, x ∈ l -> y ∈ l -> R x y -> S x y) -> chain R l -> chain S l.
Proof.
  intros H Hc. pose proof (chain_fmap (B := A) id R S l H Hc) as Hx. by rewrite list_fmap_id in Hx.
Qed.

Lemma chain_reverse R l : chain R l -> chain (fun x y => R y x) (reverse l).
Proof.
  induction l as [|a l IH]; [done|]. intros [H1 H2]. rewrite reverse_cons.
  apply chain_app. split; [by apply IH|]. split; [done|]. intros x y Hx [= <-].
  rewrite last_reverse in Hx. destruct l; [done|]. cbn in Hx. congruence.
Qed.

Lemma route_reverse R a b l : route R a b l -> route (fun x y => R y x) b a (reverse l).
Proof.
  intros (Hh & Hl & Hc). split; [by rewrite head_reverse|]. split; [by rewrite last_reverse|].
  by apply chain_reverse.
Qed.

Lemma linked_refl R a : linked R a a.
Proof. exists [a]. apply route_refl. Qed.
Lemma linked_trans R a b c : linked R a b -> linked R b c -> linked R a c.
Proof. intros [l1 H1] [l2 H2]. exists (l1 ++ tail l2). by eapply route_app. Qed.
Lemma linked_step R a b : R a b -> linked R a b.
Proof. intros H. exists [a; b]. by eapply route_cons, route_refl. Qed.
Lemma linked_sym R a b : (forall x y, R x y -> R y x) -> linked R a b -> linked R b a.
Proof.
  intros Hs [l Hl%route_reverse]. exists (reverse l). destruct Hl as (H1 & H2 & H3).
  split; [done|]. split; [done|]. eapply chain_impl; [|done]. auto.
Qed.
Lemma linked_ind_r R a (P : A -> Prop) : P a -> (forall x y, linked R a x -> P x -> R x y -> P y) ->
  forall b, linked R a b -> P b.
Proof.
  intros Ha Hs b [l Hl]. remember (length l) as n eqn:Hn. revert b l Hl Hn.
  induction n as [|n IH]; intros b l Hl Hn.
  { destruct l; [by apply route_nil in Hl|done]. }
  destruct (route_inv_snoc _ _ _ _ Hl) as [[-> <-]|(l' & x & -> & Hl' & Hr)]; [done|].
  rewrite app_length in Hn. cbn in Hn. eapply Hs; [by exists l'| |done].
  eapply IH; [done|]. lia.
Qed.

Lemma shortest_NoDup R a b l : shortest R a b l -> NoDup l.
Proof.
  intros [Hr Hs]. 
  assert (Hno : forall i j x, l !! i = Some x -> l !! j = Some x -> i < j -> False).
  { intros i j x Hi Hj Hij.
    assert (Hlj : j < length l) by by eapply lookup_lt_Some.
    set (l' := take i l ++ drop j l).
    assert (Hrt : route R a b l').
    { destruct Hr as (Hh & Hl & Hc). split; [|split].
      - unfold l'. destruct i as [|i].
        + cbn. rewrite <- (take_drop 0 l) in Hh. cbn in Hh. destruct l as [|y l0]; [done|].
          cbn in Hi. injection Hi as ->. cbn in Hh. injection Hh as ->.
          destruct (drop j (a :: l0)) eqn:Hd.
          * apply (f_equal length) in Hd. rewrite drop_length in Hd. cbn in *. lia.
          * assert (Hx : (a :: l0) !! (j + 0) = Some a0) by (rewrite <- lookup_drop, Hd; done).
            rewrite Nat.add_0_r in Hx. cbn. congruence.
        + destruct l; done.
      - unfold l'. rewrite last_app.
        assert (Hd : last (drop j l) = Some b).
        { rewrite <- (take_drop j l), last_app in Hl.
          destruct (last (drop j l)) eqn:He; [done|]. exfalso.
          apply last_None in He. apply (f_equal length) in He. rewrite drop_length in He. cbn in He. lia. }
        by rewrite Hd.
      - unfold l'. apply chain_app.
        pose proof Hc as Hc'. rewrite <- (take_drop i l) in Hc. apply chain_app in Hc as (Hc1 & _ & Hc3).
        rewrite <- (take_drop j l) in Hc'. apply chain_app in Hc' as (_ & Hc2 & _).
        split; [done|]. split; [done|]. intros u v Hu Hv.
        assert (v = x) as ->.
        { rewrite head_lookup, lookup_drop, Nat.add_0_r in Hv. congruence. }
        apply Hc3; [done|]. by rewrite head_lookup, lookup_drop, Nat.add_0_r. }
    apply Hs in Hrt. unfold l' in Hrt. rewrite app_length, take_length, drop_length in Hrt. lia. }
  apply NoDup_alt. intros i j x Hi Hj. destruct (lt_eq_lt_dec i j) as [[H|H]|H]; [|done|].
  - destruct (Hno i j x Hi Hj H).
  - destruct (Hno j i x Hj Hi H).
Qed.

End walk.
