(** General list lemmas (no model content). *)
From stdpp Require Import prelude.

Lemma find_iff {A} (f : A -> bool) (l : list A) x :
  find f l = Some x -> x ∈ l /\ f x = true.
Proof. intros [H ?]%find_some. split; [|done]. by apply elem_of_list_In. Qed.

Lemma NoDup_fmap_inj {A B} (f : A -> B) (l : list A) x y :
  NoDup (f <$> l) -> x ∈ l -> y ∈ l -> f x = f y -> x = y.
Proof.
  induction l as [|a l IH]; cbn; [by intros _ ?%elem_of_nil|].
  rewrite NoDup_cons. intros [Ha Hnd].
  rewrite !elem_of_cons. intros [->|Hx] [->|Hy] Heq; auto.
  - exfalso. apply Ha. rewrite Heq. by apply elem_of_list_fmap_1.
  - exfalso. apply Ha. rewrite <- Heq. by apply elem_of_list_fmap_1.
Qed.

Lemma find_uniq {A B} (k : A -> B) (f : A -> bool) (l : list A) x :
  NoDup (k <$> l) -> x ∈ l -> f x = true ->
  (forall y, f y = true -> k y = k x) -> find f l = Some x.
Proof.
  intros Hnd Hx Hf Hk. destruct (find f l) as [y|] eqn:Hfi.
  - apply find_iff in Hfi as [Hy Hfy]. f_equal.
    eapply (NoDup_fmap_inj k); eauto.
  - exfalso. apply elem_of_list_In in Hx. by rewrite (find_none _ _ Hfi x Hx) in Hf.
Qed.

Lemma NoDup_fmap_filter {A B} (f : A -> B) (P : A -> Prop) `{!forall x, Decision (P x)} (l : list A) :
  NoDup (f <$> l) -> NoDup (f <$> filter P l).
Proof.
  induction l as [|a l IH]; [done|]. rewrite fmap_cons, NoDup_cons. intros [Ha Hnd].
  rewrite filter_cons. case_decide; [|auto]. cbn. apply NoDup_cons. split; [|auto].
  intros (x & Hx & [_ Hin]%elem_of_list_filter)%elem_of_list_fmap. apply Ha. rewrite Hx.
  by apply elem_of_list_fmap_1.
Qed.

Lemma filter_all {A} (P : A -> Prop) `{!forall x, Decision (P x)} (l : list A) :
  (forall x, x ∈ l -> P x) -> filter P l = l.
Proof.
  induction l as [|a l IH]; intros Hall; [done|].
  rewrite filter_cons_True by (apply Hall; set_solver). f_equal. apply IH. set_solver.
Qed.

Lemma filter_none {A} (P : A -> Prop) `{!forall x, Decision (P x)} (l : list A) :
  (forall x, x ∈ l -> ~ P x) -> filter P l = [].
Proof.
  induction l as [|a l IH]; intros Hall; [done|].
  rewrite filter_cons_False by (apply Hall; set_solver). apply IH. set_solver.
Qed.

Lemma length_filter_ne {A B} `{EqDecision B} (k : A -> B) i (l : list A) :
  NoDup (k <$> l) -> i ∈ k <$> l -> S (length (filter (fun x => k x <> i) l)) = length l.
Proof.
  induction l as [|a l IH]; [by intros _ ?%elem_of_nil|].
  rewrite fmap_cons, NoDup_cons, elem_of_cons. intros [Ha Hnd] Hi.
  destruct (decide (k a = i)) as [<-|Hne].
  - rewrite filter_cons_False by auto. cbn. f_equal. rewrite filter_all; [done|].
    intros x Hx Hk. apply Ha. rewrite <- Hk. by apply elem_of_list_fmap_1.
  - rewrite filter_cons_True by auto. cbn. f_equal. apply IH; [done|]. by destruct Hi.
Qed.

Lemma filter_filter {A} (P Q : A -> Prop) `{!forall x, Decision (P x), !forall x, Decision (Q x)} (l : list A) :
  filter P (filter Q l) = filter (fun x => Q x /\ P x) l.
Proof.
  induction l as [|a l IH]; [done|].
  rewrite (filter_cons Q), (filter_cons (fun x => Q x /\ P x)).
  repeat case_decide; try rewrite filter_cons; repeat case_decide; naive_solver congruence.
Qed.

Lemma list_filter_iff' {A} (P Q : A -> Prop) `{!forall x, Decision (P x), !forall x, Decision (Q x)}
    (l : list A) :
  (forall x, x ∈ l -> P x <-> Q x) -> filter P l = filter Q l.
Proof.
  induction l as [|a l IH]; intros Hpq; [done|].
  rewrite (filter_cons P), (filter_cons Q).
  specialize (IH (fun x Hx => Hpq x (elem_of_list_further _ _ _ Hx))).
  specialize (Hpq a (elem_of_list_here _ _)).
  repeat case_decide; naive_solver congruence.
Qed.

Lemma NoDup_fmap_finer {A B C} (f : A -> B) (g : A -> C) (l : list A) :
  NoDup (f <$> l) -> (forall x y, x ∈ l -> y ∈ l -> g x = g y -> f x = f y) -> NoDup (g <$> l).
Proof.
  induction l as [|a l IH]; intros Hnd Hfg; [constructor|]. rewrite fmap_cons in *.
  apply NoDup_cons in Hnd as [Ha Hnd]. apply NoDup_cons. split.
  - intros (x & Hx & Hin)%elem_of_list_fmap. apply Ha.
    rewrite (Hfg a x); [by apply elem_of_list_fmap_1|set_solver|set_solver|done].
  - apply IH; [done|]. intros x y Hx Hy. apply Hfg; set_solver.
Qed.
