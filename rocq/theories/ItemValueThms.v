(** Proofs about item objects that are copied, moved and assigned. *)
From stdpp Require Import prelude strings gmap.
From Verif Require Import ListLib Outcome ItemClass Digraph Bfs TreeView GraphModel GraphOps GraphWf GraphStep SpecHandler ItemsModel SpecItems ItemsOps ItemsLog
  ItemsCopy ItemsThms MiscModel ItemValueModel SpecItemValue.

Section thms.
Context {E : Type} (einv : E -> E) (mf : frameid -> frameid) (md : nat -> nat).
Implicit Types s : vst E.
Local Notation vstep := (vstep einv mf md).
Local Notation vrun := (vrun einv mf md).

Lemma object_inv s i x v : object s i = Ret (x, v) -> es_heap (vs_est s) !! i = Some x /\ vs_vals s !! i = Some v.
Proof. unfold object. destruct (_ !! i), (_ !! i); try done. by intros [= -> ->]. Qed.
Lemma fresh_inv s q : fresh_at s q = Ret tt -> es_heap (vs_est s) !! q = None.
Proof. unfold fresh_at. by destruct (_ !! q). Qed.
Lemma object_put i j x v s : object (put_object i x v s) j = if decide (j = i) then Ret (x, v) else object s j.
Proof.
  unfold object, put_object. cbn. case_decide as Hd; [subst; by rewrite !lookup_insert|]. by rewrite !lookup_insert_ne.
Qed.
Lemma same_refl s i : same_object s s i.
Proof. done. Qed.
Lemma same_put s i j x v : j <> i -> same_object s (put_object i x v s) j.
Proof. intros Hne. unfold same_object, says, class_of, hears. rewrite object_put, decide_False by done. done. Qed.

(** *** Each operation *)
Lemma object_some s i : is_Some (says s i) -> exists x v, object s i = Ret (x, v).
Proof. unfold says. destruct (object s i) as [[x v]|e| |]; [eauto|by intros [? ?]..]. Qed.

Theorem value_copy p q s : is_Some (says s p) -> deref (vs_est s) q = UB -> exists s', vstep (VCopy p q) s = (s', [], Ret tt) /\
  says s' q = says s p /\ class_of s' q = class_of s p /\ hears s' q = Some [] /\ (forall i, i <> q -> same_object s s' i) /\ same_contents s s'.
Proof.
  intros (x & v & Hp)%object_some Hq. cbn [ItemValueModel.vstep]. unfold fresh_at. unfold deref in Hq. destruct (es_heap (vs_est s) !! q); [done|]. rewrite Hp.
  eexists. split; [done|]. unfold says, class_of, hears. rewrite object_put, decide_True, Hp by done. split_and!; try done.
  intros i Hi. by apply same_put.
Qed.
Theorem value_clone p q s : is_Some (says s p) -> deref (vs_est s) q = UB -> exists s', vstep (VClone p q) s = (s', [], Ret tt) /\
  says s' q = says s p /\ class_of s' q = type_index <$> class_of s p /\ hears s' q = Some [] /\ (forall i, i <> q -> same_object s s' i) /\ same_contents s s'.
Proof.
  intros (x & v & Hp)%object_some Hq. cbn [ItemValueModel.vstep]. unfold fresh_at. unfold deref in Hq. destruct (es_heap (vs_est s) !! q); [done|]. rewrite Hp.
  eexists. split; [done|]. unfold says, class_of, hears. rewrite object_put, decide_True, Hp by done. split_and!; try done.
  intros i Hi. by apply same_put.
Qed.
Theorem value_assign p q s : is_Some (says s p) -> class_of s q = class_of s p -> exists s', vstep (VAssign p q) s = (s', [], Ret tt) /\
  says s' q = says s p /\ class_of s' q = class_of s q /\ hears s' q = hears s q /\ (forall i, i <> q -> same_object s s' i) /\ same_contents s s'.
Proof.
  intros (x & v & Hp)%object_some Hc. unfold class_of in Hc. rewrite Hp in Hc. destruct (object s q) as [[y w]|e| |] eqn:Hq; [|done..]. injection Hc as Hc.
  cbn [ItemValueModel.vstep]. rewrite Hp, Hq, bool_decide_eq_true_2 by done.
  eexists. split; [done|]. unfold says, class_of, hears. rewrite object_put, decide_True, Hp, Hq by done. split_and!; try done.
  intros i Hi. by apply same_put.
Qed.

Lemma leave_object p x v s i : object s p = Ret (x, v) -> i <> p -> object (leave_behind mf md p x v s) i = object s i.
Proof. intros Hp Hi. unfold leave_behind. destruct (moves _); [|done]. by rewrite object_put, decide_False. Qed.
Lemma leave_source p x v s s0 : object s0 p = Ret (x, v) -> object s p = Ret (x, v) -> left_behind mf md s0 (leave_behind mf md p x v s) p.
Proof.
  intros H0 Hp. unfold left_behind, leave_behind, class_of, hears, says. destruct (it_class x) as [d|n d] eqn:Hc; cbn [moves].
  - rewrite object_put, decide_True, H0 by done. cbn. rewrite Hc. split_and!; try done. eexists _, _, _, _. done.
  - rewrite Hp, H0, Hc. done.
Qed.

Theorem value_move p q s : is_Some (says s p) -> deref (vs_est s) q = UB -> exists s', vstep (VMove p q) s = (s', [], Ret tt) /\
  says s' q = says s p /\ class_of s' q = class_of s p /\ hears s' q = Some [] /\ left_behind mf md s s' p /\
  (forall i, i <> p -> i <> q -> same_object s s' i) /\ same_contents s s'.
Proof.
  intros (x & v & Hp)%object_some Hq. assert (Hne : p <> q).
  { intros ->. apply object_inv in Hp as [Hp _]. unfold deref in Hq. by rewrite Hp in Hq. }
  cbn [ItemValueModel.vstep]. unfold fresh_at. unfold deref in Hq. destruct (es_heap (vs_est s) !! q); [done|]. rewrite Hp.
  eexists. split; [done|]. set (s1 := put_object q _ _ s).
  assert (H1 : object s1 p = Ret (x, v)) by (unfold s1; by rewrite object_put, decide_False).
  assert (Hq1 : forall i, i <> p -> object (leave_behind mf md p x v s1) i = object s1 i) by (intros; by apply leave_object).
  unfold says at 1 2, class_of at 1 2, hears at 1. rewrite !(Hq1 q) by done. unfold s1 at 1 2 3. rewrite object_put, decide_True, Hp by done.
  split_and!; try done.
  - by apply leave_source.
  - intros i Hi1 Hi2. unfold same_object, says, class_of, hears. rewrite (Hq1 i) by done. unfold s1. by rewrite object_put, decide_False.
  - unfold same_contents, leave_behind. by destruct (moves _).
Qed.
Theorem value_move_assign p q s : p <> q -> is_Some (says s p) -> class_of s q = class_of s p -> exists s', vstep (VMoveAssign p q) s = (s', [], Ret tt) /\
  says s' q = says s p /\ class_of s' q = class_of s q /\ hears s' q = hears s q /\ left_behind mf md s s' p /\
  (forall i, i <> p -> i <> q -> same_object s s' i) /\ same_contents s s'.
Proof.
  intros Hne (x & v & Hp)%object_some Hc. unfold class_of in Hc. rewrite Hp in Hc. destruct (object s q) as [[y w]|e| |] eqn:Hq; [|done..]. injection Hc as Hc.
  cbn [ItemValueModel.vstep]. rewrite Hp, Hq, bool_decide_eq_true_2 by done.
  eexists. split; [done|]. set (s1 := put_object q _ _ s).
  assert (H1 : object s1 p = Ret (x, v)) by (unfold s1; by rewrite object_put, decide_False).
  assert (Hq1 : forall i, i <> p -> object (leave_behind mf md p x v s1) i = object s1 i) by (intros; by apply leave_object).
  unfold says at 1 2, class_of at 1 2, hears at 1 2. rewrite !(Hq1 q) by done. unfold s1 at 1 2 3. rewrite object_put, decide_True, Hp, Hq by done.
  split_and!; try done.
  - by apply leave_source.
  - intros i Hi1 Hi2. unfold same_object, says, class_of, hears. rewrite (Hq1 i) by done. unfold s1. by rewrite object_put, decide_False.
  - unfold same_contents, leave_behind. by destruct (moves _).
Qed.

(** *** Programs *)
Local Notation io0 := (fun (_ : vid) (m : imap) => (map_to_list m).*1).
Local Notation ord0 := (fun (_ : viewid) (_ : tview) (_ : vid) (l : list vid) => l).
Lemma io0_ok : iorder_ok io0.
Proof. by intros v m. Qed.
Local Notation ac op := (ord0, io0, op).

Lemma hist1 (op : eop E) : eop_ok op -> ehist_ok [ac op].
Proof. intros. apply list.Forall_singleton. split; [apply io0_ok|done]. Qed.
Lemma hist2 (op op' : eop E) : eop_ok op -> eop_ok op' -> ehist_ok [ac op; ac op'].
Proof. intros. apply list.Forall_cons. split; [split; [apply io0_ok|done]|by apply hist1]. Qed.

Lemma run_new t q c f : es_heap t !! q = None -> estep einv ord0 io0 (ENewItem q c f) t = (ESt (es_g t) (<[q := ItemV c f]> (es_heap t)), [], Ret tt).
Proof. intros H. cbn. unfold new_item. by rewrite H. Qed.
Lemma run_set t q y f : es_heap t !! q = Some y -> estep einv ord0 io0 (ESetFrame q f) t = (ESt (es_g t) (<[q := ItemV (it_class y) f]> (es_heap t)), [], Ret tt).
Proof. intros H. cbn. unfold set_item_frame. by rewrite H. Qed.
Lemma est_eta (t : est E) : ESt (es_g t) (es_heap t) = t.
Proof. by destruct t. Qed.

Lemma vstep_calls op s s' ev r : vop_ok op -> vstep op s = (s', ev, r) -> ok r ->
  exists h, ehist_ok h /\ erun einv h (vs_est s) = (vs_est s', ev, Ret tt) /\ (vcareful s op -> all_calls einv careful h (vs_est s)).
Proof.
  intros Hop Hr Hok. destruct op as [ord io op|p q|p q|p q|p q|p q|p t u d|p c]; cbn [ItemValueModel.vstep] in Hr.
  - destruct Hop as [Hio Hop]. destruct (estep einv ord io op (vs_est s)) as [[t ev1] r1] eqn:H1. injection Hr as <- <- <-.
    exists [(ord, io, op)]. split; [by apply list.Forall_singleton|]. split.
    + cbn [erun]. rewrite H1. destruct r1; [| |by destruct Hok..]; by rewrite app_nil_r.
    + intros Hc. by split.
  - destruct (fresh_at s q) eqn:Hq; [|by injection Hr as <- <- <-; destruct Hok..]. destruct a.
    destruct (object s p) as [[x v]|e| |] eqn:Hp; [|by injection Hr as <- <- <-; destruct Hok..]. injection Hr as <- <- <-. apply fresh_inv in Hq.
    exists [ac (ENewItem q (it_class x) (it_frame x))]. split; [by apply hist1|]. split; [|by intros _].
    cbn [erun]. by rewrite run_new.
  - destruct (fresh_at s q) eqn:Hq; [|by injection Hr as <- <- <-; destruct Hok..]. destruct a.
    destruct (object s p) as [[x v]|e| |] eqn:Hp; [|by injection Hr as <- <- <-; destruct Hok..]. injection Hr as <- <- <-. apply fresh_inv in Hq.
    exists [ac (ENewItem q (type_index (it_class x)) (it_frame x))]. split; [by apply hist1|]. split; [|by intros _].
    cbn [erun]. by rewrite run_new.
  - destruct (fresh_at s q) eqn:Hq; [|by injection Hr as <- <- <-; destruct Hok..]. destruct a.
    destruct (object s p) as [[x v]|e| |] eqn:Hp; [|by injection Hr as <- <- <-; destruct Hok..]. injection Hr as <- <- <-. apply fresh_inv in Hq.
    apply object_inv in Hp as [Hp _]. unfold leave_behind. destruct (moves _).
    + exists [ac (ENewItem q (it_class x) (it_frame x)); ac (ESetFrame p (mf (it_frame x)))]. split; [by apply hist2|].
      assert (Hne : p <> q) by (intros ->; congruence). split.
      * cbn [erun]. rewrite run_new by done. erewrite run_set; [done|]. cbn. by rewrite lookup_insert_ne.
      * intros Hc. cbn [all_calls]. rewrite run_new by done. split; [done|]. split; [exact Hc|done].
    + exists [ac (ENewItem q (it_class x) (it_frame x))]. split; [by apply hist1|]. split; [|by intros _]. cbn [erun]. by rewrite run_new.
  - destruct (object s p) as [[x v]|e| |] eqn:Hp; [|by injection Hr as <- <- <-; destruct Hok..].
    destruct (object s q) as [[y w]|e| |] eqn:Hq; [|by injection Hr as <- <- <-; destruct Hok..]. apply object_inv in Hq as [Hq _].
    destruct (bool_decide _) eqn:Hc; [|by injection Hr as <- <- <-; destruct Hok]. injection Hr as <- <- <-.
    exists [ac (ESetFrame q (it_frame x))]. split; [by apply hist1|]. split; [|intros Hn; split; [exact Hn|done]]. cbn [erun]. by erewrite run_set by done.
  - destruct (object s p) as [[x v]|e| |] eqn:Hp; [|by injection Hr as <- <- <-; destruct Hok..]. apply object_inv in Hp as [Hp _].
    destruct (object s q) as [[y w]|e| |] eqn:Hq; [|by injection Hr as <- <- <-; destruct Hok..]. apply object_inv in Hq as [Hq _].
    destruct (bool_decide _) eqn:Hc; [|by injection Hr as <- <- <-; destruct Hok]. apply bool_decide_eq_true in Hc. injection Hr as <- <- <-.
    unfold leave_behind. destruct (moves _).
    + exists [ac (ESetFrame q (it_frame x)); ac (ESetFrame p (mf (it_frame x)))]. split; [by apply hist2|].
      assert (Hp' : exists z, es_heap (ESt (es_g (vs_est s)) (<[q := ItemV (it_class y) (it_frame x)]> (es_heap (vs_est s)))) !! p = Some z /\ it_class z = it_class x).
      { cbn. destruct (decide (p = q)) as [->|Hne]; [rewrite lookup_insert; by eexists|rewrite lookup_insert_ne by done; by eexists]. }
      destruct Hp' as (z & Hz & Hcz). split.
      * cbn [erun]. erewrite run_set by done. erewrite run_set by done. by rewrite Hcz.
      * intros [Hn1 Hn2]. cbn [all_calls]. erewrite run_set by done. split; [exact Hn2|]. split; [exact Hn1|done].
    + exists [ac (ESetFrame q (it_frame x))]. split; [by apply hist1|]. split; [|intros [_ Hn]; split; [exact Hn|done]]. cbn [erun]. by erewrite run_set by done.
  - destruct (object s p) as [[x v]|e| |] eqn:Hp; [|by injection Hr as <- <- <-; destruct Hok..]. apply object_inv in Hp as [Hp _]. injection Hr as <- <- <-.
    exists []. split; [by apply list.Forall_nil|]. split; [|done]. cbn. by rewrite insert_id, est_eta.
  - destruct (object s p) as [[x v]|e| |] eqn:Hp; [|by injection Hr as <- <- <-; destruct Hok..]. apply object_inv in Hp as [Hp _]. injection Hr as <- <- <-.
    exists []. split; [by apply list.Forall_nil|]. split; [|done]. cbn. by rewrite insert_id, est_eta.
Qed.

Theorem values_reachable l s s' ev : ereachable einv (vs_est s) -> Forall vop_ok l -> vrun l s = (s', ev, Ret tt) -> ereachable einv (vs_est s').
Proof.
  revert s s' ev. induction l as [|op l IH]; intros s s' ev Hs Hl Hr; cbn [ItemValueModel.vrun] in Hr; [by injection Hr as <- _|].
  apply list.Forall_cons in Hl as [Hop Hl]. destruct (vstep op s) as [[s1 ev1] r] eqn:H1.
  assert (Hok : ok r -> ereachable einv (vs_est s1)).
  { intros Hok. destruct (vstep_calls _ _ _ _ _ Hop H1 Hok) as (h & Hh & Hrh & _). by eapply (ereachable_run einv). }
  destruct r; [| |done..]; destruct (vrun l s1) as [[s2 ev2] r2] eqn:H2; injection Hr as <- <- ->; (eapply (IH s1); [by apply Hok|done..]).
Qed.

Lemma values_right l s s' ev : Inv einv (vs_est s) -> Right (vs_est s) -> Forall vop_ok l -> vall_careful einv mf md l s -> vrun l s = (s', ev, Ret tt) ->
  Inv einv (vs_est s') /\ Right (vs_est s').
Proof.
  revert s s' ev. induction l as [|op l IH]; intros s s' ev Hs HR Hl Hc Hr; cbn [ItemValueModel.vrun] in Hr; [by injection Hr as <- _|].
  apply list.Forall_cons in Hl as [Hop Hl]. cbn [vall_careful] in Hc. destruct Hc as [Hc1 Hc2]. destruct (vstep op s) as [[s1 ev1] r] eqn:H1. cbn [fst] in Hc2.
  assert (Hok : ok r -> Inv einv (vs_est s1) /\ Right (vs_est s1)).
  { intros Hok. destruct (vstep_calls _ _ _ _ _ Hop H1 Hok) as (h & Hh & Hrh & Hca). eapply (careful_run einv); try done. by apply Hca. }
  destruct r; [| |done..]; destruct (vrun l s1) as [[s2 ev2] r2] eqn:H2; injection Hr as <- <- ->; (eapply (IH s1); [by apply Hok|by apply Hok|done..]).
Qed.
Theorem values_know_frame l s ev : Forall vop_ok l -> vall_careful einv mf md l vst_new -> vrun l vst_new = (s, ev, Ret tt) ->
  forall f i, stored (vs_est s) f i -> exists x, deref (vs_est s) i = Ret x /\ it_frame x = f.
Proof.
  intros Hl Hc Hr. destruct (values_right l vst_new s ev) as [[Hwf _] [R1 _]]; try done.
  - apply (Inv_new einv).
  - split; intros f i; change (items_of (gs_dg (es_g (vs_est vst_new))) f) with (∅ : imap); rewrite cnt_empty; lia.
  - intros f i Hst. apply (stored_cnt einv) in Hst; [|done]. destruct (R1 f i Hst) as (x & Hx & Hf). exists x. by rewrite deref_heap.
Qed.

(** *** What goes wrong otherwise *)
Lemma says_frame s i t u f d : says s i = Some (t, u, f, d) -> exists x, deref (vs_est s) i = Ret x /\ it_frame x = f.
Proof.
  unfold says. destruct (object s i) as [[x v]|e| |] eqn:Ho; [|done..]. intros [= <- <- <- <-]. apply object_inv in Ho as [Ho _].
  exists x. by rewrite deref_heap.
Qed.
Lemma lost_item s i t u f d : ereachable einv (vs_est s) -> says s i = Some (t, u, f, d) -> ~ stored (vs_est s) f i ->
  exists e, remove_item i (vs_est s) = (vs_est s, [], Throw e).
Proof. intros Hr (x & Hx & <-)%says_frame Hn. eexists. by apply (remove_item_throws einv). Qed.

Lemma value_step_reach op s s' ev : ereachable einv (vs_est s) -> vop_ok op -> vstep op s = (s', ev, Ret tt) -> ereachable einv (vs_est s').
Proof. intros Hs Hop H1. destruct (vstep_calls op s s' ev (Ret tt)) as (h & Hh & Hrh & _); [done..|by split|]. by eapply (ereachable_run einv). Qed.

Lemma contents_stored s s' f i : same_contents s s' -> stored (vs_est s') f i <-> stored (vs_est s) f i.
Proof.
  unfold same_contents. intros H. destruct s as [[g h] v], s' as [[g' h'] v']. cbn in *. subst. done.
Qed.

(** Assigning over an item that is in a frame other than the source's. *)
Theorem assigned_lost p q s f t u g d : ereachable einv (vs_est s) -> stored (vs_est s) f q -> says s p = Some (t, u, g, d) -> class_of s q = class_of s p ->
  ~ stored (vs_est s) g q ->
  exists s' e, vstep (VAssign p q) s = (s', [], Ret tt) /\ stored (vs_est s') f q /\ remove_item q (vs_est s') = (vs_est s', [], Throw e).
Proof.
  intros Hs Hst Hp Hc Hn. destruct (value_assign p q s) as (s' & H1 & Hq & _ & _ & _ & Hg); [by rewrite Hp|done|]. rewrite Hp in Hq.
  assert (Hs' : ereachable einv (vs_est s')) by by apply (value_step_reach (VAssign p q) s s' []).
  destruct (lost_item s' q t u g d) as [e He]; [done..|by rewrite (contents_stored s s') by done|]. exists s', e. split; [done|]. split; [by apply (contents_stored s s')|done].
Qed.
(** Moving from an item that is in a frame. *)
Theorem moved_lost p q s f t u d n : ereachable einv (vs_est s) -> stored (vs_est s) f p -> says s p = Some (t, u, f, d) -> class_of s p = Some (CItem n) ->
  deref (vs_est s) q = UB -> ~ stored (vs_est s) (mf f) p ->
  exists s' e, vstep (VMove p q) s = (s', [], Ret tt) /\ stored (vs_est s') f p /\ remove_item p (vs_est s') = (vs_est s', [], Throw e).
Proof.
  intros Hs Hst Hp Hc Hq Hn. destruct (value_move p q s) as (s' & H1 & _ & _ & _ & (_ & _ & Hl) & _ & Hg); [by rewrite Hp|done|]. rewrite Hc in Hl.
  destruct Hl as (t' & u' & f' & d' & Hp' & Hl). rewrite Hp in Hp'. injection Hp' as <- <- <- <-.
  assert (Hs' : ereachable einv (vs_est s')) by by apply (value_step_reach (VMove p q) s s' []).
  destruct (lost_item s' p t u (mf f) (md d)) as [e He]; [done..|by rewrite (contents_stored s s') by done|]. exists s', e. split; [done|]. split; [by apply (contents_stored s s')|done].
Qed.
End thms.
