(** Proofs about the small classes. *)
From Coq Require Import Ascii.
From stdpp Require Import prelude strings gmap.
From Verif Require Import Outcome ItemClass BoxModel MiscModel SpecMisc QueueThms.

(** * EnvireManager *)
(** Every stored pointer is not null, is a graph made before, and belongs to one name. *)
Definition mg_ok (m : manager) : Prop :=
  (forall n g, mg_graphs m !! n = Some g -> exists k, g = Some k /\ k < mg_next m) /\
  (forall n n' k, mg_graphs m !! n = Some (Some k) -> mg_graphs m !! n' = Some (Some k) -> n = n').

Lemma get_instance_ok n m : mg_ok m -> exists m' g, get_instance n m = (m', Some g) /\ mg_ok m' /\ mg_graphs m' !! n = Some (Some g) /\
  (forall n' k, mg_graphs m !! n' = Some (Some k) -> mg_graphs m' !! n' = Some (Some k)).
Proof.
  intros [H1 H2]. unfold get_instance. destruct (mg_graphs m !! n) as [g|] eqn:E.
  - destruct (H1 n g E) as (k & -> & Hk). rewrite E. by exists m, k.
  - cbn [mg_graphs mg_next]. rewrite lookup_insert. eexists _, _. split; [done|]. cbn. rewrite insert_insert, lookup_insert.
    split; [split|split; [done|]].
    + intros n' g. cbn. destruct (decide (n' = n)) as [->|Hn]; [rewrite lookup_insert|rewrite lookup_insert_ne by done].
      * intros [= <-]. exists (mg_next m). split; [done|lia].
      * intros Hg. destruct (H1 _ _ Hg) as (k & -> & Hk). exists k. split; [done|lia].
    + intros n1 n2 k. cbn. destruct (decide (n1 = n)) as [->|Hn1], (decide (n2 = n)) as [->|Hn2]; rewrite ?lookup_insert, ?lookup_insert_ne by done; try done.
      * intros [= <-] Hk. destruct (H1 _ _ Hk) as (k' & [= <-] & Hlt). lia.
      * intros Hk [= <-]. destruct (H1 _ _ Hk) as (k' & [= <-] & Hlt). lia.
      * apply H2.
    + intros n' k Hk. rewrite lookup_insert_ne; [done|]. intros ->. by rewrite E in Hk.
Qed.
Lemma get_instances_ok names m : mg_ok m -> exists m' gs, get_instances names m = (m', gs) /\ mg_ok m' /\
  Forall2 (fun n g => exists k, g = Some k /\ mg_graphs m' !! n = Some (Some k)) names gs /\
  (forall n' k, mg_graphs m !! n' = Some (Some k) -> mg_graphs m' !! n' = Some (Some k)).
Proof.
  revert m. induction names as [|n names IH]; intros m Hm; cbn [get_instances]; [by exists m, []|].
  destruct (get_instance_ok n m Hm) as (m1 & g & -> & Hm1 & Hg & Hk). destruct (IH m1 Hm1) as (m2 & gs & -> & Hm2 & Hgs & Hk2).
  exists m2, (Some g :: gs). split; [done|]. split; [done|]. split; [|by auto]. constructor; [|done]. exists g. auto.
Qed.
Lemma mg_ok_init : mg_ok mg_init.
Proof. split; [intros n g|intros n n' k]; cbn; by rewrite lookup_empty. Qed.
Lemma one_graph_per_name names i j n1 n2 g1 g2 :
  names !! i = Some n1 -> names !! j = Some n2 -> (get_instances names mg_init).2 !! i = Some g1 -> (get_instances names mg_init).2 !! j = Some g2 ->
  g1 <> None /\ (g1 = g2 <-> n1 = n2).
Proof.
  destruct (get_instances_ok names mg_init) as (m & gs & -> & [_ Hinj] & HF & _); [exact mg_ok_init|].
  cbn [snd]. intros Hi Hj Gi Gj.
  destruct (Forall2_lookup_lr _ _ _ _ _ _ HF Hi Gi) as (k1 & -> & K1). destruct (Forall2_lookup_lr _ _ _ _ _ _ HF Hj Gj) as (k2 & -> & K2).
  split; [done|]. split; [intros [= ->]; by apply (Hinj _ _ k2)|intros ->; congruence].
Qed.
Lemma results_for_all names : length (get_instances names mg_init).2 = length names.
Proof.
  destruct (get_instances_ok names mg_init) as (m & gs & -> & _ & HF & _); [exact mg_ok_init|].
  cbn. by apply Forall2_length in HF.
Qed.

(** * ClassLoader *)
Lemma load_loop_spec {L} (ld : L -> string -> L * bool) names l b : exists l', load_loop ld names l b = (l', names, b || negb (if (load_loop ld names l false).2 then false else true)) /\
  ((load_loop ld names l false).2 = true <-> ~ all_load ld names l).
Proof.
  revert l b. induction names as [|n names IH]; intros l b; cbn [load_loop all_load].
  - exists l. cbn. rewrite orb_false_r. split; [done|]. naive_solver.
  - destruct (ld l n) as [l1 ok]. cbn [fst snd]. destruct ok.
    + destruct (IH l1 b) as (l' & E & I). destruct (IH l1 false) as (l'' & E' & _). rewrite E. rewrite E' in *. cbn in *.
      exists l'. split; [by destruct b, (load_loop ld names l1 false).2|]. rewrite I in *. naive_solver.
    + destruct (IH l1 true) as (l' & E & I). rewrite E. cbn. exists l'. split; [by rewrite orb_true_r|]. naive_solver.
Qed.
Lemma load_all_spec {L} (ld : L -> string -> L * bool) names l : exists l' r, load_all_libraries ld names l = (l', names, r) /\ (r = true <-> ~ all_load ld names l).
Proof.
  unfold load_all_libraries. destruct (load_loop_spec ld names l false) as (l' & E & I). rewrite E in *. cbn in I. eexists l', _. split; [done|]. done.
Qed.

(** * escapeAngleBraces *)
Lemma prefix1 c s t : String.prefix (String c "") (String s t) = bool_decide (c = s).
Proof. cbn. destruct (ascii_dec c s), t; by case_bool_decide. Qed.
Lemma replace1 c f s t : replace_all (String c "") f 0 (String s t) = if bool_decide (c = s) then String.append f (replace_all (String c "") f 0 t) else String s (replace_all (String c "") f 0 t).
Proof. cbn [replace_all]. rewrite prefix1. by case_bool_decide. Qed.
Lemma append_two a b (s : string) : String.append (String a (String b EmptyString)) s = String a (String b s).
Proof. reflexivity. Qed.
Lemma escape_spec s : escape_angle_braces s = with_backslashes s.
Proof.
  unfold escape_angle_braces. induction s as [|c s IH]; [done|]. rewrite replace1. cbn [with_backslashes].
  destruct (bool_decide_reflect ("<"%char = c)) as [<-|H1].
  - rewrite append_two, !replace1. rewrite !(bool_decide_false (">"%char = _)) by done. rewrite bool_decide_true by by left. by rewrite IH.
  - rewrite replace1. destruct (bool_decide_reflect (">"%char = c)) as [<-|H2].
    + rewrite bool_decide_true by by right. rewrite append_two. by rewrite IH.
    + rewrite bool_decide_false by naive_solver. by rewrite IH.
Qed.
Lemma with_backslashes_head s c t : with_backslashes s = String c t -> c <> "<"%char /\ c <> ">"%char.
Proof. destruct s as [|x s]; cbn; [done|]. case_bool_decide as Hx; intros [= <- _]; [done|naive_solver]. Qed.
Lemma with_backslashes_inj s t : with_backslashes s = with_backslashes t -> s = t.
Proof.
  revert t. induction s as [|c s IH]; intros [|d t]; cbn; try done; [by case_bool_decide|by case_bool_decide|].
  case_bool_decide as Hc; case_bool_decide as Hd.
  - intros [= -> E]. f_equal. by apply IH.
  - intros [= <- E]. symmetry in E. apply with_backslashes_head in E. naive_solver.
  - intros [= -> E]. apply with_backslashes_head in E. naive_solver.
  - intros [= -> E]. f_equal. by apply IH.
Qed.
Lemma escape_inj s t : escape_angle_braces s = escape_angle_braces t -> s = t.
Proof. rewrite !escape_spec. apply with_backslashes_inj. Qed.

(** * Metadata *)
Lemma registrations_lookup regs t : registrations regs !! t = last_registered t regs.
Proof.
  unfold registrations. assert (Hgen : forall m, foldl (fun m r => add_mapping r.1 r.2 m) m regs !! t = match last_registered t regs with Some d => Some d | None => m !! t end).
  { induction regs as [|[t' d] regs IH]; intros m; [done|]. cbn [foldl last_registered fst snd]. rewrite IH. destruct (last_registered t regs); [done|].
    unfold add_mapping. case_bool_decide as Ht; [subst; by rewrite lookup_insert|by rewrite lookup_insert_ne]. }
  rewrite Hgen, lookup_empty. by destruct (last_registered t regs).
Qed.
Lemma metadata_lookup regs t : get_metadata t (registrations regs) = match last_registered t regs with Some d => Ret d | None => Throw XOutOfRange end.
Proof. unfold get_metadata. by rewrite registrations_lookup. Qed.
Lemma last_registered_in t regs : is_Some (last_registered t regs) <-> exists d, (t, d) ∈ regs.
Proof.
  induction regs as [|[t' d] regs IH]; cbn [last_registered].
  - split; [by intros [? ?]|]. intros [d Hd]. by apply elem_of_nil in Hd.
  - setoid_rewrite elem_of_cons. destruct (last_registered t regs) as [d'|].
    + split; [|done]. intros _. destruct (proj1 IH ltac:(done)) as [d0 H0]. eauto.
    + case_bool_decide as Ht.
      * subst. split; [|done]. intros _. eauto.
      * split; [by intros [? ?]|]. intros [d0 [[= -> ->]|H0]]; [done|]. apply IH. eauto.
Qed.
Lemma metadata_contains regs t : contains_metadata t (registrations regs) = true <-> exists d, (t, d) ∈ regs.
Proof. unfold contains_metadata. rewrite bool_decide_eq_true, registrations_lookup. apply last_registered_in. Qed.
Lemma class_name_spec regs c : class_name c (registrations regs) = Ret (md_class <$> last_registered (type_index c) regs).
Proof.
  unfold class_name, contains_metadata, get_metadata. rewrite registrations_lookup. by destruct (last_registered (type_index c) regs) as [d|].
Qed.
Lemma class_name_unknown_spec regs c : class_name_or_unknown c (registrations regs) = Ret (default "UnknownItem" (md_class <$> last_registered (type_index c) regs)).
Proof. unfold class_name_or_unknown. by rewrite class_name_spec. Qed.

(** * Change callbacks *)
Definition sig_ok (s : signal) : Prop := NoDup (sg_slots s).*1 /\ Forall (fun x => x.1 < sg_next s) (sg_slots s).
Lemma sig_ok_new : sig_ok sig_new.
Proof. split; constructor. Qed.
Lemma sig_call_ok s c : sig_ok s -> sig_ok (sig_call s c) /\ sg_next s <= sg_next (sig_call s c).
Proof.
  intros [Hn Hl]. destruct c as [cb|cb]; cbn; split; try lia; split; cbn.
  - rewrite fmap_app. cbn. apply list.NoDup_app. split; [done|]. split; [|apply list.NoDup_singleton].
    intros x Hx Hx'. apply elem_of_list_singleton in Hx' as ->. apply elem_of_list_fmap in Hx as ([i j] & Heq & Hij). cbn in Heq. subst i.
    rewrite list.Forall_forall in Hl. specialize (Hl _ Hij). cbn in Hl. lia.
  - apply Forall_app. split; [|repeat constructor; cbn; lia]. eapply list.Forall_impl; [exact Hl|]. intros x Hx. cbn in *. lia.
  - eapply sublist_NoDup; [exact Hn|]. apply sublist_fmap, filter_sublist.
  - apply list.Forall_forall. intros x Hx. apply elem_of_list_filter in Hx as [_ Hx]. rewrite list.Forall_forall in Hl. by apply Hl.
Qed.

Lemma sig_calls_ok calls s : sig_ok s -> sig_ok (foldl sig_call s calls) /\ sg_next s <= sg_next (foldl sig_call s calls).
Proof.
  revert s. induction calls as [|c calls IH]; intros s Hs; [done|]. cbn [foldl]. destruct (sig_call_ok s c Hs) as [H1 L1].
  destruct (IH _ H1) as [H2 L2]. split; [done|lia].
Qed.
(** Old slots cannot come back. *)
Lemma sig_calls_old calls s x : x ∈ sg_slots (foldl sig_call s calls) -> x.1 < sg_next s -> x ∈ sg_slots s.
Proof.
  revert s. induction calls as [|c calls IH]; intros s Hx Hl; [done|]. cbn [foldl] in Hx.
  assert (Hx' : x ∈ sg_slots (sig_call s c)). { apply IH; [done|]. destruct c; cbn; lia. }
  destruct c as [cb|cb]; cbn in Hx'.
  - apply elem_of_app in Hx' as [Hx'|Hx']; [done|]. apply elem_of_list_singleton in Hx' as ->. cbn in Hl. lia.
  - by apply elem_of_list_filter in Hx' as [_ Hx'].
Qed.
Definition no_disconnect (calls : list scall) : Prop := forall cb, SDisconnect cb ∉ calls.
Lemma sig_calls_keep calls s x : no_disconnect calls -> x ∈ sg_slots s -> x ∈ sg_slots (foldl sig_call s calls).
Proof.
  revert s. induction calls as [|c calls IH]; intros s Hn Hx; [done|]. cbn [foldl]. apply IH.
  - intros cb Hcb. apply (Hn cb). by right.
  - destruct c as [cb|cb]; cbn; [apply elem_of_app; by left|]. exfalso. apply (Hn cb). by left.
Qed.
Lemma slot_present id cb (l : list (nat * nat)) : (id, cb) ∈ l -> existsb (fun x => Nat.eqb x.1 id) l = true.
Proof. intros Hl. apply existsb_exists. exists (id, cb). split; [by apply elem_of_list_In|]. apply Nat.eqb_refl. Qed.

Section emit.
Context {H : Type} (react : H -> nat -> H * list scall).
Lemma emit_all todo h s : (forall h cb, no_disconnect (react h cb).2) -> (forall x, x ∈ todo -> x ∈ sg_slots s) -> (sig_emit react todo h s).2 = todo.*2.
Proof.
  intros Hr. revert h s. induction todo as [|[id cb] todo IH]; intros h s Ht; [done|]. cbn [sig_emit].
  rewrite (slot_present id cb) by (apply Ht; by left). specialize (Hr h cb). destruct (react h cb) as [h1 calls]. cbn in Hr.
  specialize (IH h1 (foldl sig_call s calls)). destruct (sig_emit react todo h1 (foldl sig_call s calls)) as [[h2 s2] tr]. cbn in *.
  f_equal. apply IH. intros x Hx. apply sig_calls_keep; [done|]. apply Ht. by right.
Qed.
Lemma emit_sublist todo h s : sublist (sig_emit react todo h s).2 todo.*2.
Proof.
  revert h s. induction todo as [|[id cb] todo IH]; intros h s; [done|]. cbn [sig_emit]. destruct (existsb _ _).
  - destruct (react h cb) as [h1 calls]. specialize (IH h1 (foldl sig_call s calls)).
    destruct (sig_emit react todo h1 (foldl sig_call s calls)) as [[h2 s2] tr]. cbn in *. by apply sublist_skip.
  - cbn. by apply sublist_cons.
Qed.
Lemma emit_disconnected todo h s b : sig_ok s -> (forall x, x ∈ todo -> x.1 < sg_next s) ->
  (forall x, x ∈ sg_slots s -> x.2 = b -> x ∉ todo) -> (forall x y, x ∈ todo -> y ∈ sg_slots s -> x.1 = y.1 -> x = y) ->
  b ∉ (sig_emit react todo h s).2.
Proof.
  revert h s. induction todo as [|[id cb] todo IH]; intros h s Hs Hl Hb Hid; [apply not_elem_of_nil|]. cbn [sig_emit].
  destruct (existsb (fun x => Nat.eqb x.1 id) (sg_slots s)) eqn:Ex.
  - apply existsb_exists in Ex as ([id' cb'] & Hin & Heq). apply elem_of_list_In in Hin. cbn in Heq. apply Nat.eqb_eq in Heq as ->.
    assert (Hcb : (id, cb) = (id, cb')) by (by apply (Hid _ _); [left|..]). injection Hcb as <-.
    assert (Hne : b <> cb). { intros ->. apply (Hb _ Hin); [done|by left]. }
    destruct (react h cb) as [h1 calls]. destruct (sig_calls_ok calls s Hs) as [Hs1 Hn1].
    assert (Hb1 : b ∉ (sig_emit react todo h1 (foldl sig_call s calls)).2).
    { apply IH; [done|..].
      - intros x Hx. specialize (Hl x ltac:(by right)). lia.
      - intros x Hx Hx2 Ht. apply sig_calls_old in Hx; [|apply Hl; by right]. by apply (Hb x Hx Hx2); right.
      - intros x y Hx Hy Hxy. apply sig_calls_old in Hy; [|rewrite <-Hxy; apply Hl; by right]. apply Hid; [by right|done|done]. }
    destruct (sig_emit react todo h1 (foldl sig_call s calls)) as [[h2 s2] tr]. cbn in *. apply not_elem_of_cons. by split.
  - apply IH; [done|..].
    + intros x Hx. apply Hl. by right.
    + intros x Hx Hx2 Ht. by apply (Hb x Hx Hx2); right.
    + intros x y Hx Hy Hxy. apply Hid; [by right|done|done].
Qed.
Lemma changed_all h s : (forall h cb, no_disconnect (react h cb).2) -> (contents_changed react h s).2 = (sg_slots s).*2.
Proof. intros Hr. by apply emit_all. Qed.
(** A callback disconnected by an earlier one is not called any more, even if it was connected again. *)
Lemma changed_disconnected h s id cb rest h1 calls b : sig_ok s -> sg_slots s = (id, cb) :: rest -> react h cb = (h1, calls) ->
  SDisconnect b ∈ calls -> cb <> b -> exists h2 s2 tr, contents_changed react h s = (h2, s2, cb :: tr) /\ b ∉ tr.
Proof.
  intros Hs Hsl Hr Hd Hne. assert (contents_changed react h s = sig_emit react ((id, cb) :: rest) h s) as -> by (unfold contents_changed; by rewrite Hsl). cbn [sig_emit]. rewrite (slot_present id cb) by (rewrite Hsl; by left).
  rewrite Hr. pose proof (sig_calls_ok calls s Hs) as [Hs1 Hn1].
  assert (Hb : b ∉ (sig_emit react rest h1 (foldl sig_call s calls)).2).
  { destruct Hs as [Hnd Hlt]. rewrite list.Forall_forall in Hlt.
    assert (Hrest : forall x, x ∈ rest -> x.1 < sg_next s) by (intros x Hx; apply Hlt; rewrite Hsl; by right).
    apply emit_disconnected; [done|..].
    - intros x Hx. specialize (Hrest x Hx). lia.
    - intros x Hx Hx2 Hxr. apply elem_of_list_split in Hd as (c1 & c2 & ->). rewrite foldl_app in Hx. cbn [foldl] in Hx.
      assert (Hs0 : sg_next s <= sg_next (sig_call (foldl sig_call s c1) (SDisconnect b))).
      { cbn. apply (sig_calls_ok c1 s). split; [done|]. by apply list.Forall_forall. }
      apply sig_calls_old in Hx; [|specialize (Hrest x Hxr); lia]. cbn in Hx. by apply elem_of_list_filter in Hx as [Hx _].
    - intros x y Hx Hy Hxy. apply sig_calls_old in Hy; [|rewrite <-Hxy; by apply Hrest].
      assert (Hxs : x ∈ sg_slots s) by (rewrite Hsl; by right).
      apply elem_of_list_lookup in Hxs as [i Hi]. apply elem_of_list_lookup in Hy as [j Hj].
      assert (Hij : i = j). { apply (NoDup_lookup (sg_slots s).*1 i j x.1 Hnd); rewrite list_lookup_fmap; [by rewrite Hi|rewrite Hj; cbn; by rewrite Hxy]. }
      congruence. }
  destruct (sig_emit react rest h1 (foldl sig_call s calls)) as [[h2 s2] tr]. eexists _, _, _. split; [done|]. done.
Qed.
End emit.

Lemma sig_connected calls : (sg_slots (foldl sig_call sig_new calls)).*2 = still_connected calls.
Proof.
  assert (Hgen : forall s, (sg_slots (foldl sig_call s calls)).*2 =
    filter (fun cb => SDisconnect cb ∉ calls) (sg_slots s).*2 ++ still_connected calls).
  { induction calls as [|c calls IH]; intros s.
    - cbn [foldl still_connected]. rewrite app_nil_r. symmetry. induction (sg_slots s).*2 as [|x l IHl]; [done|].
      rewrite filter_cons_True; [by rewrite IHl|]. apply not_elem_of_nil.
    - cbn [foldl]. rewrite IH. destruct c as [cb|cb]; cbn [sig_call sg_slots still_connected].
      + rewrite fmap_app, list.filter_app, <-app_assoc. f_equal.
        * apply list_filter_iff. intros x. by rewrite not_elem_of_cons; naive_solver.
        * cbn [fmap list_fmap]. rewrite filter_cons, filter_nil. cbn [snd]. case_decide as Hd; case_bool_decide as Hb; done.
      + f_equal. induction (sg_slots s) as [|[i x] l IHl]; [done|]. cbn [fmap list_fmap]. rewrite !filter_cons. cbn [snd].
        destruct (decide (x = cb)) as [->|Hx].
        * rewrite decide_False by (by intros Hc). rewrite IHl. rewrite decide_False; [done|]. intros Hc. apply Hc. by left.
        * rewrite decide_True by done. cbn [fmap list_fmap]. rewrite filter_cons, IHl. cbn [snd].
          destruct (decide (SDisconnect x ∈ calls)) as [Hin|Hin].
          -- rewrite !decide_False by (rewrite ?not_elem_of_cons; naive_solver). done.
          -- rewrite !decide_True by (rewrite ?not_elem_of_cons; naive_solver). done. }
  by rewrite Hgen.
Qed.

(** * Item objects *)
Lemma copy_spec p q o i : p <> q -> ob_items o !! p = Some i -> exists o', copy_item p q o = Ret o' /\
  content o' q = content o p /\ callbacks o' q = Some [] /\ boundary o' q = boundary o p /\ io_class <$> ob_items o' !! q = Some (io_class i) /\
  (forall r, r <> q -> ob_items o' !! r = ob_items o !! r) /\ ob_boxes o' = ob_boxes o.
Proof.
  intros Hne Hi. unfold copy_item. rewrite Hi. eexists. split; [done|]. unfold content, callbacks, boundary. cbn. rewrite lookup_insert, Hi. cbn.
  repeat split; try done. intros r Hr. by rewrite lookup_insert_ne by done.
Qed.
Lemma assign_spec p q o i j : p <> q -> ob_items o !! p = Some i -> ob_items o !! q = Some j -> exists o', assign_item p q o = Ret o' /\
  content o' q = content o p /\ callbacks o' q = callbacks o q /\ boundary o' q = boundary o p /\
  (forall r, r <> q -> ob_items o' !! r = ob_items o !! r) /\ ob_boxes o' = ob_boxes o.
Proof.
  intros Hne Hi Hj. unfold assign_item. rewrite Hi, Hj. eexists. split; [done|]. unfold content, callbacks, boundary. cbn. rewrite lookup_insert, Hi, Hj. cbn.
  repeat split; try done. intros r Hr. by rewrite lookup_insert_ne by done.
Qed.
Lemma clone_spec p q o i : p <> q -> ob_items o !! p = Some i -> exists o', clone_item p q o = Ret o' /\
  content o' q = content o p /\ callbacks o' q = Some [] /\ boundary o' q = None /\ io_class <$> ob_items o' !! q = Some (type_index (io_class i)) /\
  (forall r, r <> q -> ob_items o' !! r = ob_items o !! r) /\ ob_boxes o' = ob_boxes o.
Proof.
  intros Hne Hi. unfold clone_item. rewrite Hi. eexists. split; [done|]. unfold content, callbacks, boundary. cbn. rewrite lookup_insert, Hi. cbn.
  repeat split; try done. intros r Hr. by rewrite lookup_insert_ne by done.
Qed.
Lemma change_other p c o o' q : change_item p c o = Ret o' -> p <> q -> ob_items o' !! q = ob_items o !! q.
Proof.
  unfold change_item. destruct (ob_items o !! p) as [[cl t u f d s b]|]; [|done]. intros E Hne.
  destruct c; try (injection E as <-; cbn; by rewrite lookup_insert_ne by done).
  destruct b as [b|]; [|done]. destruct (ob_boxes o !! b); [|done]. by injection E as <-.
Qed.
Lemma changes_other l o o' q : changes l o = Ret o' -> (forall p c, (p, c) ∈ l -> p <> q) -> ob_items o' !! q = ob_items o !! q.
Proof.
  revert o. induction l as [|[p c] l IH]; intros o; cbn [changes]; [by intros [= ->]|]. intros E Hl.
  destruct (change_item p c o) as [o1| | |] eqn:E1; try done. cbn in E. rewrite (IH o1 E); [|intros p' c' Hp; apply (Hl p' c'); by right].
  apply (change_other p c o); [done|]. apply (Hl p c). by left.
Qed.
Lemma filter_snd cb (l : list (nat * nat)) : (filter (fun x => x.2 <> cb) l).*2 = filter (fun x => x <> cb) l.*2.
Proof.
  induction l as [|x l IH]; [done|]. cbn [fmap list_fmap]. rewrite !filter_cons.
  destruct (decide (x.2 <> cb)), (decide (x.2 <> cb)); try done; cbn; by rewrite IH.
Qed.
Lemma change_this p c o o' : change_item p c o = Ret o' ->
  content o' p = content_after c <$> content o p /\ callbacks o' p = callbacks_after c <$> callbacks o p /\
  io_class <$> ob_items o' !! p = io_class <$> ob_items o !! p /\
  boundary o' p = (match c with ISetBoundary b => q ← b; ob_boxes o !! q | IExtend x => (fun bx => box_extend_point bx x) <$> boundary o p | _ => boundary o p end).
Proof.
  unfold change_item, content, callbacks, boundary. destruct (ob_items o !! p) as [[cl t u f d s b]|] eqn:Ei; [|done]. intros E.
  destruct c; try (injection E as <-; cbn; rewrite lookup_insert; cbn; done).
  - injection E as <-. cbn. rewrite lookup_insert. cbn. split; [done|]. split; [|done]. f_equal. destruct c; cbn.
    + by rewrite fmap_app.
    + apply filter_snd.
  - destruct b as [b|]; [|done]. destruct (ob_boxes o !! b) as [bx|] eqn:Eb; [|done]. injection E as <-. cbn.
    rewrite Ei. cbn. by rewrite lookup_insert, Eb.
Qed.
Lemma change_defined p c o i : ob_items o !! p = Some i ->
  match c with
  | IExtend _ => (io_boundary i = None -> change_item p c o = Throw XRuntime) /\
                 (is_Some (boundary o p) -> exists o', change_item p c o = Ret o')
  | _ => exists o', change_item p c o = Ret o'
  end.
Proof.
  intros Hi. unfold change_item, boundary. rewrite Hi. destruct i as [cl t u f d s b]. destruct c; try by eexists.
  split; cbn; [by intros ->|]. destruct b as [b|]; cbn; [|by intros [? ?]]. intros [bx ->]. by eexists.
Qed.
Lemma copy_shares_boundary p q o i b bx x o1 o2 : p <> q -> ob_items o !! p = Some i -> io_boundary i = Some b -> ob_boxes o !! b = Some bx ->
  copy_item p q o = Ret o1 -> change_item q (IExtend x) o1 = Ret o2 ->
  boundary o1 p = Some bx /\ boundary o2 p = Some (box_extend_point bx x).
Proof.
  intros Hne Hi Hb Hbx E1 E2. unfold copy_item in E1. rewrite Hi in E1. injection E1 as <-. unfold change_item in E2. cbn in E2.
  rewrite lookup_insert in E2. rewrite Hb in E2. cbn in E2. rewrite Hbx in E2. injection E2 as <-. unfold boundary. cbn.
  rewrite !lookup_insert_ne by done. rewrite Hi. cbn. rewrite Hb. cbn. rewrite lookup_insert. done.
Qed.
Lemma copy_boundary p q o i : p <> q -> ob_items o !! p = Some i -> exists o', copy_item p q o = Ret o' /\
  boundary o' q = boundary o p /\ boundary o' p = boundary o p.
Proof.
  intros Hne Hi. destruct (copy_spec p q o i Hne Hi) as (o' & E & _ & _ & B & _ & R & X). exists o'. split; [done|]. split; [done|].
  unfold boundary. by rewrite (R p Hne), X.
Qed.
Lemma clone_slices p q o i n d : p <> q -> ob_items o !! p = Some i -> io_class i = CDerived n d ->
  exists o' j, clone_item p q o = Ret o' /\ ob_items o' !! q = Some j /\ io_class j = CItem d /\ io_boundary j = None.
Proof. intros Hne Hi Hc. unfold clone_item. rewrite Hi. eexists _, _. split; [done|]. cbn. rewrite lookup_insert. split; [done|]. cbn. by rewrite Hc. Qed.
Lemma load_all_inverted {L : Type} (ld : L -> string -> L * bool) names l :
  (all_load ld names l -> (load_all_libraries ld names l).2 = false) /\ (~ all_load ld names l -> (load_all_libraries ld names l).2 = true).
Proof. destruct (load_all_spec ld names l) as (l' & r & -> & Hr). cbn. split; [|by apply Hr]. intros Ha. destruct r; [|done]. by destruct (proj1 Hr eq_refl). Qed.
Lemma last_registered_last regs t d regs' : (forall d', (t, d') ∉ regs') -> last_registered t (regs ++ (t, d) :: regs') = Some d.
Proof.
  intros Hn. induction regs as [|[t' d'] regs IH]; cbn.
  - destruct (last_registered t regs') as [d''|] eqn:E; [|by rewrite bool_decide_true]. destruct (proj1 (last_registered_in t regs') ltac:(by rewrite E)) as [d0 H0]. by destruct (Hn d0).
  - by rewrite IH.
Qed.
