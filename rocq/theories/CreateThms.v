(** Proofs about objects created by the name of their class. *)
From stdpp Require Import prelude strings gmap.
From Verif Require Import ItemClass Outcome ListLib MiscModel SerialModel RegistryModel SpecDemand RegistryThms CreateModel SpecCreate.

(** ** Creating *)
Lemma item_classes_in ct l c : c ∈ item_classes ct l <-> has_class (ct_index ct) l c.
Proof.
  unfold item_classes, has_class. rewrite elem_of_list_fmap. split.
  - intros (r & -> & ?). exists r. split; [done|apply exports_class].
  - intros (r & ? & <-). exists r. split; [apply exports_class|done].
Qed.
Lemma classes_in ct p c : c ∈ p ≫= item_classes ct <-> exists l, l ∈ p /\ has_class (ct_index ct) l c.
Proof.
  rewrite elem_of_list_bind. split.
  - intros (l & Hc%item_classes_in & Hl). eauto.
  - intros (l & Hl & Hc). exists l. by rewrite item_classes_in.
Qed.
Lemma exported_iff ct p c : exported ct p c = true <-> exists l, l ∈ p /\ has_class (ct_index ct) l c.
Proof. unfold exported. rewrite bool_decide_eq_true. apply classes_in. Qed.
Lemma handle_iff ct p c : has_handle (with_registry (ct_index ct) no_codec) p c = true <-> exists l, l ∈ p /\ has_class (ct_index ct) l c.
Proof. rewrite reg_has_handle. unfold has_class. naive_solver. Qed.

Lemma load_library_case ix p c : (exists l, ix_lib ix c = Some l /\ (l ∈ p \/ ix_loads ix l = true) /\
     (load_library ix p c = (p, true) /\ l ∈ p \/ load_library ix p c = (p ++ [l], true) /\ ix_loads ix l = true)) \/
  load_library ix p c = (p, false) /\ forall l, ix_lib ix c = Some l -> ~ (l ∈ p \/ ix_loads ix l = true).
Proof.
  unfold load_library. destruct (ix_lib ix c) as [l|] eqn:Hl; [|right; split; [done|by intros l]].
  destruct (decide (l ∈ p)) as [Hin|Hin]; [rewrite bool_decide_true by done|rewrite bool_decide_false by done].
  - left. exists l. split_and!; [done|by left|by left].
  - destruct (ix_loads ix l) eqn:Hok; [left; exists l; split_and!; [done|by right|by right]|].
    right. split; [done|]. intros l' [= ->] [?|?]; [done|congruence].
Qed.

(* What one creation does to the singletons and the numbers. *)
Definition gave (ct : catalog) (pr pr' : proc) (o : cobj) : Prop :=
  (ct_singleton ct (ob_class o) = true /\ pr_single pr !! ob_class o = Some (ob_id o) /\ pr_single pr' = pr_single pr /\ pr_next pr' = pr_next pr) \/
  ((ct_singleton ct (ob_class o) = false \/ pr_single pr !! ob_class o = None) /\ ob_id o = pr_next pr /\ pr_next pr' = S (pr_next pr) /\
   pr_single pr' = if ct_singleton ct (ob_class o) then <[ob_class o := pr_next pr]> (pr_single pr) else pr_single pr).
Definition none_made (pr pr' : proc) : Prop := pr_single pr' = pr_single pr /\ pr_next pr' = pr_next pr.

Lemma create_instance_inv ct exp c pr pr' x : create_instance ct exp c pr = (pr', x) ->
  match x with Some o => ob_class o = c /\ gave ct pr pr' o | None => none_made pr pr' end.
Proof.
  unfold create_instance. destruct (load_library _ _ c) as [p1 ok]. destruct (ok && bool_decide (c ∈ p1 ≫= exp)).
  2: { intros [= <- <-]. done. }
  destruct (ct_singleton ct c) eqn:Hs.
  - destruct (pr_single pr !! c) as [n|] eqn:Hc; intros [= <- <-]; (split; [done|]).
    + left. cbn. done.
    + right. cbn. rewrite Hs. split_and!; [by right|done..].
  - intros [= <- <-]. split; [done|]. right. cbn. rewrite Hs. split_and!; [by left|done..].
Qed.

Lemma create_item_spec ct c pr pr' x : create_item ct c pr = (pr', x) ->
  (is_Some x <-> creatable (ct_index ct) (pr_libs pr) c) /\ (forall o, x = Some o -> ob_class o = c) /\
  only_loads (ct_index ct) (pr_libs pr) (pr_libs pr') c /\ (is_Some x -> exists l, l ∈ pr_libs pr' /\ has_class (ct_index ct) l c).
Proof.
  intros H. pose proof H as Hi. unfold create_item in H, Hi. apply create_instance_inv in Hi. unfold create_instance in H.
  destruct (load_library_case (ct_index ct) (pr_libs pr) c) as [(l & Hl & Hav & Hc)|[Hf Hno]].
  - assert (exists p1, load_library (ct_index ct) (pr_libs pr) c = (p1, true) /\ only_loads (ct_index ct) (pr_libs pr) p1 c /\
      forall l', l' ∈ p1 <-> l' = l \/ l' ∈ pr_libs pr) as (p1 & Hp1 & Honly & Hel).
    { destruct Hc as [[-> ?]|[-> ?]]; eexists; (split; [done|]); split.
      - by left.
      - intros l'. split; [by right|]. by intros [->|?].
      - right. eauto.
      - intros l'. rewrite elem_of_app, elem_of_list_singleton. naive_solver. }
    rewrite Hp1 in H. cbn [andb] in H.
    assert (Hcr : c ∈ p1 ≫= item_classes ct <-> creatable (ct_index ct) (pr_libs pr) c).
    { rewrite classes_in. split.
      - intros (l' & Hl' & ?). exists l. split_and!; [done|done|]. exists l'. split; [by apply Hel|done].
      - intros (l2 & Hl2 & _ & l' & Hl' & ?). rewrite Hl in Hl2. injection Hl2 as <-. exists l'. split; [by apply Hel|done]. }
    destruct (decide (c ∈ p1 ≫= item_classes ct)) as [Hin|Hin]; [rewrite bool_decide_true in H by done|rewrite bool_decide_false in H by done].
    + assert (pr_libs pr' = p1 /\ is_Some x) as [-> [o ->]] by (repeat case_match; simplify_eq; cbn; eauto).
      split; [split; [intros _; by apply Hcr|eauto]|]. split; [intros o' [= <-]; by destruct Hi|]. split; [done|]. intros _. by apply classes_in.
    + injection H as <- <-. cbn. split; [split; [by intros [? ?]|intros ?; by destruct Hin; apply Hcr]|]. split; [done|]. split; [done|]. by intros [? ?].
  - rewrite Hf in H. cbn in H. injection H as <- <-. cbn. split; [split; [by intros [? ?]|]|].
    + intros (l & Hl & Hav & _). by destruct (Hno l Hl).
    + split; [done|]. split; [by left|by intros [? ?]].
Qed.

Lemma creatable_more ix p p' c d : only_loads ix p p' d -> creatable ix p c -> creatable ix p' c.
Proof.
  intros Ho (l & Hl & Hav & l' & Hl' & Hc). assert (Hsub : forall y, y ∈ p -> y ∈ p').
  { destruct Ho as [->|(? & _ & _ & ->)]; [done|]. intros y ?. apply elem_of_app. by left. }
  exists l. split_and!; [done|naive_solver|]. exists l'. split; [naive_solver|done].
Qed.

Lemma create_item_for_spec ct dt pr pr' x : create_item_for ct dt pr = (pr', x) ->
  (creatable (ct_index ct) (pr_libs pr) (item_name dt) -> exists o, x = Some o /\ ob_class o = item_name dt) /\
  (forall o, x = Some o -> ob_class o = item_name dt \/ ~ creatable (ct_index ct) (pr_libs pr) (item_name dt) /\ ct_assoc ct dt = Some (ob_class o)) /\
  (forall c, ct_assoc ct dt = Some c -> creatable (ct_index ct) (pr_libs pr) c -> is_Some x) /\
  (forall o, x = Some o -> exists l, l ∈ pr_libs pr' /\ has_class (ct_index ct) l (ob_class o)).
Proof.
  unfold create_item_for. destruct (create_item ct (item_name dt) pr) as [pr1 r] eqn:H1. apply create_item_spec in H1 as (Hcr & Hcl & Hon & Hex).
  destruct r as [o|].
  - intros [= <- <-]. specialize (Hcl o eq_refl). split; [eauto|]. split; [intros ? [= <-]; by left|]. split; [eauto|].
    intros ? [= <-]. rewrite Hcl. apply Hex. eauto.
  - assert (Hnc : ~ creatable (ct_index ct) (pr_libs pr) (item_name dt)). { intros H. apply Hcr in H as [? ?]. done. }
    destruct (ct_assoc ct dt) as [c|].
    + intros H2. apply create_item_spec in H2 as (Hcr2 & Hcl2 & _ & Hex2). split; [by intros ?|]. split.
      { intros o ->. right. split; [done|]. by rewrite (Hcl2 o eq_refl). }
      split.
      { intros c' [= <-] Hc. apply Hcr2. by eapply creatable_more. }
      intros o ->. rewrite (Hcl2 o eq_refl). apply Hex2. eauto.
    + intros [= <- <-]. split; [by intros ?|]. split; [done|]. by split.
Qed.

(** ** Which requests share an object *)
Definition nums_ok (ct : catalog) (pr : proc) (L : list cobj) : Prop :=
  (forall c n, pr_single pr !! c = Some n -> n < pr_next pr /\ ct_singleton ct c = true) /\
  (forall c c' n, pr_single pr !! c = Some n -> pr_single pr !! c' = Some n -> c = c') /\
  (forall o, o ∈ L -> ob_id o < pr_next pr /\ (ct_singleton ct (ob_class o) = true -> pr_single pr !! ob_class o = Some (ob_id o)) /\
     (forall c, pr_single pr !! c = Some (ob_id o) -> c = ob_class o)).

Lemma nums_ok_gave ct pr pr' L o : nums_ok ct pr L -> gave ct pr pr' o ->
  nums_ok ct pr' (o :: L) /\ forall a, a ∈ L -> shared_iff_singleton ct a o.
Proof.
  intros (H1 & H2 & H3) [(Hs & Hc & Hs' & Hn')|(Hnew & Hid & Hn' & Hs')].
  - split.
    + unfold nums_ok. rewrite Hs', Hn'. split_and!; [done|done|]. intros o' [->|Ho]%elem_of_cons; [|by apply H3].
      split; [by apply (H1 _ _ Hc)|]. split; [done|]. intros c ?. by apply (H2 _ _ (ob_id o)).
    + intros a Ha. destruct (H3 a Ha) as (_ & Ha1 & Ha2). split.
      * intros Heq. rewrite <- Heq in Hc. rewrite (Ha2 _ Hc) in *. done.
      * intros [Heq Hsa]. specialize (Ha1 Hsa). rewrite Heq, Hc in Ha1. congruence.
  - assert (Hfresh : forall c n, pr_single pr !! c = Some n -> n <> pr_next pr). { intros c n [? _]%H1. lia. }
    assert (Hlk : forall c n, pr_single pr' !! c = Some n -> pr_single pr !! c = Some n /\ n <> pr_next pr \/
      c = ob_class o /\ n = pr_next pr /\ ct_singleton ct c = true).
    { intros c n. rewrite Hs'. destruct (ct_singleton ct (ob_class o)) eqn:Hsg; [|by eauto].
      intros [[<- <-]|[_ ?]]%lookup_insert_Some; [by right|]. left. eauto. }
    split.
    + split_and!.
      * intros c n [[H _]|(-> & -> & Hsg)]%Hlk; rewrite Hn'; [|by split; [lia|]]. apply H1 in H as [? ?]. split; [lia|done].
      * intros c c' n [[Ha ?]|(-> & -> & _)]%Hlk [[Hb ?]|(-> & ? & _)]%Hlk; [by apply (H2 _ _ n)|done|done|done].
      * intros o' [->|Ho]%elem_of_cons.
        { rewrite Hn', Hid. split; [lia|]. split.
          - intros Hsg. rewrite Hs', Hsg. apply lookup_insert.
          - intros c [[_ ?]|(-> & _ & _)]%Hlk; done. }
        destruct (H3 o' Ho) as (Hlt & Ha1 & Ha2). rewrite Hn'. split; [lia|]. split.
        { intros Hsg. specialize (Ha1 Hsg). rewrite Hs'. destruct (ct_singleton ct (ob_class o)) eqn:Hso; [|done].
          destruct Hnew as [?|Hnone]; [congruence|]. rewrite lookup_insert_ne; [done|]. intros Heq. rewrite Heq, Ha1 in Hnone. done. }
        intros c [[? _]|(_ & ? & _)]%Hlk; [by apply Ha2|lia].
    + intros a Ha. destruct (H3 a Ha) as (Hlt & Ha1 & _). split; [intros; lia|]. intros [Heq Hsa]. specialize (Ha1 Hsa). rewrite Heq in *.
      destruct Hnew as [?|Hnone]; congruence.
Qed.
Lemma nums_ok_none ct pr pr' L : nums_ok ct pr L -> none_made pr pr' -> nums_ok ct pr' L.
Proof. intros H [Hs Hn]. unfold nums_ok. by rewrite Hs, Hn. Qed.

(* One request: nothing made, or one object made which is the result, if there is one. *)
Lemma serve_inv ct r pr pr' x : serve ct r pr = (pr', x) ->
  (x = None /\ none_made pr pr') \/ exists o, (x = Some o \/ x = None) /\ gave ct pr pr' o.
Proof.
  assert (Hi : forall exp c pr pr' x, create_instance ct exp c pr = (pr', x) ->
    (x = None /\ none_made pr pr') \/ exists o, (x = Some o \/ x = None) /\ gave ct pr pr' o).
  { intros exp c p p' y H%create_instance_inv. destruct y as [o|]; [|by left]. right. exists o. destruct H. eauto. }
  destruct r as [c|T c|dt|c]; cbn [serve].
  - apply Hi.
  - unfold create_item_as. destruct (create_item ct c pr) as [pr1 o] eqn:H1. apply Hi in H1. destruct o as [o|]; cbn.
    + intros [= <- <-]. destruct H1 as [[? _]|(o' & [Heq|?] & Hg)]; [done| |done]. injection Heq as <-. right. exists o. destruct (is_a _ T); eauto.
    + intros [= <- <-]. done.
  - unfold create_item_for. destruct (create_item ct (item_name dt) pr) as [pr1 o] eqn:H1. pose proof (create_instance_inv _ _ _ _ _ _ H1) as H1'.
    apply Hi in H1. destruct o as [o|].
    + intros [= <- <-]. done.
    + destruct (ct_assoc ct dt) as [c|]; [|intros [= <- <-]; by left]. intros H2%Hi. destruct H1' as [Hs Hn].
      unfold none_made, gave in *. rewrite Hs, Hn in H2. done.
  - unfold create_collision_for. destruct (ct_assoc_collision ct c) as [c'|]; [apply Hi|]. intros [= <- <-]. by left.
Qed.

Lemma serve_all_seen ct rs pr pr' os L a b : nums_ok ct pr L -> serve_all ct rs pr = (pr', os) -> a ∈ L -> Some b ∈ os -> shared_iff_singleton ct a b.
Proof.
  revert pr os L. induction rs as [|r rs IH]; intros pr os L Hok Hs Ha Hb; cbn [serve_all] in Hs.
  { injection Hs as <- <-. by apply elem_of_nil in Hb. }
  destruct (serve ct r pr) as [pr1 x] eqn:H1. destruct (serve_all ct rs pr1) as [pr2 os'] eqn:H2. injection Hs as <- <-.
  destruct (serve_inv _ _ _ _ _ H1) as [[-> Hn]|(o & Hx & Hg)].
  - apply elem_of_cons in Hb as [?|Hb]; [done|]. by apply (IH pr1 os' L); [eapply nums_ok_none|..].
  - destruct (nums_ok_gave _ _ _ _ _ Hok Hg) as [Hok' Hsh]. apply elem_of_cons in Hb as [Hb|Hb].
    + destruct Hx as [->| ->]; [|done]. injection Hb as ->. by apply Hsh.
    + apply (IH pr1 os' (o :: L)); [done|done|by right|done].
Qed.
Lemma serve_all_lt ct rs pr pr' os L i j a b : nums_ok ct pr L -> serve_all ct rs pr = (pr', os) -> i < j ->
  os !! i = Some (Some a) -> os !! j = Some (Some b) -> shared_iff_singleton ct a b.
Proof.
  revert pr os L i j. induction rs as [|r rs IH]; intros pr os L i j Hok Hs Hij Ha Hb; cbn [serve_all] in Hs.
  { by injection Hs as <- <-. }
  destruct (serve ct r pr) as [pr1 x] eqn:H1. destruct (serve_all ct rs pr1) as [pr2 os'] eqn:H2. injection Hs as <- <-.
  destruct j as [|j]; [lia|]. cbn in Hb.
  assert (Hok1 : exists L', nums_ok ct pr1 L' /\ forall o, x = Some o -> o ∈ L').
  { destruct (serve_inv _ _ _ _ _ H1) as [[-> Hn]|(o & Hx & Hg)]; [exists L; split; [by eapply nums_ok_none|done]|].
    exists (o :: L). split; [by apply (nums_ok_gave _ _ _ _ _ Hok Hg)|]. destruct Hx as [->| ->]; [|done]. intros ? [= <-]. left. }
  destruct Hok1 as (L' & Hok1 & Hin). destruct i as [|i]; cbn in Ha.
  - injection Ha as ->. eapply serve_all_seen; [done|done|by apply Hin|by eapply elem_of_list_lookup_2].
  - apply (IH pr1 os' L' i j); [done|done|lia|done|done].
Qed.
Lemma serve_all_shared ct rs pr pr' os i j a b : pr_single pr = ∅ -> serve_all ct rs pr = (pr', os) -> i <> j ->
  os !! i = Some (Some a) -> os !! j = Some (Some b) -> shared_iff_singleton ct a b.
Proof.
  intros He Hs Hij Ha Hb.
  assert (Hok : nums_ok ct pr []).
  { unfold nums_ok. rewrite He. split_and!; [by intros c n ?|by intros c c' n ?|by intros o ?%elem_of_nil]. }
  destruct (decide (i < j)).
  - by apply (serve_all_lt ct rs pr pr' os [] i j).
  - assert (H : shared_iff_singleton ct b a) by (apply (serve_all_lt ct rs pr pr' os [] j i); [done|done|lia|done|done]).
    unfold shared_iff_singleton in *. split.
    + intros Heq. destruct H as [H _]. destruct H as [H1 H2]; [done|]. by rewrite <- H1.
    + intros [Heq Hsg]. symmetry. apply H. by rewrite <- Heq.
Qed.

(** ** Names, saving and loading *)
Lemma created_name ct dt T l pr o : one_name (ct_index ct) -> RegItem dt T ∈ ix_regs (ct_index ct) l -> type_index (ct_class ct (ob_class o)) = T ->
  l ∈ pr_libs pr -> ob_name ct (pr_libs pr) o = Some (item_name dt).
Proof.
  intros Hone Hr HT Hl. unfold ob_name. rewrite HT. destruct (registry_meta_some (ct_index ct) (pr_libs pr) T l dt Hl Hr) as [d Hd].
  cbn [with_registry SerialModel.class_name]. rewrite Hd. cbn. f_equal. apply (Hone T); [by eapply registry_meta_names|]. by exists l, (RegItem dt T).
Qed.
Lemma named_saves ct p o c : ob_name ct p o = Some c -> has_handle (with_registry (ct_index ct) no_codec) p c = true ->
  ob_save ct p o = (p, if exported ct p (ob_class o) then Ret (Some (c, o)) else Throw XRuntime).
Proof.
  intros Hn Hh. unfold ob_save, is_serializable. unfold ob_name in *. rewrite Hn, Hn, Hh. rewrite Hn, Hh. by destruct (exported ct p (ob_class o)).
Qed.

Lemma ob_save_inv ct p o p' w : ob_save ct p o = (p', Ret (Some w)) ->
  w.2 = o /\ names (ct_index ct) (type_index (ct_class ct (ob_class o))) w.1 /\ exists l, l ∈ p' /\ has_class (ct_index ct) l (ob_class o).
Proof.
  unfold ob_save. destruct (is_serializable _ p _) as [p1 []]; [|done]. destruct (ob_name ct p1 o) as [c|] eqn:Hn; [|done].
  destruct (has_handle _ p1 c); [|done]. destruct (exported ct p1 (ob_class o)) eqn:He; [|done]. intros [= <- <-].
  split; [done|]. split; [|by apply exported_iff]. exact (reg_class_names _ no_codec _ _ _ Hn).
Qed.

(* The libraries of the reader when the handle of the name is there. *)
Lemma load_handle ct q c : reads (ct_index ct) q c ->
  exists q1, (if has_handle (with_registry (ct_index ct) no_codec) q c then (q, true)
    else let '(q1, ok) := load_lib (with_registry (ct_index ct) no_codec) q c in
         if (ok : bool) then (q1, has_handle (with_registry (ct_index ct) no_codec) q1 c) else (q1, false)) = (q1, true) /\
    (forall l, l ∈ q -> l ∈ q1) /\ exists l, l ∈ q1 /\ has_class (ct_index ct) l c.
Proof.
  intros Hr. destruct (has_handle (with_registry (ct_index ct) no_codec) q c) eqn:Hh.
  { exists q. split; [done|]. split; [done|]. by apply handle_iff. }
  destruct (reads_demand (ct_index ct) no_codec q c Hr) as [?|(q' & Hl & Hh' & _)]; [congruence|].
  exists q'. rewrite Hl, Hh'. split; [done|]. split; [|by apply handle_iff].
  destruct (load_lib_app (ct_index ct) no_codec q c) as [k Hk]. rewrite Hl in Hk. cbn in Hk. subst q'. intros l ?. apply elem_of_app. by left.
Qed.
Lemma ob_load_ok ct q c o : reads (ct_index ct) q c -> (ob_class o = c \/ exists l, l ∈ q /\ has_class (ct_index ct) l (ob_class o)) ->
  exists q', ob_load ct q (c, o) = (q', Ret (Some o)).
Proof.
  intros Hr Hcl. destruct (load_handle ct q c Hr) as (q1 & Hq & Hsub & Hc). exists q1. unfold ob_load. cbn [fst snd]. rewrite Hq.
  assert (exported ct q1 (ob_class o) = true) as ->; [|done]. apply exported_iff.
  destruct Hcl as [->|(l & Hl & ?)]; [done|]. exists l. by split; [apply Hsub|].
Qed.
Lemma ob_load_lost ct q c o q' x : (forall l, l ∈ q -> ~ has_class (ct_index ct) l (ob_class o)) ->
  (forall l, ix_lib (ct_index ct) c = Some l -> ~ has_class (ct_index ct) l (ob_class o)) -> ob_load ct q (c, o) <> (q', Ret (Some x)).
Proof.
  intros Hq Hl H. unfold ob_load in H. cbn [fst snd] in H.
  assert (Hno : forall q1, (forall l, l ∈ q1 -> l ∈ q \/ ix_lib (ct_index ct) c = Some l) -> exported ct q1 (ob_class o) = false).
  { intros q1 Hsub. destruct (exported ct q1 (ob_class o)) eqn:He; [|done]. apply exported_iff in He as (l & Hin & Hc).
    destruct (Hsub l Hin) as [?|?]; [by destruct (Hq l)|by destruct (Hl l)]. }
  destruct (has_handle (with_registry (ct_index ct) no_codec) q c) eqn:Hh.
  { rewrite Hno in H by eauto. done. }
  destruct (load_lib (with_registry (ct_index ct) no_codec) q c) as [q1 ok] eqn:Hld. destruct ok; [|done].
  destruct (has_handle (with_registry (ct_index ct) no_codec) q1 c); [|done]. rewrite Hno in H; [done|].
  cbn [with_registry load_lib] in Hld. unfold load_item_library in Hld. destruct (bool_decide (c ∈ ix_classes (ct_index ct))); [|done].
  destruct (load_library_case (ct_index ct) q c) as [(l & Hlib & _ & [[Heq _]|[Heq _]])|[Heq _]]; rewrite Heq in Hld; simplify_eq.
  - eauto.
  - intros l'. rewrite elem_of_app, elem_of_list_singleton. intros [?| ->]; eauto.
Qed.

Lemma has_class_reads ix q c l : ix_lib ix c = Some l -> ix_loads ix l = true -> c ∈ ix_classes ix -> has_class ix l c -> reads ix q c.
Proof. intros ? ? ? (r & ? & ?). right. by exists l, r. Qed.

Lemma created_travels ct1 ct2 dt T l pr pr' o q : one_name (ct_index ct1) ->
  ix_lib (ct_index ct1) (item_name dt) = Some l -> RegItem dt T ∈ ix_regs (ct_index ct1) l -> type_index (ct_class ct1 (item_name dt)) = T ->
  create_item ct1 (item_name dt) pr = (pr', Some o) -> reads (ct_index ct2) q (item_name dt) ->
  ob_name ct1 (pr_libs pr') o = Some (item_name dt) /\
  ob_save ct1 (pr_libs pr') o = (pr_libs pr', Ret (Some (item_name dt, o))) /\
  exists q', ob_load ct2 q (item_name dt, o) = (q', Ret (Some o)).
Proof.
  intros Hone Hlib Hr HT Hc Hq. pose proof Hc as Hsp. apply create_item_spec in Hsp as (_ & Hcl & Hon & _). specialize (Hcl o eq_refl).
  assert (Hl : l ∈ pr_libs pr').
  { unfold create_item, create_instance in Hc. destruct (load_library_case (ct_index ct1) (pr_libs pr) (item_name dt))
      as [(l' & Hl' & _ & [[Heq Hin]|[Heq _]])|[Heq _]]; rewrite Heq in Hc; cbn [andb] in Hc; [..|done];
      rewrite Hlib in Hl'; injection Hl' as <-; repeat case_match; simplify_eq; cbn; try done; apply elem_of_app; right; left. }
  assert (Hex : exists l, l ∈ pr_libs pr' /\ has_class (ct_index ct1) l (item_name dt)) by (exists l; split; [done|by exists (RegItem dt T)]).
  assert (Hname : ob_name ct1 (pr_libs pr') o = Some (item_name dt)) by (eapply created_name; [done|done|by rewrite Hcl|done]).
  split; [done|]. split.
  - rewrite (named_saves _ _ _ (item_name dt)); [|done|by apply handle_iff]. rewrite Hcl.
    assert (exported ct1 (pr_libs pr') (item_name dt) = true) as -> by by apply exported_iff. done.
  - apply ob_load_ok; [done|by left].
Qed.

Lemma ob_arrives ct1 ct2 p p' q o w : ob_save ct1 p o = (p', Ret (Some w)) -> reads (ct_index ct2) q w.1 ->
  ob_class o = w.1 \/ (exists l, l ∈ q /\ has_class (ct_index ct2) l (ob_class o)) -> exists q', ob_load ct2 q w = (q', Ret (Some o)).
Proof. intros Hs Hr Hc. apply ob_save_inv in Hs as (Heq & _ & _). destruct w as [c o']. cbn in *. subst o'. by apply ob_load_ok. Qed.

Lemma create_item_as_spec ct T c pr pr' x : create_item_as ct T c pr = (pr', x) ->
  (x = Ret None <-> ~ creatable (ct_index ct) (pr_libs pr) c) /\
  (x = Throw XRuntime <-> creatable (ct_index ct) (pr_libs pr) c /\ is_a (ct_class ct c) T = false) /\
  (forall o, x = Ret (Some o) -> ob_class o = c /\ is_a (ct_class ct c) T = true).
Proof.
  unfold create_item_as. destruct (create_item ct c pr) as [pr1 r] eqn:H. apply create_item_spec in H as (Hcr & Hcl & _). intros [= <- <-].
  destruct r as [o|].
  - assert (creatable (ct_index ct) (pr_libs pr) c) by (apply Hcr; eauto). destruct (is_a (ct_class ct c) T); split_and!; try done.
    + split; [done|by intros [_ ?]].
    + intros o' [= <-]. split; [by apply Hcl|done].
  - assert (~ creatable (ct_index ct) (pr_libs pr) c). { intros ?. destruct Hcr as [_ Hcr]. destruct Hcr; done. }
    split_and!; try done. split; [done|by intros [? _]].
Qed.
