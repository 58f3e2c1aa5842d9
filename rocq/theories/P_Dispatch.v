(** Properties of dispatchers: C38-C40. *)
From stdpp Require Import prelude strings.
From Verif Require Import Outcome ItemClass DispatcherModel SpecDispatch DispatchThms ExGraph.

(** ** C38: waitForFrame withholds events until all awaited frames exist *)
Theorem C38_withheld {H : Type} (react : H -> nat -> event -> H * list dcall) fuel fs evs h d :
  fs <> [] -> ~ all_arrived (d_frames d ++ fs) evs ->
  exists d', disp_run react fuel ((DCall ∘ DWait <$> fs) ++ (DEvent <$> evs)) h d = (h, d', [], Ret tt) /\ d_enabled d' = false.
Proof. exact (wait_withholds react fuel fs evs h d). Qed.
Print Assumptions C38_withheld.

Theorem C38_forwarded_again {H : Type} (react : H -> nat -> event -> H * list dcall) fuel fs e1 e e2 h d :
  quiet react -> fs <> [] -> (forall k, length (d_cbs d k) < fuel) ->
  ~ all_arrived (d_frames d ++ fs) e1 -> all_arrived (d_frames d ++ fs) (e1 ++ [e]) ->
  exists h', disp_run react fuel ((DCall ∘ DWait <$> fs) ++ (DEvent <$> e1 ++ e :: e2)) h d =
    (h', Disp true (Some false) [] (d_cbs d), fan_out (d_cbs d) e2, Ret tt).
Proof. exact (wait_forwards react fuel fs e1 e e2 h d). Qed.
Print Assumptions C38_forwarded_again.

Example C38_case :
  let count_calls : nat -> nat -> event -> nat * list dcall := fun h _ _ => (S h, []) in
  let d := disp_add KFrameAdded 7 (disp_add KItemAdded 8 (disp_add KFrameAdded 9 disp_default)) in
  let fs := [fa; fb; fa] in
  let e1 := [EvFrameAdded fb; EvItemAdded fb 1; EvFrameAdded fa; EvFrameAdded fc; EvFrameRemoved fa] in
  quiet count_calls /\ ~ all_arrived (d_frames d ++ fs) e1 /\ all_arrived (d_frames d ++ fs) (e1 ++ [EvFrameAdded fa]) /\
  (disp_run count_calls 5 ((DCall ∘ DWait <$> fs) ++ (DEvent <$> e1 ++ EvFrameAdded fa :: [EvItemAdded fb 2; EvFrameAdded fd])) 0 d).1.2
    = [(8, EvItemAdded fb 2); (9, EvFrameAdded fd); (7, EvFrameAdded fd)].
Proof.
  split; [done|]. split; [|split; [|by vm_compute]].
  - intros Ha. specialize (Ha fa). vm_compute in Ha. lia.
  - intros f. unfold occurrences, additions. cbn -[filter]. rewrite !filter_cons, !filter_nil.
    repeat case_decide; cbn; try lia; congruence.
Qed.

(** ** C39: fan-out *)
(* An enabled dispatcher, callbacks that may call anything on it except registering for the kind of the event. *)
Theorem C39_enabled_calls_all {H : Type} (react : H -> nat -> event -> H * list dcall) k ev fuel h d :
  of_kind k ev = true -> (forall h cb cb', DAdd k cb' ∉ (react h cb ev).2) -> d_enabled d = true -> length (d_cbs d k) < fuel ->
  exists h' d', disp_notify react fuel ev h d = (h', d', (fun cb => (cb, ev)) <$> d_cbs d k, Ret tt).
Proof. exact (notify_kind react k ev fuel h d). Qed.
Print Assumptions C39_enabled_calls_all.

(* The callbacks of a kind are those that were registered for it, in order, whatever else happened. *)
Theorem C39_registered {H : Type} (react : H -> nat -> event -> H * list dcall) fuel steps h d k :
  (forall h cb ev cb', DAdd k cb' ∉ (react h cb ev).2) -> (disp_run react fuel steps h d).2 = Ret tt ->
  d_cbs (disp_run react fuel steps h d).1.1.2 k = d_cbs d k ++ registered k steps.
Proof. exact (run_registered react fuel steps h d k). Qed.
Print Assumptions C39_registered.

Theorem C39_disabled_calls_none {H : Type} (react : H -> nat -> event -> H * list dcall) ev fuel h d :
  d_enabled d = false -> d_waiting d = Some false -> disp_notify react fuel ev h d = (h, d, [], Ret tt).
Proof. exact (notify_disabled react ev fuel h d). Qed.
Print Assumptions C39_disabled_calls_none.

(* A dispatcher constructed with a publisher, on which nobody waits, calls nothing from the moment it is disabled, whatever happened before. *)
Theorem C39_stays_disabled_partial {H : Type} (react : H -> nat -> event -> H * list dcall) fuel steps rest h h1 d1 t1 :
  (forall h cb ev f, DWait f ∉ (react h cb ev).2) -> never_waits steps -> events_only rest ->
  disp_run react fuel steps h disp_new = (h1, d1, t1, Ret tt) ->
  exists d', disp_run react fuel (steps ++ DCall (DEnable false) :: rest) h disp_new = (h1, d', t1, Ret tt) /\ d_enabled d' = false.
Proof. exact (run_stays_off react fuel steps rest h h1 d1 t1). Qed.
Print Assumptions C39_stays_disabled_partial.

(* A dispatcher constructed with a publisher never reads an uninitialised flag.  Missing: the default constructor. *)
Theorem C39_no_undefined_behaviour_partial {H : Type} (react : H -> nat -> event -> H * list dcall) fuel steps h :
  (disp_run react fuel steps h disp_new).2 <> UB.
Proof. exact (run_no_ub react fuel steps h disp_new ltac:(discriminate)). Qed.
Print Assumptions C39_no_undefined_behaviour_partial.

(* Default constructed, disabled, then any event: an uninitialised bool is read. *)
Theorem C39_default_constructed_refuted {H : Type} (react : H -> nat -> event -> H * list dcall) ev fuel h :
  exists d, disp_run react fuel [DCall (DEnable false); DEvent ev] h disp_default = (h, d, [], UB).
Proof. exact (ex_intro _ (disp_enable false disp_default) eq_refl). Qed.
Print Assumptions C39_default_constructed_refuted.

(* The first callback disables the dispatcher: the second is still called. *)
Example C39_case : let react := fun (h : nat) (cb : nat) (ev : event) => (S h, if Nat.eqb cb 1 then [DEnable false; DAdd KEdgeAdded 5] else []) in
  let steps := [DCall (DAdd KFrameAdded 1); DCall (DAdd KItemAdded 3); DCall (DAdd KFrameAdded 2); DEvent (EvFrameAdded fa); DEvent (EvItemAdded fa 0)] in
  of_kind KFrameAdded (EvFrameAdded fa) = true /\ (forall h cb cb', DAdd KFrameAdded cb' ∉ (react h cb (EvFrameAdded fa)).2) /\
  (disp_run react 9 steps 0 disp_new).1.2 = [(1, EvFrameAdded fa); (2, EvFrameAdded fa)] /\
  (disp_run react 9 steps 0 disp_new).2 = Ret tt /\ registered KFrameAdded steps = [1; 2].
Proof.
  split; [done|]. split; [|by vm_compute]. intros h cb cb'. cbn. destruct (Nat.eqb cb 1); [|apply not_elem_of_nil]. intros Hin.
  apply elem_of_cons in Hin as [Hin|Hin]; [done|]. by apply elem_of_list_singleton in Hin.
Qed.

Example C39_disabled_case : let react := fun (h : nat) (cb : nat) (ev : event) => (S h, [DEnable true]) in
  let steps := [DCall (DAdd KFrameAdded 1); DEvent (EvFrameAdded fa)] in let rest := [DEvent (EvFrameAdded fb); DCall (DAdd KItemAdded 2); DEvent (EvItemAdded fa 0)] in
  never_waits steps /\ events_only rest /\
  (disp_run react 9 steps 0 disp_new).1.2 = [(1, EvFrameAdded fa)] /\
  (disp_run react 9 (steps ++ rest) 0 disp_new).1.2 = [(1, EvFrameAdded fa); (1, EvFrameAdded fb); (2, EvItemAdded fa 0)] /\
  (disp_run react 9 (steps ++ DCall (DEnable false) :: rest) 0 disp_new).1.2 = [(1, EvFrameAdded fa)].
Proof.
  cbv zeta. split; [intros f Hf|split; [intros b f; split; intros Hf|by vm_compute]]; rewrite !elem_of_cons, elem_of_nil in Hf; by repeat destruct Hf as [Hf|Hf].
Qed.

(** ** C40: typed item dispatchers *)
(* T = Item<D>.  Missing: classes derived from Item<D>. *)
Theorem C40_exactly_its_items_partial cls d evs :
  item_run cls (CItem d) evs = (fun ev => (ev, true)) <$> filter (about_item cls (CItem d)) evs.
Proof. exact (item_run_plain cls d evs). Qed.
Print Assumptions C40_exactly_its_items_partial.

(* T = SpatialItem<D> or another class derived from Item<D>: the dispatcher never receives anything. *)
Theorem C40_derived_items_refuted cls n d evs : item_run cls (CDerived n d) evs = [].
Proof. exact (item_run_derived cls n d evs). Qed.
Print Assumptions C40_derived_items_refuted.

Example C40_case : let cls := fun i => match i with 1 => CItem 0 | 2 => CDerived 0 0 | _ => CItem 1 end in
  let evs := [EvItemAdded fa 1; EvFrameAdded fb; EvItemAdded fb 2; EvItemAdded fb 3; EvItemRemoved fa 1] in
  item_run cls (CItem 0) evs = [(EvItemAdded fa 1, true); (EvItemAdded fb 2, true); (EvItemRemoved fa 1, true)] /\
  about_item cls (CDerived 0 0) (EvItemAdded fb 2).
Proof. split; [by vm_compute|done]. Qed.
