(** Proofs about the 2D structure widget. *)
From stdpp Require Import prelude strings gmap.
From Verif Require Import WidgetModel SpecWidget.

(* The threads' sections that hold the mutex. *)
Definition lheld (p : lpc) : bool := match p with LCopy | LClear | LUnlock => true | _ => false end.
Definition gheld (p : gpc) : bool := match p with GCopy _ | GNeed _ | GUnlock => true | _ => false end.
Definition lseen (p : lpc) : bool := match p with LPause | LLock | LCopy | LClear => true | _ => false end.
Definition ggone (p : gpc) : bool := match p with GJoin | GGone => true | _ => false end.
Definition gwrote (p : gpc) : bool := match p with GNeed _ => true | _ => false end.

(* Control. *)
Record cinv (w : widget) : Prop := {
  ci_box : w_box w = w_pause w;
  ci_mutex : w_mutex w = if lheld (w_lpc w) then Some ALayout else if gheld (w_gpc w) then Some AGui else None;
  ci_excl : lheld (w_lpc w) && gheld (w_gpc w) = false;
  ci_need : lseen (w_lpc w) = true -> w_need w = true;
  ci_run : w_run w = negb (ggone (w_gpc w));
  ci_end : w_lpc w = LEnd -> ggone (w_gpc w) = true;
  ci_gone : w_gpc w = GGone -> w_lpc w = LEnd }.

(* What the layout thread has taken and not yet handed on. *)
Definition inhand (w : widget) : list string :=
  match w_lpc w with LClear | LUnlock | LDraw | LPost => [w_dot w] | _ => [] end.
Definition unposted (w : widget) : list (nat * string) :=
  match w_lpc w with LPost => [(w_r w, w_dot w)] | _ => [] end.

(* Is there a text that has not been taken? *)
Definition fresh (w : widget) : bool := match w_lpc w with LClear => false | _ => w_need w end || gwrote (w_gpc w).

(* Texts. *)
Record tinv (w : widget) (A T : list string) : Prop := {
  ti_cur : A <> [] -> last A = Some (w_current w);
  ti_sub : T `sublist_of` A;
  ti_fresh : fresh w = true -> exists A' d, A = A' ++ [d] /\ T `sublist_of` A';
  ti_old : fresh w = false -> last T = last A }.

(* Renderers. *)
Record rinv (w : widget) (T S : list string) : Prop := {
  ri_ex : exists sh q,
    w_queue w = q.*1 /\ w_shared w = fst <$> head sh /\ length sh <= 1 /\ snd <$> head sh = last S /\
    w_alive w = list_to_map (sh ++ q ++ unposted w) /\ NoDup (sh ++ q ++ unposted w).*1 /\
    Forall (fun r => r < w_next w) (sh ++ q ++ unposted w).*1 /\ T = S ++ q.*2 ++ inhand w;
  ri_item : w_item w = w_shared w }.

Section proofs.
Variable readable : string -> bool.



Lemma display_svg_flags w r q w' e : display_svg w r q = Some (w', e) ->
  w_current w' = w_current w /\ w_need w' = w_need w /\ w_pause w' = w_pause w /\ w_run w' = w_run w /\ w_mutex w' = w_mutex w /\
  w_lpc w' = w_lpc w /\ w_dot w' = w_dot w /\ w_r w' = w_r w /\ w_gpc w' = w_gpc w /\ w_box w' = w_box w /\ w_queue w' = q /\
  asked e = [] /\ taken e = [].
Proof.
  unfold display_svg. destruct (drawing w r); [|done]. destruct (w_shared w); [destruct (drawing w n); [|done]|];
    intros [= <- <-]; done.
Qed.

Lemma cinv_step w t w' e : cinv w -> wstep readable w t = Some (w', e) -> cinv w'.
Proof.
  intros [H1 H2 H3 H4 H5 H6 H7]. destruct w as [cur need pause run mu lp dot r gp box q it sh al nx]; cbn in *.
  destruct t as [a| |]; cbn.
  - unfold start; cbn. destruct gp; try (intros [= <- <-]; by constructor).
    destruct a; cbn.
    + intros [= <- <-]. constructor; cbn in *; try done; destruct lp; done.
    + intros [= <- <-]. constructor; cbn in *; try done. by rewrite H1.
    + destruct q as [|r' q]; [intros [= <- <-]; by constructor|]. intros (E1&E2&E3&E4&E5&E6&_&_&E7&E8&_)%display_svg_flags. cbn in *.
      constructor; rewrite ?E1, ?E2, ?E3, ?E4, ?E5, ?E6, ?E7, ?E8; done.
    + destruct it; [destruct (drawing _ n); [|done]|]; intros [= <- <-]; by constructor.
    + intros [= <- <-]. constructor; cbn in *; try done; destruct lp; done.
  - unfold gui_step; cbn. destruct gp; cbn in *; intros [= <- <-]; destruct lp, mu; try done;
      constructor; cbn in *; try done; naive_solver.
  - unfold layout_step; cbn. destruct lp; cbn in *; [..|destruct (readable dot); [|done]| |]; intros [= <- <-];
      constructor; destruct gp, mu, run, need, pause; cbn in *; try done; naive_solver.
Qed.

Lemma sublist_snoc_l {A} (l k : list A) x : l `sublist_of` k -> l `sublist_of` k ++ [x].
Proof. intros H. apply sublist_inserts_r. done. Qed.

Lemma tinv_gui w (t : turn) w' e A T : cinv w -> tinv w A T -> is_layout t = false -> wstep readable w t = Some (w', e) ->
  tinv w' (A ++ asked e) (T ++ taken e).
Proof.
  intros [H1 H2 H3 H4 H5 H6 H7] [T1 T2 T3 T4]. destruct w as [cur need pause run mu lp dot r gp box q it sh al nx]; cbn in *.
  destruct t as [a| |]; [| |done]; intros _; cbn.
  - unfold start; cbn. destruct gp; try (intros [= <- <-]; rewrite !app_nil_r; by constructor).
    destruct a; cbn.
    + intros [= <- <-]. rewrite !app_nil_r. constructor; cbn in *; try done.
    + intros [= <- <-]. rewrite !app_nil_r. constructor; cbn in *; try done.
    + destruct q as [|r' q]; [intros [= <- <-]; rewrite !app_nil_r; by constructor|].
      intros (E1&E2&E3&E4&E5&E6&_&_&E7&E8&_&E9&E10)%display_svg_flags. rewrite E9, E10, !app_nil_r. cbn in *.
      constructor; unfold SpecWidget.asked, fresh in *; rewrite ?E1, ?E2, ?E6, ?E7; done.
    + destruct it; [destruct (drawing _ n); [|done]|]; intros [= <- <-]; rewrite !app_nil_r; by constructor.
    + intros [= <- <-]. rewrite !app_nil_r. constructor; cbn in *; try done.
  - unfold gui_step; cbn. destruct gp; cbn in *; try (intros [= <- <-]; rewrite !app_nil_r; by constructor).
    + destruct mu; intros [= <- <-]; rewrite !app_nil_r; constructor; cbn in *; try done.
    + intros [= <- <-]; cbn. rewrite !app_nil_r. constructor; cbn in *.
      * by rewrite last_snoc.
      * by apply sublist_snoc_l.
      * intros _. by exists A, d.
      * unfold fresh; cbn. by rewrite orb_true_r.
    + intros [= <- <-]; rewrite !app_nil_r. constructor; unfold fresh in *; cbn in *; try done.
      * intros _. apply T3. by rewrite orb_true_r.
      * rewrite orb_true_r in T4. destruct lp; try done.
    + destruct lp; intros [= <- <-]; rewrite !app_nil_r; constructor; unfold fresh in *; cbn in *; try done.
Qed.


Lemma tinv_layout w w' e A T : cinv w -> tinv w A T -> wstep readable w TLayout = Some (w', e) ->
  tinv w' (A ++ asked e) (T ++ taken e).
Proof.
  intros [H1 H2 H3 H4 H5 H6 H7] [T1 T2 T3 T4]. destruct w as [cur need pause run mu lp dot r gp box q it sh al nx]; cbn in *.
  unfold layout_step; cbn. destruct lp; cbn in *; unfold fresh in *; cbn in *.
  1-5: intros [= <- <-]; rewrite !app_nil_r; constructor; unfold fresh; cbn in *; destruct run, need, pause; done.
  - destruct mu; intros [= <- <-]; rewrite !app_nil_r; constructor; unfold fresh; cbn in *; done.
  - intros [= <- <-]; cbn. rewrite app_nil_r. rewrite H4 in T3 by done. destruct (T3 eq_refl) as (A'&d&->&HS).
    assert (cur = d) as -> by (rewrite last_snoc in T1; assert (Some d = Some cur) as [=] by (apply T1; by destruct A'); done).
    constructor; unfold fresh; cbn in *.
    + done.
    + by apply sublist_app.
    + destruct gp; done.
    + by rewrite !last_snoc.
  - intros [= <- <-]; rewrite !app_nil_r; constructor; unfold fresh; cbn in *; destruct gp; done.
  - intros [= <- <-]; rewrite !app_nil_r; constructor; unfold fresh; cbn in *; done.
  - destruct (readable dot); [|done]. intros [= <- <-]; rewrite !app_nil_r; constructor; unfold fresh; cbn in *; done.
  - intros [= <- <-]; rewrite !app_nil_r; constructor; unfold fresh; cbn in *; done.
  - intros [= <- <-]; rewrite !app_nil_r; constructor; unfold fresh; cbn in *; done.
Qed.

(* What a delivery does, when it is defined. *)
Lemma deliver_spec w r q T S : rinv w T S -> w_queue w = r :: q ->
  exists w' d, display_svg w r q = Some (w', [VShown d]) /\ rinv w' T (S ++ [d]).
Proof.
  intros [(sh&qs&E1&E2&E3&E4&E5&E6&E7&E8) EI] EQ. destruct qs as [|[r1 d] qs]; [by rewrite EQ in E1|].
  cbn in *. rewrite EQ in E1. injection E1 as <- ->.
  assert (drawing w r = Some d) as Er.
  { unfold drawing. rewrite E5. apply elem_of_list_to_map_1; [done|]. apply elem_of_app; right; left. }
  unfold display_svg. rewrite Er.
  destruct sh as [|[o od] [|]]; cbn in *; try lia.
  - rewrite E2. eexists _, d; split; [done|]. constructor; cbn; [|done].
    exists [(r, d)], qs. cbn. rewrite last_snoc. repeat split; try done. by rewrite <-app_assoc.
  - rewrite E2. assert (drawing w o = Some od) as -> by (unfold drawing; rewrite E5; apply lookup_insert).
    eexists _, d; split; [done|]. apply NoDup_cons in E6 as [En E6]. apply Forall_cons in E7 as [_ E7].
    constructor; cbn; [|done]. exists [(r, d)], qs. cbn. rewrite last_snoc. repeat split; try done.
    + rewrite E5, delete_insert; [done|]. rewrite not_elem_of_cons in En. rewrite lookup_insert_ne by naive_solver. apply not_elem_of_list_to_map_1. naive_solver.
    + by rewrite <-app_assoc.
Qed.

Lemma item_alive w T S r : rinv w T S -> w_item w = Some r -> exists d, drawing w r = Some d /\ last S = Some d.
Proof.
  intros [(sh&qs&E1&E2&E3&E4&E5&E6&E7&E8) EI] EQ. rewrite EI, E2 in EQ. destruct sh as [|[o od] sh]; [done|]. cbn in *.
  injection EQ as ->. exists od. split; [|done]. unfold drawing. rewrite E5. apply lookup_insert.
Qed.

Lemma rinv_same w w' T S : w_queue w' = w_queue w -> w_shared w' = w_shared w -> w_alive w' = w_alive w -> w_next w' = w_next w ->
  w_item w' = w_item w -> unposted w' = unposted w -> inhand w' = inhand w -> rinv w T S -> rinv w' T S.
Proof.
  intros F1 F2 F3 F4 F5 F6 F7 [(sh&qs&E1&E2&E3&E4&E5&E6&E7&E8) EI]. constructor; [|congruence].
  exists sh, qs. rewrite F1, F2, F3, F4, F6, F7. done.
Qed.

Lemma rinv_step w t w' e T S : rinv w T S -> wstep readable w t = Some (w', e) -> rinv w' (T ++ taken e) (S ++ shown e).
Proof.
  intros HR. destruct t as [a| |]; cbn.
  - unfold start. destruct (w_gpc w) eqn:EG; try (intros [= <- <-]; by rewrite !app_nil_r).
    destruct a; cbn.
    + intros [= <- <-]; rewrite !app_nil_r. by apply (rinv_same w).
    + intros [= <- <-]; rewrite !app_nil_r. by apply (rinv_same w).
    + destruct (w_queue w) as [|r q] eqn:EQ; [intros [= <- <-]; by rewrite !app_nil_r|].
      destruct (deliver_spec _ _ _ _ _ HR EQ) as (w1&d&->&HR'). intros [= <- <-]. cbn. by rewrite app_nil_r.
    + destruct (w_item w); [destruct (drawing w n); [|done]|]; intros [= <- <-]; by rewrite !app_nil_r.
    + intros [= <- <-]; rewrite !app_nil_r. by apply (rinv_same w).
  - unfold gui_step. destruct (w_gpc w) eqn:EG; cbn.
    1,7: intros [= <- <-]; by rewrite !app_nil_r.
    + intros [= <- <-]; rewrite !app_nil_r. destruct (w_mutex w); [done|by apply (rinv_same w)].
    + intros [= <- <-]; cbn; rewrite !app_nil_r. by apply (rinv_same w).
    + intros [= <- <-]; cbn; rewrite !app_nil_r. by apply (rinv_same w).
    + intros [= <- <-]; cbn; rewrite !app_nil_r. by apply (rinv_same w).
    + intros [= <- <-]; cbn; rewrite !app_nil_r. destruct (w_lpc w); done || by apply (rinv_same w).
  - unfold layout_step. destruct (w_lpc w) eqn:EL; cbn.
    1-5: intros [= <- <-]; rewrite !app_nil_r; (apply (rinv_same w); try done); unfold unposted, inhand; rewrite EL; cbn;
      repeat case_match; done.
    + intros [= <- <-]; rewrite !app_nil_r. destruct (w_mutex w); [done|apply (rinv_same w); try done; unfold unposted, inhand; by rewrite EL].
    + intros [= <- <-]; cbn. rewrite app_nil_r. destruct HR as [(sh&qs&E1&E2&E3&E4&E5&E6&E7&E8) EI].
      unfold unposted, inhand in *. rewrite EL in *. constructor; [|done]. exists sh, qs. cbn. unfold unposted, inhand; cbn.
      repeat (split; [done|]). by rewrite E8, app_nil_r, <-app_assoc.
    + intros [= <- <-]; rewrite !app_nil_r; (apply (rinv_same w); try done); unfold unposted, inhand; by rewrite EL.
    + intros [= <- <-]; rewrite !app_nil_r; (apply (rinv_same w); try done); unfold unposted, inhand; by rewrite EL.
    + destruct (readable (w_dot w)); [|done]. intros [= <- <-]; rewrite !app_nil_r. 
      destruct HR as [(sh&qs&E1&E2&E3&E4&E5&E6&E7&E8) EI]. unfold unposted, inhand in *. rewrite EL in *.
      rewrite app_nil_r in E5, E6, E7. constructor; [|done]. exists sh, qs. cbn. unfold unposted, inhand; cbn.
      rewrite !app_assoc. rewrite !fmap_app in *. cbn in *. repeat split; try done.
      * rewrite E5. rewrite list_to_map_snoc; [done|]. rewrite fmap_app. intros Hin. rewrite list.Forall_forall in E7. specialize (E7 _ Hin). lia.
      * apply NoDup_app. split; [done|]. split; [|apply NoDup_singleton]. intros x Hx ->%elem_of_list_singleton.
        rewrite list.Forall_forall in E7. specialize (E7 _ Hx). lia.
      * apply Forall_app; split; [|constructor; [lia|done]]. eapply Forall_impl; [done|]. cbn. intros; lia.
      * by rewrite <-app_assoc.
    + intros [= <- <-]; rewrite !app_nil_r. destruct HR as [(sh&qs&E1&E2&E3&E4&E5&E6&E7&E8) EI]. unfold unposted, inhand in *. rewrite EL in *.
      constructor; [|done]. exists sh, (qs ++ [(w_r w, w_dot w)]). cbn. unfold unposted, inhand; cbn.
      rewrite !fmap_app, E1. rewrite !app_nil_r. rewrite !fmap_app in *. repeat split; done.
    + intros [= <- <-]; by rewrite !app_nil_r.
Qed.

Record inv (w : widget) (ev : list wevent) : Prop := {
  i_c : cinv w; i_t : tinv w (asked ev) (taken ev); i_r : rinv w (taken ev) (shown ev) }.

Lemma asked_app l k : asked (l ++ k) = asked l ++ asked k. Proof. apply omap_app. Qed.
Lemma taken_app l k : taken (l ++ k) = taken l ++ taken k. Proof. apply omap_app. Qed.
Lemma shown_app l k : shown (l ++ k) = shown l ++ shown k. Proof. apply omap_app. Qed.

Lemma inv_step w ev t w' e : inv w ev -> wstep readable w t = Some (w', e) -> inv w' (ev ++ e).
Proof.
  intros [C T R] H. constructor.
  - by eapply cinv_step.
  - rewrite asked_app, taken_app. destruct t; [by eapply (tinv_gui w (TStart a))|by eapply (tinv_gui w TGui)|by eapply tinv_layout].
  - rewrite taken_app, shown_app. by eapply rinv_step.
Qed.

Lemma inv_new : inv new_widget [].
Proof.
  constructor; [constructor; done|constructor; try done|constructor; [|done]].
  exists [], []. cbn. repeat split; try done; try constructor. lia.
Qed.

Lemma inv_turns l w ev w' e : inv w ev -> wturns readable w l = Some (w', e) -> inv w' (ev ++ e).
Proof.
  revert w ev w' e. induction l as [|t l IH]; cbn; intros w ev w' e HI.
  - intros [= <- <-]. by rewrite app_nil_r.
  - destruct (wstep readable w t) as [[w1 e1]|] eqn:E1; [|done]. destruct (wturns readable w1 l) as [[w2 e2]|] eqn:E2; [|done].
    intros [= <- <-]. rewrite app_assoc. eapply IH; [|done]. by eapply inv_step.
Qed.

Lemma run_inv l w ev : run_of readable l w ev -> inv w ev.
Proof. intros H. change ev with ([] ++ ev). eapply inv_turns; [apply inv_new|done]. Qed.

Lemma wturns_app w l k : wturns readable w (l ++ k) =
  match wturns readable w l with
  | None => None
  | Some (w1, e1) => match wturns readable w1 k with None => None | Some (w2, e2) => Some (w2, e1 ++ e2) end
  end.
Proof.
  revert w; induction l as [|t l IH]; intros w; cbn.
  - destruct (wturns readable w k) as [[]|]; done.
  - destruct (wstep readable w t) as [[w1 e1]|]; [|done]. rewrite IH. destruct (wturns readable w1 l) as [[w2 e2]|]; [|done].
    destruct (wturns readable w2 k) as [[w3 e3]|]; [|done]. by rewrite app_assoc.
Qed.

Lemma on_screen_last w ev : inv w ev -> on_screen w = last (shown ev).
Proof.
  intros [_ _ HR]. unfold on_screen. destruct (w_item w) as [r|] eqn:E.
  - destruct (item_alive _ _ _ _ HR E) as (d&->&->). done.
  - destruct HR as [(sh&q&_&E2&_&E4&_) E1]. rewrite E, E2 in E1. destruct sh; [|done]. by rewrite <-E4.
Qed.

Lemma rest_last l w ev : run_of readable l w ev -> at_rest w -> on_screen w = last (asked ev).
Proof.
  intros HI%run_inv (H1&H2&H3&H4). rewrite (on_screen_last w ev) by done. destruct HI as [HC HT HR].
  assert (inhand w = []) as EH by (unfold inhand; by destruct (w_lpc w)).
  destruct HR as [(sh&q&E1&_&_&_&_&_&_&E8) _]. rewrite H2 in E1. destruct q; [|done]. rewrite EH in E8. cbn in E8. rewrite app_nil_r in E8.
  rewrite <-E8. apply (ti_old _ _ _ HT). unfold fresh. rewrite H1, H3. by destruct (w_lpc w).
Qed.

Lemma in_order l w ev : run_of readable l w ev -> shown ev `prefix_of` taken ev /\ taken ev `sublist_of` asked ev.
Proof.
  intros HI%run_inv. destruct HI as [HC HT HR]. split; [|by destruct HT].
  destruct HR as [(sh&q&_&_&_&_&_&_&_&E8) _]. rewrite E8. by eexists.
Qed.

(* Is every text of the execution readable? *)
Definition gtext (p : gpc) : list string := match p with GLock d | GCopy d | GNeed d => [d] | _ => [] end.
Definition good (w : widget) (ev : list wevent) : Prop := Forall (fun d => readable d = true) (gtext (w_gpc w) ++ asked ev).

Lemma good_dot w ev : inv w ev -> good w ev -> w_lpc w = LDraw -> readable (w_dot w) = true.
Proof.
  intros [HC HT HR] [_ HG]%Forall_app EL. rewrite list.Forall_forall in HG. apply HG.
  eapply elem_of_submseteq; [|apply sublist_submseteq, (ti_sub _ _ _ HT)].
  destruct HR as [(sh&q&_&_&_&_&_&_&_&E8) _]. rewrite E8. unfold inhand. rewrite EL. set_solver.
Qed.

Lemma good_step w ev t : inv w ev -> good w ev -> (forall d, t = TStart (ADisplay d) -> readable d = true) ->
  exists w' e, wstep readable w t = Some (w', e) /\ good w' (ev ++ e).
Proof.
  intros HI HG HD. destruct t as [a| |]; cbn.
  - unfold start. destruct (w_gpc w) eqn:EG; try (eexists _, _; split; [done|]; by rewrite app_nil_r).
    unfold good in *. rewrite EG in HG; cbn in HG. destruct a; cbn.
    + eexists _, _; split; [done|]. rewrite app_nil_r. cbn. constructor; [by apply HD|done].
    + eexists _, _; split; [done|]. rewrite app_nil_r. cbn. by rewrite EG.
    + destruct (w_queue w) as [|r q] eqn:EQ; [eexists _, _; split; [done|]; rewrite app_nil_r, EG; done|].
      destruct (deliver_spec _ _ _ _ _ (i_r _ _ HI) EQ) as (w1&d&E&_). rewrite E. eexists _, _; split; [done|].
      apply display_svg_flags in E as (_&_&_&_&_&_&_&_&->&_). rewrite EG. rewrite asked_app. cbn. by rewrite app_nil_r.
    + destruct (w_item w) eqn:EI; [|eexists _, _; split; [done|]; rewrite app_nil_r, EG; done].
      destruct (item_alive _ _ _ _ (i_r _ _ HI) EI) as (d&->&_). eexists _, _; split; [done|]; rewrite app_nil_r, EG; done.
    + eexists _, _; split; [done|]. rewrite app_nil_r. done.
  - unfold gui_step, good in *. destruct (w_gpc w) eqn:EG; eexists _, _; (split; [done|]); cbn in *.
    + by rewrite app_nil_r, EG.
    + rewrite app_nil_r. destruct (w_mutex w); [by rewrite EG|done].
    + rewrite asked_app; cbn. apply Forall_cons in HG as [H1 H2]. constructor; [done|]. apply Forall_app; split; [done|]. by constructor.
    + rewrite app_nil_r. by apply Forall_cons in HG as [_ H2].
    + by rewrite app_nil_r.
    + rewrite app_nil_r. destruct (w_lpc w); cbn; rewrite ?EG; done.
    + by rewrite app_nil_r, EG.
  - unfold layout_step. destruct (w_lpc w) eqn:EL; try (eexists _, _; split; [done|]; rewrite ?app_nil_r; done).
    + eexists _, _; split; [done|]; rewrite ?app_nil_r. by destruct (w_mutex w).
    + eexists _, _; split; [done|]. unfold good. rewrite asked_app. cbn. by rewrite app_nil_r.
    + rewrite (good_dot w ev) by done. eexists _, _; split; [done|]. by rewrite app_nil_r.
Qed.

Lemma good_turns l w ev : inv w ev -> good w ev -> (forall d, TStart (ADisplay d) ∈ l -> readable d = true) ->
  exists w' e, wturns readable w l = Some (w', e) /\ good w' (ev ++ e).
Proof.
  revert w ev; induction l as [|t l IH]; intros w ev HI HG HD; cbn.
  - eexists _, _; split; [done|]. by rewrite app_nil_r.
  - destruct (good_step w ev t) as (w1&e1&E1&HG1); [done|done|intros d ->; apply HD; left|]. rewrite E1.
    destruct (IH w1 (ev ++ e1)) as (w2&e2&E2&HG2); [by eapply inv_step|done|intros d Hd; apply HD; by right|]. rewrite E2.
    eexists _, _; split; [done|]. by rewrite app_assoc.
Qed.

Lemma defined l : (forall d, TStart (ADisplay d) ∈ l -> readable d = true) -> exists w ev, run_of readable l w ev.
Proof.
  intros HD. destruct (good_turns l new_widget []) as (w&e&E&_); [apply inv_new|constructor|done|]. by exists w, e.
Qed.

Lemma gtext_asked l w ev : run_of readable l w ev -> w_gpc w = GIdle -> (forall d, d ∈ asked ev -> readable d = true) -> good w ev.
Proof. intros _ EG H. unfold good. rewrite EG. cbn. by apply list.Forall_forall. Qed.

(* How far the layout thread is from waiting with nothing to do. *)
Definition far (w : widget) : nat :=
  let b := if w_need w then 11 else 0 in
  match w_lpc w with
  | LUnlock => 3 + b | LDraw => 2 + b | LPost => 1 + b | LClear => 4 | LCopy => 5 | LLock => 6 | LPause => 7
  | LNeed => if w_need w then 8 else 0 | LBreak => if w_need w then 9 else 0 | LSleep => if w_need w then 10 else 0
  | LWhile => b | LEnd => 0
  end.

(* How many texts are on their way to the queue. *)
Definition coming (w : widget) : nat :=
  let b := if w_need w then 1 else 0 in
  match w_lpc w with
  | LUnlock | LDraw | LPost => S b | LEnd => 0 | LClear | LCopy | LLock | LPause => 1
  | LNeed | LBreak | LSleep | LWhile => b
  end.

Record alone (w : widget) : Prop := { al_gui : w_gpc w = GIdle; al_go : w_pause w = false }.

Lemma alone_step w w' e : cinv w -> alone w -> wstep readable w TLayout = Some (w', e) ->
  alone w' /\ far w' <= pred (far w) /\ length (w_queue w') + coming w' <= length (w_queue w) + coming w /\ asked e = [].
Proof.
  intros [H1 H2 H3 H4 H5 H6 H7] [A1 A2]. destruct w as [cur need pause run mu lp dot r gp box q it sh al nx]; cbn in *. subst.
  unfold layout_step; cbn. destruct lp; cbn in *; try (specialize (H4 eq_refl); subst);
    [..|destruct (readable dot); [|done]| |]; intros [= <- <-]; (split; [by constructor|]); unfold far, coming; cbn; rewrite ?app_length; cbn;
    try destruct need; cbn; try lia; try done; repeat split; try lia.
  all: specialize (H6 eq_refl); done.
Qed.

Lemma alone_turns n w ev w' e : inv w ev -> alone w -> wturns readable w (replicate n TLayout) = Some (w', e) ->
  alone w' /\ far w' <= far w - n /\ length (w_queue w') + coming w' <= length (w_queue w) + coming w /\ asked e = [].
Proof.
  revert w ev w' e; induction n as [|n IH]; intros w ev w' e HI HA; cbn.
  - intros [= <- <-]. repeat split; try done; try lia; by destruct HA.
  - destruct (layout_step readable w) as [[w1 e1]|] eqn:E1; [|done].
    destruct (alone_step w w1 e1 (i_c _ _ HI) HA E1) as (HA1&F1&Q1&S1).
    destruct (wturns readable w1 (replicate n TLayout)) as [[w2 e2]|] eqn:E2; [|done]. intros [= <- <-].
    destruct (IH w1 (ev ++ e1) w2 e2) as (HA2&F2&Q2&S2); [by eapply (inv_step w ev TLayout)|done|done|].
    rewrite asked_app, S1, S2. repeat split; try lia; by destruct HA2.
Qed.

Lemma deliver_turns m w ev w' e : inv w ev -> alone w -> wturns readable w (replicate m (TStart ADeliver)) = Some (w', e) ->
  alone w' /\ w_lpc w' = w_lpc w /\ w_need w' = w_need w /\ length (w_queue w') = length (w_queue w) - m /\ asked e = [].
Proof.
  revert w ev w' e; induction m as [|m IH]; intros w ev w' e HI HA; cbn -[wstep].
  - intros [= <- <-]. repeat split; try done; try lia; by destruct HA.
  - destruct (wstep readable w (TStart ADeliver)) as [[w1 e1]|] eqn:E1; [|done].
    assert (alone w1 /\ w_lpc w1 = w_lpc w /\ w_need w1 = w_need w /\ length (w_queue w1) = length (w_queue w) - 1 /\ asked e1 = [])
      as (HA1&F1&F2&Q1&S1).
    { cbn in E1. unfold start in E1. destruct HA as [A1 A2]. rewrite A1 in E1. destruct (w_queue w) as [|r q] eqn:EQ.
      - injection E1 as <- <-. rewrite EQ. done.
      - apply display_svg_flags in E1 as (_&E2&E3&_&_&E6&_&_&E7&_&E8&E9&_). rewrite E2, E6, E8, E9. cbn. repeat split; try lia; congruence. }
    destruct (wturns readable w1 (replicate m _)) as [[w2 e2]|] eqn:E2; [|done]. intros [= <- <-].
    destruct (IH w1 (ev ++ e1) w2 e2) as (HA2&G1&G2&Q2&S2); [by eapply (inv_step w ev (TStart ADeliver))|done|done|].
    rewrite asked_app, S1, S2. repeat split; try lia; try congruence; by destruct HA2.
Qed.

Lemma progress l w ev n m : run_of readable l w ev -> w_gpc w = GIdle -> w_pause w = false ->
  (forall d, d ∈ asked ev -> readable d = true) -> 14 <= n -> length (w_queue w) + 2 <= m ->
  exists w' e, wturns readable w (settle n m) = Some (w', e) /\ at_rest w' /\ asked e = [] /\ on_screen w' = last (asked ev).
Proof.
  intros HR EG EP Hd Hn Hm. pose proof (run_inv _ _ _ HR) as HI. pose proof (gtext_asked _ _ _ HR EG Hd) as HG.
  assert (alone w) as HA by done.
  destruct (good_turns (settle n m) w ev HI HG) as (w2&e&E&_).
  { intros d [H%elem_of_replicate_inv|H%elem_of_replicate_inv]%elem_of_app; done. }
  pose proof E as E'. unfold settle in E'. rewrite wturns_app in E'.
  destruct (wturns readable w (replicate n TLayout)) as [[w1 e1]|] eqn:E1; [|done].
  destruct (wturns readable w1 (replicate m _)) as [[w2' e2]|] eqn:E2; [|done]. injection E' as -> <-.
  destruct (alone_turns _ _ _ _ _ HI HA E1) as (HA1&F1&Q1&S1).
  pose proof (inv_turns _ _ _ _ _ HI E1) as HI1.
  destruct (deliver_turns _ _ _ _ _ HI1 HA1 E2) as (HA2&F2&F3&Q2&S2).
  assert (far w <= 14) by (unfold far; destruct (w_lpc w), (w_need w); cbn; lia).
  assert (coming w <= 2) by (unfold coming; destruct (w_lpc w), (w_need w); cbn; lia).
  assert (far w1 = 0) as F0 by lia.
  assert (w_lpc w1 <> LEnd) as NE. { intros H'. pose proof (ci_end _ (i_c _ _ HI1) H') as H''. destruct HA1 as [X _]. by rewrite X in H''. }
  assert (at_rest w2) as HRest.
  { split; [by destruct HA2|]. split; [destruct (w_queue w2); [done|cbn in Q2; lia]|]. rewrite F2, F3.
    unfold far in F0. destruct (w_lpc w1), (w_need w1); cbn in F0; try done; lia. }
  exists w2, (e1 ++ e2). split; [done|]. split; [done|]. split; [by rewrite asked_app, S1, S2|].
  rewrite (rest_last (l ++ settle n m) w2 (ev ++ e1 ++ e2)); [by rewrite !asked_app, S1, S2, app_nil_r| |done].
  unfold run_of in *. rewrite wturns_app, HR, E. done.
Qed.

(* After the destructor told the thread to end. *)
Definition ends (w : widget) : nat :=
  match w_lpc w with
  | LEnd => 0 | LWhile => 1 | LBreak => 1 | LSleep => 2 | LPost => 2 | LDraw => 3 | LUnlock => 4 | LClear => 5 | LCopy => 6
  | LLock => 7 | LPause => 8 | LNeed => 9
  end.
Definition cantake (w : widget) : nat := match w_lpc w with LNeed | LPause | LLock | LCopy => 1 | _ => 0 end.

Lemma joined_step w t w' e : cinv w -> w_gpc w = GJoin -> wstep readable w t = Some (w', e) ->
  (w_gpc w' = GJoin \/ w_gpc w' = GGone /\ w_lpc w' = LEnd) /\ ends w' <= ends w - (if is_layout t then 1 else 0) /\
  length (taken e) + cantake w' <= cantake w /\ asked e = [] /\ shown e = [].
Proof.
  intros [H1 H2 H3 H4 H5 H6 H7] A1. destruct w as [cur need pause run mu lp dot r gp box q it sh al nx]; cbn in *. subst.
  destruct t as [a| |]; cbn.
  - unfold start; cbn. intros [= <- <-]; cbn. repeat split; try lia; by left.
  - unfold gui_step; cbn. intros [= <- <-]; cbn. destruct lp; cbn; repeat split; try lia; naive_solver.
  - unfold layout_step; cbn. destruct lp; cbn in *; [..|destruct (readable dot); [|done]| |]; intros [= <- <-]; unfold ends, cantake; cbn;
      repeat split; try (by left); repeat case_match; cbn; try done; try lia.
Qed.

Lemma gone_step w t w' e : w_gpc w = GGone -> w_lpc w = LEnd -> wstep readable w t = Some (w', e) -> w' = w /\ e = [].
Proof.
  intros A1 A2. destruct t as [a| |]; cbn; unfold start, gui_step, layout_step; rewrite ?A1, ?A2; by intros [= <- <-].
Qed.

Lemma gone_turns l w w' e : w_gpc w = GGone -> w_lpc w = LEnd -> wturns readable w l = Some (w', e) -> w' = w /\ e = [].
Proof.
  revert w' e; induction l as [|t l IH]; intros w' e A1 A2; cbn; [by intros [= <- <-]|].
  destruct (wstep readable w t) as [[w1 e1]|] eqn:E1; [|done]. destruct (gone_step _ _ _ _ A1 A2 E1) as [-> ->].
  destruct (wturns readable w l) as [[w2 e2]|]; [|done]. intros [= <- <-]. by apply IH.
Qed.

Lemma layout_turns_cons t l : layout_turns (t :: l) = (if is_layout t then 1 else 0) + layout_turns l.
Proof. unfold layout_turns. rewrite filter_cons. destruct (is_layout t); case_decide; done. Qed.

Lemma joined_turns l w w' e : cinv w -> w_gpc w = GJoin -> wturns readable w l = Some (w', e) ->
  ends w' <= ends w - layout_turns l /\ length (taken e) <= cantake w /\ asked e = [] /\ shown e = [].
Proof.
  revert w w' e; induction l as [|t l IH]; intros w w' e HC HJ; cbn [wturns].
  - intros [= <- <-]. cbn. repeat split; try lia; done.
  - destruct (wstep readable w t) as [[w1 e1]|] eqn:E1; [|done].
    destruct (joined_step _ _ _ _ HC HJ E1) as (HJ1&F1&T1&S1&S1').
    destruct (wturns readable w1 l) as [[w2 e2]|] eqn:E2; [|done]. intros [= <- <-].
    rewrite asked_app, shown_app, taken_app, app_length, S1, S1'. rewrite layout_turns_cons.
    destruct HJ1 as [HJ1|[HJ1 HL1]].
    + destruct (IH w1 w2 e2) as (F2&T2&S2&S2'); [by eapply cinv_step|done|done|]. rewrite S2, S2'.
      repeat split; lia.
    + destruct (gone_turns l w1 w2 e2) as [-> ->]; [done..|]. cbn. repeat split; try lia.
      unfold ends. rewrite HL1. lia.
Qed.

Lemma joins l w ev l' w' e : run_of readable l w ev -> w_gpc w = GJoin -> wturns readable w l' = Some (w', e) ->
  length (taken e) <= 1 /\ shown e = [] /\
  (9 <= layout_turns l' -> exists w'', gui_step w' = Some (w'', []) /\ w_gpc w'' = GGone).
Proof.
  intros HI%run_inv HJ E. destruct (joined_turns _ _ _ _ (i_c _ _ HI) HJ E) as (F&T&_&S).
  split; [|split; [done|]].
  - etrans; [done|]. unfold cantake. destruct (w_lpc w); lia.
  - intros Hn. assert (ends w <= 9) by (unfold ends; destruct (w_lpc w); lia).
    assert (w_lpc w' = LEnd) as EL by (unfold ends in F at 1; destruct (w_lpc w'); try done; lia).
    pose proof (inv_turns _ _ _ _ _ HI E) as [C' _ _].
    assert (ggone (w_gpc w') = true) as G by by apply C'.
    unfold gui_step. destruct (w_gpc w') eqn:EG; try done; rewrite ?EL; eexists; done.
Qed.

Lemma gone l w ev l' w' e : run_of readable l w ev -> w_gpc w = GGone -> wturns readable w l' = Some (w', e) -> w' = w /\ e = [].
Proof. intros HI%run_inv HG. apply gone_turns; [done|]. by apply HI. Qed.

(* While paused. *)
Definition passed (w : widget) : nat := match w_lpc w with LLock | LCopy => 1 | _ => 0 end.

Lemma paused_step w t w' e : w_pause w = true -> is_click t = false -> wstep readable w t = Some (w', e) ->
  w_pause w' = true /\ length (taken e) + passed w' <= passed w.
Proof.
  intros HP HC. destruct t as [a| |]; cbn.
  - unfold start. destruct (w_gpc w); try (intros [= <- <-]; cbn; split; [done|lia]).
    destruct a; cbn in *; try done; try (intros [= <- <-]; cbn; split; [done|unfold passed; cbn; lia]).
    + destruct (w_queue w) as [|r q]; [intros [= <- <-]; cbn; split; [done|lia]|].
      intros (E1&E2&E3&E4&E5&E6&_&_&E7&E8&_&_&E9)%display_svg_flags. rewrite E9. unfold passed. rewrite E6, E3. split; [done|cbn; lia].
    + destruct (w_item w); [destruct (drawing w n); [|done]|]; intros [= <- <-]; cbn; split; try done; lia.
  - unfold gui_step. intros H. assert (w_pause w' = true /\ w_lpc w' = w_lpc w /\ taken e = []) as (E1&E2&E3).
    { destruct (w_gpc w); injection H as <- <-; repeat case_match; done. }
    rewrite E3. unfold passed. rewrite E2. split; [done|cbn; lia].
  - unfold layout_step. destruct (w_lpc w) eqn:EL; [..|destruct (readable _); [|done]| |]; intros [= <- <-]; unfold passed; cbn;
      rewrite ?HP, ?EL; cbn; repeat case_match; cbn; try done; try (split; [done|lia]).
Qed.

Lemma paused_turns l w w' e : w_pause w = true -> Forall (fun t => is_click t = false) l -> wturns readable w l = Some (w', e) ->
  w_pause w' = true /\ length (taken e) + passed w' <= passed w.
Proof.
  revert w w' e; induction l as [|t l IH]; intros w w' e HP HC; cbn.
  - intros [= <- <-]. cbn. split; [done|lia].
  - apply Forall_cons in HC as [HC1 HC2]. destruct (wstep readable w t) as [[w1 e1]|] eqn:E1; [|done].
    destruct (paused_step _ _ _ _ HP HC1 E1) as (HP1&T1). destruct (wturns readable w1 l) as [[w2 e2]|] eqn:E2; [|done]. intros [= <- <-].
    destruct (IH _ _ _ HP1 HC2 E2) as [HP2 T2]. rewrite taken_app, app_length. split; [done|lia].
Qed.

Lemma paused l w ev l' w' e : run_of readable l w ev -> w_pause w = true -> Forall (fun t => is_click t = false) l' ->
  wturns readable w l' = Some (w', e) ->
  w_box w' = true /\ length (taken e) <= 1 /\ (waiting (w_lpc w) = true -> taken e = []).
Proof.
  intros HI%run_inv HP HC E. destruct (paused_turns _ _ _ _ HP HC E) as [HP' T].
  pose proof (inv_turns _ _ _ _ _ HI E) as [C' _ _]. split; [by rewrite (ci_box _ C')|].
  assert (passed w <= 1) by (unfold passed; destruct (w_lpc w); lia). split; [lia|].
  intros HW. assert (passed w = 0) by (unfold passed; destruct (w_lpc w); done). destruct (taken e); [done|cbn in T; lia].
Qed.

Lemma box_pause l w ev : run_of readable l w ev -> w_box w = w_pause w.
Proof. intros HI%run_inv. apply HI. Qed.

Lemma display_done w d : w_gpc w = GIdle -> w_mutex w = None -> exists w', wturns readable w (display d) = Some (w', [VAsked d]) /\
  w_gpc w' = GIdle /\ w_current w' = d /\ w_need w' = true.
Proof.
  intros E1 E2. destruct w as [cur need pause run mu lp dot r gp box q it sh al nx]; cbn in *. subst. eexists; done.
Qed.

Lemma no_wait l w ev d : run_of readable l w ev -> w_gpc w = GIdle ->
  exists k w' e, k <= 3 /\ (waiting (w_lpc w) = true \/ w_lpc w = LDraw \/ w_lpc w = LPost -> k = 0) /\
    wturns readable w (replicate k TLayout ++ display d) = Some (w', e) /\ asked e = [d] /\ w_gpc w' = GIdle /\
    w_current w' = d /\ w_need w' = true.
Proof.
  intros HI%run_inv EG. destruct HI as [[H1 H2 H3 H4 H5 H6 H7] _ _].
  destruct w as [cur need pause run mu lp dot r gp box q it sh al nx]; cbn in *. subst.
  assert (exists k, k <= 3 /\ (waiting lp = true \/ lp = LDraw \/ lp = LPost -> k = 0) /\
    match lp with LCopy => k = 3 | LClear => k = 2 | LUnlock => k = 1 | _ => k = 0 end) as (k&Hk&Hz&HK).
  { destruct lp; cbn; [exists 0|exists 0|exists 0|exists 0|exists 0|exists 0|exists 3|exists 2|exists 1|exists 0|exists 0|exists 0];
      repeat split; try lia; naive_solver. }
  match goal with |- context [wturns readable ?x] => set (w := x) end.
  assert (exists w1 e1, wturns readable w (replicate k TLayout) = Some (w1, e1) /\ w_gpc w1 = GIdle /\ w_mutex w1 = None /\ asked e1 = [])
    as (w1&e1&E1&G1&M1&A1).
  { subst w. clear -HK. destruct lp; subst k; cbn; eexists _, _; (split; [reflexivity|]); done. }
  destruct (display_done w1 d G1 M1) as (w2&E2&G2&C2&N2).
  exists k, w2, (e1 ++ [VAsked d]). rewrite wturns_app, E1, E2, asked_app, A1. done.
Qed.

Lemma no_text_race l w ev : run_of readable l w ev -> ~ race w MCurrent.
Proof.
  intros HI%run_inv (a&b1&b2&G&L&_). pose proof (ci_excl _ (i_c _ _ HI)) as HX.
  unfold gui_access in G. unfold layout_access in L.
  destruct (w_lpc w); try done. destruct (w_gpc w); try done. destruct a; done.
Qed.

Lemma renderers l w ev : run_of readable l w ev -> size (w_alive w) <= length (w_queue w) + 2.
Proof.
  intros HI%run_inv. destruct HI as [_ _ [(sh&q&E1&_&E3&_&E5&E6&_&_) _]]. rewrite E5, E1.
  unfold size, map_size. rewrite map_to_list_to_map by done. rewrite !app_length, fmap_length.
  assert (length (unposted w) <= 1) by (unfold unposted; destruct (w_lpc w); cbn; lia). lia.
Qed.

Lemma unreadable d : readable d = false ->
  wturns readable new_widget (TStart AClick :: display d ++ replicate 10 TLayout) = None.
Proof. intros E. vm_compute. rewrite E. reflexivity. Qed.

(* Steps until the layout thread takes a text, when there is one. *)
Definition dist (w : widget) : nat :=
  match w_lpc w with
  | LCopy => 1 | LLock => 2 | LPause => 3 | LNeed => 4 | LBreak => 5 | LSleep => 6 | LWhile => 7 | LPost => 8 | LDraw => 9
  | LUnlock => 10 | LClear | LEnd => 11
  end.

Definition pending (w : widget) : Prop := w_need w = true /\ w_lpc w <> LClear /\ w_pause w = false /\ w_run w = true.

Lemma pending_step w t w' e : cinv w -> pending w -> is_click t = false -> is_destroy t = false -> wstep readable w t = Some (w', e) ->
  e = [VTaken (w_current w)] \/
  pending w' /\ dist w' + (if is_layout t && negb (bool_decide (w_lpc w = w_lpc w')) then 1 else 0) <= dist w.
Proof.
  intros [H1 H2 H3 H4 H5 H6 H7] (P1&P2&P3&P4) HC HD. destruct t as [a| |]; cbn.
  - intros E. right. rewrite Nat.add_0_r. revert E.
    unfold start. destruct (w_gpc w); try (intros [= <- <-]; done). destruct a; try done; try (intros [= <- <-]; done).
    + destruct (w_queue w) as [|r q]; [intros [= <- <-]; done|].
      intros (E1&E2&E3&E4&E5&E6&_&_&E7&E8&_&_&E9)%display_svg_flags. unfold pending, dist. rewrite E2, E3, E4, E6. done.
    + destruct (w_item w); [destruct (drawing w n); [|done]|]; intros [= <- <-]; done.
  - intros E. right. rewrite Nat.add_0_r. revert E. unfold gui_step. intros H.
    assert (w_pause w' = w_pause w /\ w_lpc w' = w_lpc w /\ w_run w' = w_run w /\ (w_need w' = w_need w \/ w_need w' = true)) as (E1&E2&E3&E4).
    { destruct (w_gpc w); injection H as <- <-; repeat case_match; cbn; auto. }
    unfold pending, dist. rewrite E1, E2, E3. naive_solver.
  - unfold layout_step. destruct w as [cur need pause run mu lp dot r gp box q it sh al nx]; cbn in *. destruct need, pause, run; try done.
    destruct lp; [..|destruct (readable _); [|done]| |]; intros [= <- <-]; try (by left); try done.
    all: right; split; [|]. all: try (unfold pending; cbn; done). all: unfold dist; cbn; repeat case_bool_decide; cbn in *; try done; try lia.
    all: destruct mu; cbn in *; try done; try lia.
    all: exfalso; specialize (H6 eq_refl); by rewrite H6 in H5.
Qed.

Lemma pending_turns l w ev w' e : inv w ev -> pending w -> Forall (fun t => is_click t = false /\ is_destroy t = false) l ->
  wturns readable w l = Some (w', e) -> dist w <= working_turns readable w l ->
  exists e1 e2 d, e = e1 ++ VTaken d :: e2 /\ last (asked (ev ++ e1)) = Some d.
Proof.
  revert w ev w' e; induction l as [|t l IH]; intros w ev w' e HI HP HL; cbn.
  - intros _ H. exfalso. unfold dist in H. destruct (w_lpc w); lia.
  - apply Forall_cons in HL as [[HL1 HL2] HL]. destruct (wstep readable w t) as [[w1 e1]|] eqn:E1; [|done].
    pose proof (inv_step _ _ _ _ _ HI E1) as HI1.
    destruct (wturns readable w1 l) as [[w2 e2]|] eqn:E2; [|done]. intros [= <- <-] HW.
    destruct (pending_step w t w1 e1 (i_c _ _ HI) HP HL1 HL2 E1) as [->|[HP1 HD]].
    + exists [], e2, (w_current w). split; [done|]. rewrite app_nil_r. apply (ti_cur _ _ _ (i_t _ _ HI)).
      destruct HP as (P1&P2&_). destruct (ti_fresh _ _ _ (i_t _ _ HI)) as (A'&d&->&_); [|by destruct A'].
      unfold fresh. rewrite P1. by destruct (w_lpc w).
    + destruct (IH w1 (ev ++ e1) w2 e2 HI1 HP1 HL E2) as (e3&e4&d&->&HL'); [lia|].
      exists (e1 ++ e3), e4, d. split; [by rewrite <-app_assoc|]. by rewrite app_assoc.
Qed.

Lemma no_starvation l w ev l' w' e : run_of readable l w ev -> w_run w = true -> w_pause w = false -> w_need w = true -> w_lpc w <> LClear ->
  Forall (fun t => is_click t = false /\ is_destroy t = false) l' -> wturns readable w l' = Some (w', e) ->
  10 <= working_turns readable w l' -> exists e1 e2 d, e = e1 ++ VTaken d :: e2 /\ last (asked (ev ++ e1)) = Some d.
Proof.
  intros HI%run_inv H1 H2 H3 H4 HL E HW. eapply pending_turns; [done|done|done|done|].
  etrans; [|done]. unfold dist. destruct (w_lpc w) eqn:EL; try lia; [done|].
  pose proof (ci_end _ (i_c _ _ HI) EL) as H. pose proof (ci_run _ (i_c _ _ HI)) as H'. rewrite H, H1 in H'. done.
Qed.

Lemma accesses layout a w w' ev m : next_step readable layout a w = Some (w', ev) ->
  (next_access layout a w <> Some (m, true) -> same_member m w w') /\
  ((forall b, next_access layout a w <> Some (m, b)) -> forall v, same_but m w v ->
    exists v', next_step readable layout a v = Some (v', ev) /\ same_but m w' v' /\ same_member m v v').
Proof.
  unfold next_step, next_access. destruct layout.
  - destruct w as [c n p r mu lp dt rr gp bx q it sh al nx]. unfold layout_step, layout_access. cbn [w_lpc].
    destruct lp; cbn; intros Hs;
      repeat match type of Hs with context [if ?b then _ else _] => destruct b eqn:? | context [match ?x with Some _ => _ | None => _ end] => destruct x eqn:? end;
      simplify_eq; (split; [intros Hn; destruct m; cbn; try done; by destruct Hn|]);
      intros Hn [c' n' p' r' mu' lp' dt' rr' gp' bx' q' it' sh' al' nx'] (H1&H2&H3&H4&H5); cbn in *; simplify_eq;
      destruct m; try (by destruct (Hn true)); try (by destruct (Hn false));
      try rewrite <- H1 by done; try rewrite <- H2 by done; try rewrite <- H3 by done; try rewrite <- H4 by done;
      repeat match goal with E : _ = _ |- context [if _ then _ else _] => rewrite E end;
      (eexists; split; [reflexivity|]; split; [|done]; repeat split; cbn; intros; try done; auto).
  - destruct w as [c n p r mu lp dt rr gp bx q it sh al nx]. unfold gui_step, gui_access, start. cbn [w_gpc].
    destruct gp; [destruct a|..]; cbn; unfold display_svg, drawing; cbn; intros Hs;
      repeat match type of Hs with context [match ?x with Some _ => _ | None => _ end] => destruct x eqn:? | context [match ?x with [] => _ | _ => _ end] => destruct x eqn:? | context [match ?x with LEnd => _ | _ => _ end] => destruct x eqn:? end;
      simplify_eq; (split; [intros Hn; destruct m; cbn; try done; by destruct Hn|]);
      intros Hn [c' n' p' r' mu' lp' dt' rr' gp' bx' q' it' sh' al' nx'] (H1&H2&H3&H4&H5); cbn in *; simplify_eq;
      destruct m; try (by destruct (Hn true)); try (by destruct (Hn false));
      try rewrite <- H1 by done; try rewrite <- H2 by done; try rewrite <- H3 by done; try rewrite <- H4 by done;
      cbn; unfold display_svg, drawing; cbn;
      repeat match goal with E : _ = _ |- context [match ?x with Some _ => _ | None => _ end] => rewrite E; cbn end;
      (eexists; split; [reflexivity|]; split; [|done]; repeat split; cbn; intros; try done; auto).
Qed.

End proofs.
