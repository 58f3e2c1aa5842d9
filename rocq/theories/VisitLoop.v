(** Proofs about visiting all frames of a graph. *)
From Coq Require Import Ascii.
From stdpp Require Import prelude strings gmap.
From Verif Require Import ListLib Outcome Digraph TreeView GraphModel GraphOps GraphWf GraphStep GraphEmit SpecObs GraphThms HandlerModel SpecHandler
  VisitModel SpecVisit.

Lemma sublist_in {A} (l k : list A) x : x ∈ l -> l `sublist_of` k -> x ∈ k.
Proof.
  intros Hx Hs. induction Hs as [|y l k Hs IH|y l k Hs IH]; [done| |right; by apply IH].
  apply elem_of_cons in Hx as [->|Hx]; [left|right; by apply IH].
Qed.

Section visit.
Context {D E : Type} (d0 : D) (einv : E -> E).
Local Notation gst := (gst D E).
Implicit Types s : gst.
Implicit Types g : digraph D E.

Definition vids g : list vid := v_id <$> dg_verts g.
Definition adds (ev : list event) : nat := length (filter frame_added ev).

Lemma adds_app e1 e2 : adds (e1 ++ e2) = adds e1 + adds e2.
Proof. unfold adds. by rewrite filter_app, app_length. Qed.

Record evolves g (ev : list event) g' (old new : list vid) : Prop := {
  ev_ids : vids g' = old ++ new;
  ev_old : old `sublist_of` vids g;
  ev_new : Forall (fun x => dg_nextv g <= x < dg_nextv g') new;
  ev_next : dg_nextv g' = dg_nextv g + adds ev;
  ev_keep : Forall (fun e => ~ frame_removed e) ev -> old = vids g }.

Lemma evolves_same g ev g' : vids g' = vids g -> dg_nextv g' = dg_nextv g -> adds ev = 0 -> evolves g ev g' (vids g) [].
Proof. intros Hv Hn Ha. split; [by rewrite app_nil_r|done|constructor|lia|done]. Qed.

Lemma lstep_evolves g ev g' : lstep einv g ev g' -> exists old new, evolves g ev g' old new.
Proof.
  intros H. destruct H as [g f d Hm|g o t p fo ft H1 H2 Hne He|g o t e1 e2 fo ft|g o t p e1 e2 fo ft|g v f Hm Hd|g v d].
  - exists (vids g), [dg_nextv g]. unfold bg_add_vertex. rewrite Hm. cbn [fst]. split; unfold vids; cbn [dg_verts dg_nextv].
    + by rewrite fmap_app.
    + done.
    + repeat constructor.
    + change (adds [EvFrameAdded f]) with 1. cbn. lia.
    + done.
  - exists (vids g), []. by apply evolves_same.
  - exists (vids g), []. by apply evolves_same.
  - exists (vids g), []. by apply evolves_same.
  - exists (vids (bg_remove_vertex v f g)), []. split.
    + by rewrite app_nil_r.
    + unfold vids. cbn. clear. induction (dg_verts g) as [|r l IH]; [done|].
      rewrite filter_cons. case_decide; cbn; [by apply sublist_skip|by apply sublist_cons].
    + constructor.
    + change (adds [EvFrameRemoved f]) with 0. cbn. lia.
    + intros Hf. apply Forall_cons in Hf as [Hf _]. by destruct Hf.
  - exists (vids g), []. apply evolves_same; [|done|done]. unfold vids, bg_set_data. cbn. rewrite <- list_fmap_compose.
    apply list_fmap_ext. intros i r _. cbn. by case_match.
Qed.

Lemma lsteps_evolves g ev g' : lsteps einv g ev g' -> exists old new, evolves g ev g' old new.
Proof.
  intros H. induction H as [g|g1 ev1 g2 ev2 g3 H1 H2 (old2 & new2 & IH)].
  - exists (vids g), []. by apply evolves_same.
  - destruct (lstep_evolves _ _ _ H1) as (old1 & new1 & H). destruct IH as [I1 I2 I3 I4 I5], H as [J1 J2 J3 J4 J5].
    pose proof I2 as I2'. rewrite J1 in I2'. apply sublist_app_r in I2' as (a & b & -> & Ha & Hb).
    exists a, (b ++ new2). split.
    + by rewrite app_assoc.
    + by etrans.
    + apply Forall_app. split.
      * apply Forall_forall. intros x Hx. eapply sublist_in in Hx; [|done]. rewrite Forall_forall in J3. apply J3 in Hx. lia.
      * eapply Forall_impl; [exact I3|]. cbn. lia.
    + rewrite adds_app. lia.
    + intros [Hr1 Hr2]%Forall_app. specialize (I5 Hr2). specialize (J5 Hr1). subst old1. rewrite J1 in I5.
      assert (length b <= length new1) by by apply sublist_length. assert (length a <= length (vids g1)) by by apply sublist_length.
      assert (length a + length b = length (vids g1) + length new1) by by rewrite <- !app_length, I5.
      apply app_inj_1 in I5 as [-> _]; [done|lia].
Qed.

Lemma body_evolves sc : forall s s' ev r, reachable d0 einv s -> script_noself sc -> body d0 einv sc s = (s', ev, r) -> ok r ->
  reachable d0 einv s' /\ lsteps einv (gs_dg s) ev (gs_dg s').
Proof.
  induction sc as [|x|ord op k IH]; intros s s' ev r Hr Hn Hb Hok; cbn [body] in Hb.
  - injection Hb as <- <- <-. split; [done|constructor].
  - injection Hb as <- <- <-. split; [done|constructor].
  - inversion Hn as [| |? ? ? Hno Hk]; subst. destruct (gstep d0 einv ord op s) as [[s1 e1] r1] eqn:Hs.
    assert (Hok1 : ok r1). { destruct r1; try done; by injection Hb as <- <- <-. }
    assert (Hr1 : reachable d0 einv s1) by by eapply reachable_step.
    assert (Hl : lsteps einv (gs_dg s) e1 (gs_dg s1)). { eapply gstep_lsteps; try done. by apply (reachable_wf d0). }
    assert (exists e2, body d0 einv (k s1 r1) s1 = (s', e2, r) /\ ev = e1 ++ e2) as (e2 & Hb2 & ->).
    { destruct r1; try done; destruct (body _ _ _ _) as [[s2 e2] r2]; injection Hb as <- <- <-; by exists e2. }
    destruct (IH s1 r1 s1 s' e2 r Hr1 (Hk s1 r1) Hb2 Hok) as [Hr2 Hl2]. split; [done|]. by eapply lsteps_app.
Qed.

Lemma frame_at_iff s v : reachable d0 einv s -> frame_at s v <-> v ∈ vids (gs_dg s).
Proof.
  intros Hr. pose proof (reachable_wf d0 einv s Hr) as Hwf. split.
  - intros (f & Hf). apply get_vertex_inv in Hf. apply (wf_map_alive einv) in Hf; [|done]. by apply bg_alive_iff.
  - intros Hv. apply bg_alive_iff in Hv. destruct (wf_alive_map einv _ _ Hwf Hv) as (f & Hf & _). exists f. by apply (get_vertex_some einv).
Qed.

Lemma frame_at_alive s v : reachable d0 einv s -> frame_at s v -> bg_alive (gs_dg s) v = true.
Proof. intros Hr Hv. apply bg_alive_iff. by apply frame_at_iff. Qed.

Lemma next_vertex_split (vs : list (vrec D)) v a b : NoDup (v_id <$> vs) -> v_id <$> vs = a ++ v :: b -> next_vertex vs v = Some (head b).
Proof.
  revert a. induction vs as [|r vs IH]; intros a Hnd Hs; [by destruct a|]. cbn in Hs, Hnd. apply NoDup_cons in Hnd as [Hr Hnd].
  cbn [next_vertex]. destruct a as [|x a]; cbn in Hs; injection Hs as Hx Hs.
  - rewrite Hx, Nat.eqb_refl, <- Hs. by destruct vs.
  - destruct (Nat.eqb_spec (v_id r) v) as [Heq|Hne]; [|by eapply IH].
    exfalso. apply Hr. rewrite Heq, Hs. apply elem_of_app. right. left.
Qed.

Lemma next_vertex_none (vs : list (vrec D)) v : v ∉ v_id <$> vs -> next_vertex vs v = None.
Proof.
  induction vs as [|r vs IH]; intros Hv; [done|]. cbn in Hv. apply not_elem_of_cons in Hv as [Hne Hv]. cbn [next_vertex].
  destruct (Nat.eqb_spec (v_id r) v); [by subst|by apply IH].
Qed.

(** The place of the loop: [cur] and what follows was not visited, what precedes it was. *)
Record place s (cur : option vid) (seen pre rest : list vid) : Prop := {
  pl_ids : vids (gs_dg s) = pre ++ rest;
  pl_cur : cur = head rest;
  pl_pre : forall x, x ∈ pre -> x ∈ seen;
  pl_rest : forall x, x ∈ rest -> x ∉ seen;
  pl_nodup : NoDup seen;
  pl_old : Forall (fun x => x < dg_nextv (gs_dg s)) seen }.

Lemma place_start s : place s (v_id <$> head (dg_verts (gs_dg s))) [] [] (vids (gs_dg s)).
Proof. split; [done| |by intros x ?%elem_of_nil|by intros x _ ?%elem_of_nil|constructor|constructor]. unfold vids. by destruct (dg_verts _). Qed.

Lemma place_next s v seen pre rest s1 ev :
  reachable d0 einv s -> reachable d0 einv s1 -> place s (Some v) seen pre (v :: rest) -> lsteps einv (gs_dg s) ev (gs_dg s1) ->
  NoDup (seen ++ [v]) /\ Forall (fun x => x < dg_nextv (gs_dg s1)) (seen ++ [v]) /\
  (v ∈ vids (gs_dg s1) -> exists pre' kept new, next_vertex (dg_verts (gs_dg s1)) v = Some (head (kept ++ new)) /\
    place s1 (head (kept ++ new)) (seen ++ [v]) pre' (kept ++ new) /\ kept `sublist_of` rest /\
    Forall (fun x => dg_nextv (gs_dg s) <= x < dg_nextv (gs_dg s1)) new /\
    (Forall (fun e => ~ frame_removed e) ev -> kept = rest /\ pre' = pre ++ [v])).
Proof.
  intros Hr Hr1 Hp Hl. pose proof (reachable_wf d0 einv s Hr) as Hwf. pose proof (reachable_wf d0 einv s1 Hr1) as Hwf1.
  destruct Hp as [P1 _ P3 P4 P5 P6]. destruct (lsteps_evolves _ _ _ Hl) as (old & new & [V1 V2 V3 V4 V5]).
  assert (Hb : forall x, x ∈ vids (gs_dg s) -> x < dg_nextv (gs_dg s)).
  { intros x (r & -> & Hx)%elem_of_list_fmap. by apply (wf_vbound einv _ Hwf). }
  assert (Hnd : NoDup (pre ++ v :: rest)). { rewrite <- P1. by apply (wf_vid einv). }
  apply NoDup_app in Hnd as (Hnp & Hpd & Hnv). apply NoDup_cons in Hnv as [Hvr Hnr].
  assert (Hvs : v < dg_nextv (gs_dg s)). { apply Hb. rewrite P1. apply elem_of_app. right. left. }
  assert (Hseen : Forall (fun x => x < dg_nextv (gs_dg s)) (seen ++ [v])). { apply Forall_app. split; [done|]. by apply Forall_singleton. }
  assert (Hns : NoDup (seen ++ [v])).
  { apply NoDup_app. split; [done|]. split; [|apply NoDup_singleton]. intros x Hx ->%elem_of_list_singleton. apply (P4 v); [left|done]. }
  assert (Hs1 : Forall (fun x => x < dg_nextv (gs_dg s1)) (seen ++ [v])). { eapply Forall_impl; [exact Hseen|]. cbn. lia. }
  split; [done|]. split; [done|]. intros Hv.
  pose proof V2 as V2'. rewrite P1 in V2'. apply sublist_app_r in V2' as (a & b & -> & Ha & Hbs).
  assert (Hvb : v ∈ b).
  { rewrite V1 in Hv. apply elem_of_app in Hv as [[Hv|Hv]%elem_of_app|Hv]; [|done|].
    - exfalso. eapply sublist_in in Hv; [|exact Ha]. apply (Hpd v Hv). left.
    - rewrite Forall_forall in V3. apply V3 in Hv. lia. }
  inversion Hbs as [|? kept ? Hk|? ? ? Hk]; subst.
  2:{ exfalso. eapply sublist_in in Hvb; [|exact Hk]. done. }
  exists (a ++ [v]), kept, new.
  assert (Hids : vids (gs_dg s1) = a ++ v :: kept ++ new). { rewrite V1. by rewrite <- app_assoc. }
  split_and!.
  - eapply next_vertex_split; [by apply (wf_vid einv)|]. exact Hids.
  - split; try done.
    + rewrite Hids. by rewrite <- app_assoc.
    + intros x [Hx|Hx]%elem_of_app; apply elem_of_app; [left|by right]. apply P3. by eapply sublist_in.
    + intros x [Hx|Hx]%elem_of_app Hin.
      * eapply sublist_in in Hx; [|exact Hk]. apply elem_of_app in Hin as [Hin| ->%elem_of_list_singleton]; [|done].
        apply (P4 x); [by right|done].
      * rewrite Forall_forall in V3, Hseen. apply V3 in Hx. apply Hseen in Hin. lia.
  - done.
  - done.
  - intros Hf. specialize (V5 Hf). rewrite P1 in V5.
    assert (length a <= length pre) by by apply sublist_length. assert (length kept <= length rest) by by apply sublist_length.
    assert (length (a ++ v :: kept) = length (pre ++ v :: rest)) as Hlen by by rewrite V5. rewrite !app_length in Hlen. cbn in Hlen.
    apply app_inj_1 in V5 as [-> V5]; [|lia]. by injection V5 as ->.
Qed.

(** What holds when the loop ends other than by undefined behaviour. *)
Record visited s seen0 s' (seen : list vid) (ev : list event) : Prop := {
  vd_reach : reachable d0 einv s';
  vd_nodup : NoDup seen;
  vd_seen : exists more, seen = seen0 ++ more /\ Forall (fun x => x ∈ vids (gs_dg s) \/ dg_nextv (gs_dg s) <= x < dg_nextv (gs_dg s')) more;
  vd_next : dg_nextv (gs_dg s') = dg_nextv (gs_dg s) + adds ev }.

Lemma loop_visits {C} (z : visitor D E C) n : noself_visitor z -> forall c cur s seen pre rest s' seen' ev r,
  reachable d0 einv s -> place s cur seen pre rest ->
  visit_loop d0 einv z n c cur (s, seen) = ((s', seen'), ev, r) -> r <> UB -> (r = Fuel -> each_run d0 einv z run_ends) ->
  visited s seen s' seen' ev /\ (r = Ret tt -> forall x, x ∈ vids (gs_dg s') -> x ∈ seen') /\ (r = Fuel -> length seen' = length seen + n).
Proof.
  intros Hz. induction n as [|n IH]; intros c cur s seen pre rest s' seen' ev r Hr Hp Hl Hub Hfu.
  all: assert (Hcase : cur = None \/ exists v rest', cur = Some v /\ rest = v :: rest')
         by (pose proof (pl_cur _ _ _ _ _ Hp) as ->; destruct rest as [|v rest']; [by left|right; by exists v, rest']).
  all: destruct Hcase as [->|(v & rest' & -> & ->)]; cbn [visit_loop fst snd] in Hl.
  1,3: injection Hl as <- <- <- <-; split_and!; [split; [done|by apply Hp|exists []; by rewrite app_nil_r|by cbn; lia]| |done];
       intros _ x Hx; pose proof (pl_cur _ _ _ _ _ Hp) as Hc; destruct rest; [|done]; rewrite (pl_ids _ _ _ _ _ Hp), app_nil_r in Hx; by apply Hp.
  - injection Hl as <- <- <- <-. split_and!; [split; [done|by apply Hp|exists []; by rewrite app_nil_r|by cbn; lia]|done|lia].
  - destruct (body d0 einv (vz_do z c v s) s) as [[s1 e1] r1] eqn:Hb.
    assert (Hv : v ∈ vids (gs_dg s)). { rewrite (pl_ids _ _ _ _ _ Hp). apply elem_of_app. right. left. }
    assert (Hok1 : ok r1).
    { destruct r1 as [[]|x| |]; [done|done| |]; injection Hl as <- <- <- <-; [done|].
      destruct (Hfu eq_refl c v s s1 e1 Fuel) as [[? ?]|[? ?]]; try done. by apply frame_at_iff. }
    destruct (body_evolves _ _ _ _ _ Hr (Hz c v s) Hb Hok1) as [Hr1 Hs1].
    destruct (place_next _ _ _ _ _ _ _ Hr Hr1 Hp Hs1) as (Hnd & Hlt & Hnext).
    destruct (lsteps_evolves _ _ _ Hs1) as (old & new & [V1 V2 V3 V4 V5]).
    destruct r1 as [[]|x| |]; try done.
    + destruct (next_vertex (dg_verts (gs_dg s1)) v) as [nx|] eqn:Hnx; [|by injection Hl as <- <- <- <-].
      destruct (visit_loop d0 einv z n (vz_memory z c v s) nx (s1, seen ++ [v])) as [[[s2 seen2] e2] r2] eqn:H2.
      injection Hl as <- <- <- <-.
      assert (Hv1 : v ∈ vids (gs_dg s1)). { destruct (decide (v ∈ vids (gs_dg s1))); [done|]. rewrite next_vertex_none in Hnx; done. }
      destruct (Hnext Hv1) as (pre' & kept & nw & Hnx' & Hp' & _ & _ & _). injection Hnx' as ->.
      destruct (IH _ _ _ _ _ _ _ _ _ _ Hr1 Hp' H2 Hub Hfu) as ([W1 W2 (more & -> & W3) W4] & W5 & W6).
      split_and!; [|done|].
      * split; [done|done| |].
        -- exists (v :: more). rewrite <- app_assoc. split; [done|]. constructor; [by left|].
           eapply Forall_impl; [exact W3|]. cbn. intros x [Hx|Hx]; [|right; lia].
           rewrite V1 in Hx. apply elem_of_app in Hx as [Hx|Hx]; [left; by eapply sublist_in|right].
           rewrite Forall_forall in V3. apply V3 in Hx. lia.
        -- rewrite adds_app. lia.
      * intros Hf. rewrite (W6 Hf), app_length. cbn. lia.
    + injection Hl as <- <- <- <-. split_and!; [|done|done]. split; [done|done| |done].
      exists [v]. split; [done|]. constructor; [by left|constructor].
Qed.

Lemma loop_defined {C} (z : visitor D E C) n : noself_visitor z -> each_run d0 einv z run_ends -> each_run d0 einv z frame_stays ->
  forall c cur s seen pre rest, reachable d0 einv s -> place s cur seen pre rest -> snd (visit_loop d0 einv z n c cur (s, seen)) <> UB.
Proof.
  intros Hz He Hk. induction n as [|n IH]; intros c cur s seen pre rest Hr Hp.
  all: assert (Hcase : cur = None \/ exists v rest', cur = Some v /\ rest = v :: rest')
         by (pose proof (pl_cur _ _ _ _ _ Hp) as ->; destruct rest as [|v rest']; [by left|right; by exists v, rest']).
  all: destruct Hcase as [->|(v & rest' & -> & ->)]; cbn [visit_loop fst snd]; [done| |..]; try done.
  destruct (body d0 einv (vz_do z c v s) s) as [[s1 e1] r1] eqn:Hb.
  assert (Hv : v ∈ vids (gs_dg s)). { rewrite (pl_ids _ _ _ _ _ Hp). apply elem_of_app. right. left. }
  apply (frame_at_iff s v Hr) in Hv. pose proof (He _ _ _ _ _ _ Hr Hv Hb) as Hend. pose proof (Hk _ _ _ _ _ _ Hr Hv Hb) as Hst.
  destruct Hend as [[[] ->]|[x ->]]; [|done].
  destruct (body_evolves _ _ _ _ _ Hr (Hz c v s) Hb I) as [Hr1 Hs1].
  destruct (place_next _ _ _ _ _ _ _ Hr Hr1 Hp Hs1) as (Hnd & Hlt & Hnext).
  destruct Hnext as (pre' & kept & nw & -> & Hp' & _). { apply frame_at_iff; [done|]. by apply Hst. }
  specialize (IH (vz_memory z c v s) _ _ _ _ _ Hr1 Hp'). by destruct (visit_loop _ _ _ _ _ _ _) as [[??]?].
Qed.

Lemma seen_bound s s' (seen : list vid) ev : reachable d0 einv s -> visited s [] s' seen ev -> length seen <= num_vertices s + adds ev.
Proof.
  intros Hr [_ Hnd (more & -> & Hf) Hn]. cbn in *. pose proof (reachable_wf d0 einv s Hr) as Hwf.
  assert (Hsub : more ⊆ vids (gs_dg s) ++ seq (dg_nextv (gs_dg s)) (adds ev)).
  { intros x Hx. rewrite Forall_forall in Hf. apply elem_of_app. destruct (Hf x Hx) as [?|?]; [by left|right]. apply elem_of_seq. lia. }
  apply (NoDup_submseteq _ _ Hnd) in Hsub. apply submseteq_length in Hsub. rewrite app_length, seq_length in Hsub.
  unfold num_vertices. rewrite (wf_nv einv _ Hwf). unfold vids in Hsub. by rewrite fmap_length in Hsub.
Qed.

(** The theorems *)

Theorem visit_complete {C} (z : visitor D E C) n c s s' seen ev : noself_visitor z -> reachable d0 einv s ->
  visit_vertices d0 einv z n c (s, []) = ((s', seen), ev, Ret tt) ->
  NoDup seen /\ (forall v, frame_at s' v -> v ∈ seen) /\ length seen <= num_vertices s + length (filter frame_added ev).
Proof.
  intros Hz Hr Hv. destruct (loop_visits z n Hz c _ s [] [] _ s' seen ev (Ret tt) Hr (place_start s) Hv ltac:(done) ltac:(done)) as (W & H1 & _).
  split; [by apply W|]. split; [|by eapply seen_bound].
  intros v Hf. apply H1; [done|]. apply frame_at_iff; [by apply W|done].
Qed.

Theorem visit_defined {C} (z : visitor D E C) n c s s' seen ev r :
  noself_visitor z -> each_run d0 einv z run_ends -> each_run d0 einv z frame_stays -> reachable d0 einv s ->
  visit_vertices d0 einv z n c (s, []) = ((s', seen), ev, r) ->
  r <> UB /\ NoDup seen /\ length seen <= num_vertices s + length (filter frame_added ev) /\ (r = Fuel -> length seen = n).
Proof.
  intros Hz He Hk Hr Hv.
  assert (Hub : r <> UB). { pose proof (loop_defined z n Hz He Hk c _ s [] [] _ Hr (place_start s)) as H. unfold visit_vertices in Hv. cbn in Hv. by rewrite Hv in H. }
  destruct (loop_visits z n Hz c _ s [] [] _ s' seen ev r Hr (place_start s) Hv Hub ltac:(done)) as (W & H1 & H2).
  split; [done|]. split; [by apply W|]. split; [by eapply seen_bound|]. intros Hf. by rewrite (H2 Hf).
Qed.

(* visitors that announce no new frame *)
Lemma loop_quiet {C} (z : visitor D E C) n : noself_visitor z -> each_run d0 einv z none_added ->
  forall c cur s seen pre rest s' seen' ev r, reachable d0 einv s -> place s cur seen pre rest ->
  visit_loop d0 einv z n c cur (s, seen) = ((s', seen'), ev, r) -> adds ev = 0.
Proof.
  intros Hz Hq. induction n as [|n IH]; intros c cur s seen pre rest s' seen' ev r Hr Hp Hl.
  all: assert (Hcase : cur = None \/ exists v rest', cur = Some v /\ rest = v :: rest')
         by (pose proof (pl_cur _ _ _ _ _ Hp) as ->; destruct rest as [|v rest']; [by left|right; by exists v, rest']).
  all: destruct Hcase as [->|(v & rest' & -> & ->)]; cbn [visit_loop fst snd] in Hl; try (by injection Hl as <- <- <- <-).
  destruct (body d0 einv (vz_do z c v s) s) as [[s1 e1] r1] eqn:Hb.
  assert (Hv : v ∈ vids (gs_dg s)). { rewrite (pl_ids _ _ _ _ _ Hp). apply elem_of_app. right. left. }
  apply (frame_at_iff s v Hr) in Hv. pose proof (Hq _ _ _ _ _ _ Hr Hv Hb) as Hn.
  assert (He1 : adds e1 = 0).
  { unfold adds. clear -Hn. induction Hn as [|e l Hne Hl IH]; [done|]. rewrite filter_cons_False; done. }
  destruct r1 as [[]|x| |]; try (by injection Hl as <- <- <- <-).
  destruct (next_vertex (dg_verts (gs_dg s1)) v) as [nx|] eqn:Hnx; [|by injection Hl as <- <- <- <-].
  destruct (visit_loop d0 einv z n (vz_memory z c v s) nx (s1, seen ++ [v])) as [[[s2 seen2] e2] r2] eqn:H2. injection Hl as <- <- <- <-.
  destruct (body_evolves _ _ _ _ _ Hr (Hz c v s) Hb I) as [Hr1 Hs1].
  destruct (place_next _ _ _ _ _ _ _ Hr Hr1 Hp Hs1) as (Hnd & Hlt & Hnext).
  assert (Hv1 : v ∈ vids (gs_dg s1)). { destruct (decide (v ∈ vids (gs_dg s1))); [done|]. rewrite next_vertex_none in Hnx; done. }
  destruct (Hnext Hv1) as (pre' & kept & nw & Hnx' & Hp' & _). rewrite Hnx in Hnx'. injection Hnx' as ->.
  rewrite adds_app, He1. by eapply IH.
Qed.

Theorem visit_ends {C} (z : visitor D E C) n c s :
  noself_visitor z -> each_run d0 einv z run_ends -> each_run d0 einv z frame_stays -> each_run d0 einv z none_added -> reachable d0 einv s ->
  num_vertices s < n -> ended (snd (visit_vertices d0 einv z n c (s, []))).
Proof.
  intros Hz He Hk Hq Hr Hn. destruct (visit_vertices d0 einv z n c (s, [])) as [[[s' seen] ev] r] eqn:Hv. cbn.
  destruct (visit_defined z n c s s' seen ev r Hz He Hk Hr Hv) as (Hub & _ & Hb & Hf).
  pose proof (loop_quiet z n Hz Hq c _ s [] [] _ s' seen ev r Hr (place_start s) Hv) as Ha. unfold adds in Ha.
  destruct r as [[]|x| |]; [left; by exists tt|right; by exists x|done|]. specialize (Hf eq_refl). lia.
Qed.

(* visitors that neither add nor remove frames *)
Lemma loop_order {C} (z : visitor D E C) n : noself_visitor z -> each_run d0 einv z run_ends -> each_run d0 einv z none_added -> each_run d0 einv z none_removed ->
  forall c cur s seen pre rest s' seen' ev r, reachable d0 einv s -> place s cur seen pre rest ->
  visit_loop d0 einv z n c cur (s, seen) = ((s', seen'), ev, r) -> length rest <= n ->
  vids (gs_dg s') = vids (gs_dg s) /\
  ((r = Ret tt /\ seen' = seen ++ rest) \/ exists x vis todo, r = Throw x /\ seen' = seen ++ vis /\ rest = vis ++ todo /\ vis <> []).
Proof.
  intros Hz He Ha Hd. induction n as [|n IH]; intros c cur s seen pre rest s' seen' ev r Hr Hp Hl Hn.
  all: assert (Hcase : cur = None /\ rest = [] \/ exists v rest', cur = Some v /\ rest = v :: rest')
         by (pose proof (pl_cur _ _ _ _ _ Hp) as ->; destruct rest as [|v rest']; [by left|right; by exists v, rest']).
  all: destruct Hcase as [[-> ->]|(v & rest' & -> & ->)]; cbn [visit_loop fst snd] in Hl;
    try (injection Hl as <- <- <- <-; split; [done|]; left; by rewrite app_nil_r); cbn in Hn; try lia.
  destruct (body d0 einv (vz_do z c v s) s) as [[s1 e1] r1] eqn:Hb.
  assert (Hv : v ∈ vids (gs_dg s)). { rewrite (pl_ids _ _ _ _ _ Hp). apply elem_of_app. right. left. }
  apply (frame_at_iff s v Hr) in Hv. pose proof (Ha _ _ _ _ _ _ Hr Hv Hb) as Hna. pose proof (Hd _ _ _ _ _ _ Hr Hv Hb) as Hnd.
  assert (Hok : ok r1). { by destruct (He _ _ _ _ _ _ Hr Hv Hb) as [[[] ->]|[x ->]]. }
  destruct (body_evolves _ _ _ _ _ Hr (Hz c v s) Hb Hok) as [Hr1 Hs1].
  assert (He1 : adds e1 = 0).
  { unfold adds. clear -Hna. unfold none_added in Hna. induction Hna as [|e l Hne Hl IH]; [done|]. rewrite filter_cons_False; done. }
  assert (Hsame : vids (gs_dg s1) = vids (gs_dg s)).
  { destruct (lsteps_evolves _ _ _ Hs1) as (old & new & [V1 V2 V3 V4 V5]). rewrite V1, (V5 Hnd).
    destruct new as [|x new]; [by rewrite app_nil_r|]. apply Forall_cons in V3 as [V3 _]. lia. }
  destruct r1 as [[]|x| |]; try done.
  2:{ injection Hl as <- <- <- <-. split; [done|]. right. by exists x, [v], rest'. }
  destruct (place_next _ _ _ _ _ _ _ Hr Hr1 Hp Hs1) as (_ & _ & Hnext).
  destruct Hnext as (pre' & kept & nw & Hnx & Hp' & _ & Hnw & Hkp). { rewrite Hsame. by apply frame_at_iff. }
  destruct (Hkp Hnd) as [-> ->].
  assert (nw = []) as ->.
  { pose proof (pl_ids _ _ _ _ _ Hp') as Hi. rewrite Hsame, (pl_ids _ _ _ _ _ Hp) in Hi.
    assert (Hlen : length (pre ++ v :: rest') = length ((pre ++ [v]) ++ rest' ++ nw)) by by rewrite Hi.
    rewrite !app_length in Hlen. cbn in Hlen. destruct nw; [done|]. cbn in Hlen. lia. }
  rewrite app_nil_r in Hnx, Hp'. rewrite Hnx in Hl.
  destruct (visit_loop d0 einv z n (vz_memory z c v s) (head rest') (s1, seen ++ [v])) as [[[s2 seen2] e2] r2] eqn:H2. injection Hl as <- <- <- <-.
  destruct (IH _ _ _ _ _ _ _ _ _ _ Hr1 Hp' H2 ltac:(lia)) as [Hvs [[-> ->]|(x & vis & todo & -> & -> & -> & Hne)]]; (split; [congruence|]).
  - left. split; [done|]. by rewrite <- app_assoc.
  - right. exists x, (v :: vis), todo. by rewrite <- app_assoc.
Qed.

Theorem visit_each {C} (z : visitor D E C) n c s s' seen ev r :
  noself_visitor z -> each_run d0 einv z run_ends -> each_run d0 einv z none_added -> each_run d0 einv z none_removed -> reachable d0 einv s ->
  num_vertices s <= n -> visit_vertices d0 einv z n c (s, []) = ((s', seen), ev, r) ->
  frames_in_order s' = frames_in_order s /\ NoDup (frames_in_order s) /\ (forall v, v ∈ frames_in_order s <-> frame_at s v) /\
  ((r = Ret tt /\ seen = frames_in_order s) \/ (exists x todo, r = Throw x /\ frames_in_order s = seen ++ todo /\ seen <> [])).
Proof.
  intros Hz He Ha Hd Hr Hn Hv. pose proof (reachable_wf d0 einv s Hr) as Hwf.
  assert (Hlen : length (vids (gs_dg s)) <= n). { unfold num_vertices in Hn. rewrite (wf_nv einv _ Hwf) in Hn. unfold vids. by rewrite fmap_length. }
  destruct (loop_order z n Hz He Ha Hd c _ s [] [] _ s' seen ev r Hr (place_start s) Hv Hlen) as [Hs H].
  split; [exact Hs|]. split; [by apply (wf_vid einv)|]. split; [intros v; symmetry; by apply frame_at_iff|].
  destruct H as [[-> ->]|(x & vis & todo & -> & -> & Heq & Hne)]; [by left|]. right. by exists x, todo.
Qed.

(** Calls *)
Lemma gstep_emits (P : event -> Prop) ord op :
  (forall a b e, P (EvEdgeAdded a b e)) -> (forall a b, P (EvEdgeRemoved a b)) -> (forall a b e1 e2, P (EvEdgeModified a b e1 e2)) ->
  (may_add op -> forall f, P (EvFrameAdded f)) -> (may_remove op -> forall f, P (EvFrameRemoved f)) ->
  emits P (gstep (D := D) (E := E) d0 einv ord op).
Proof.
  intros H1 H2 H3 H4 H5. destruct op.
  1: apply emits_bind; [by apply emits_emplace, H4|intros _; apply emits_ret].
  1: apply emits_bind; [by apply emits_emplace, H4|intros _; apply emits_ret].
  1: apply emits_add_edge; [done|by apply H4].
  1: by apply emits_add_edge_v.
  1: by apply emits_remove_edge.
  1: by apply emits_remove_edge_v.
  1: by apply emits_set_edge_property.
  1: by apply emits_set_edge_property_v.
  1: by apply emits_disconnect.
  1: by apply emits_remove_frame, H5.
  1: intros s s' ev r; cbn [gstep]; unfold set_frame_data; destruct (bg_alive _ _); intros [= <- <- <-]; constructor.
  all: intros s s' ev r H; match type of H with gstep _ _ _ ?op _ = _ =>
      destruct (view_op_frame d0 einv ord op s s' ev r I H) as [_ ->]; constructor end.
Qed.

Lemma body_emits (P : event -> Prop) (Q : gop D E -> Prop) sc :
  (forall ord op, Q op -> emits P (gstep (D := D) (E := E) d0 einv ord op)) -> calls_only Q sc -> emits P (body d0 einv sc).
Proof.
  intros HQ Hc. induction Hc as [|x|ord op k Hop Hk IH]; intros s s' ev r; cbn [body].
  - intros [= <- <- <-]. constructor.
  - intros [= <- <- <-]. constructor.
  - destruct (gstep d0 einv ord op s) as [[s1 e1] r1] eqn:Hs. pose proof (HQ ord op Hop _ _ _ _ Hs) as H1.
    destruct r1 as [[]|x| |]; try (by intros [= <- <- <-]);
      destruct (body d0 einv (k s1 _) s1) as [[s2 e2] r2] eqn:H2; intros [= <- <- <-]; apply Forall_app; (split; [done|]); by eapply IH.
Qed.

Theorem visit_calls {C} (z : visitor D E C) : noself_visitor z ->
  ((forall c v s, calls_only (fun op => ~ may_add op) (vz_do z c v s)) -> each_run d0 einv z none_added) /\
  ((forall c v s, calls_only (fun op => ~ may_remove op) (vz_do z c v s)) -> each_run d0 einv z none_removed) /\
  (each_run d0 einv z none_removed -> each_run d0 einv z frame_stays).
Proof.
  intros Hz. split_and!.
  - intros Hc c v s s' ev r Hr Hv Hb. eapply (body_emits (fun e => ~ frame_added e)); [|by apply Hc|exact Hb].
    intros ord op Hop. apply gstep_emits; try (by intros; intros []); by intros ?.
  - intros Hc c v s s' ev r Hr Hv Hb. eapply (body_emits (fun e => ~ frame_removed e)); [|by apply Hc|exact Hb].
    intros ord op Hop. apply gstep_emits; try (by intros; intros []); by intros ?.
  - intros Hn c v s s' ev r Hr Hv Hb ->. pose proof (Hn _ _ _ _ _ _ Hr Hv Hb) as Hnr.
    destruct (body_evolves _ _ _ _ _ Hr (Hz c v s) Hb I) as [Hr1 Hs1].
    destruct (lsteps_evolves _ _ _ Hs1) as (old & new & [V1 V2 V3 V4 V5]). apply frame_at_iff; [done|]. rewrite V1, (V5 Hnr).
    apply elem_of_app. left. by apply frame_at_iff.
Qed.

(** Removing the frame that is visited *)
Theorem visit_current {C} (z : visitor D E C) n c s v s1 ev : noself_visitor z -> reachable d0 einv s ->
  head (frames_in_order s) = Some v -> body d0 einv (vz_do z c v s) s = (s1, ev, Ret tt) -> ~ frame_at s1 v ->
  visit_vertices d0 einv z (S n) c (s, []) = ((s1, [v]), ev, UB).
Proof.
  intros Hz Hr Hh Hb Hv. unfold visit_vertices. cbn [fst].
  assert (v_id <$> head (dg_verts (gs_dg s)) = Some v) as ->. { unfold frames_in_order in Hh. by destruct (dg_verts (gs_dg s)). }
  cbn [visit_loop fst snd]. rewrite Hb. destruct (body_evolves _ _ _ _ _ Hr (Hz c v s) Hb I) as [Hr1 _].
  rewrite next_vertex_none; [done|]. intros Hin. apply Hv. by apply frame_at_iff.
Qed.

(** A visitor that only looks *)
Theorem visit_reads {C} (z : visitor D E C) n c s : (forall c v s, vz_do z c v s = SEnd) -> reachable d0 einv s -> num_vertices s <= n ->
  visit_vertices d0 einv z n c (s, []) = ((s, frames_in_order s), [], Ret tt).
Proof.
  intros Hz Hr Hn. pose proof (reachable_wf d0 einv s Hr) as Hwf.
  assert (Hl : forall n c pre rest seen, vids (gs_dg s) = pre ++ rest -> length rest <= n ->
    visit_loop d0 einv z n c (head rest) (s, seen) = ((s, seen ++ rest), [], Ret tt)).
  { clear n c Hn. induction n as [|n IH]; intros c pre rest seen Hp Hn; destruct rest as [|v rest]; cbn in Hn; try lia; cbn [head visit_loop fst snd].
    1,2: by rewrite app_nil_r.
    rewrite Hz. cbn [body]. rewrite (next_vertex_split _ v pre rest); [|by apply (wf_vid einv)|exact Hp].
    rewrite (IH _ (pre ++ [v]) rest); [by rewrite <- app_assoc| |lia]. by rewrite <- app_assoc. }
  unfold visit_vertices. cbn [fst]. rewrite (pl_cur _ _ _ _ _ (place_start s)).
  apply (Hl n c [] _ []); [done|]. unfold num_vertices in Hn. rewrite (wf_nv einv _ Hwf) in Hn. unfold vids. by rewrite fmap_length.
Qed.

(** A visitor that adds a new frame each time it is called *)
Fixpoint long (k : nat) : frameid := match k with O => EmptyString | S k' => String "x"%char (long k') end.
Lemma long_length k : String.length (long k) = k.
Proof. induction k as [|k IH]; [done|]. cbn. by rewrite IH. Qed.

Definition grower (k : nat) (ord : viewid -> order) : visitor D E nat :=
  Visitor (fun c _ _ => SCall ord (OAddFrame (long (k + c))) (fun _ _ => SEnd)) (fun c _ _ => S c).

Lemma grower_body k ord c v s : exists s1 ev, body d0 einv (vz_do (grower k ord) c v s) s = (s1, ev, Ret tt) /\
  (dg_map (gs_dg s) !! long (k + c) = None -> gs_dg s1 = fst (bg_add_vertex (long (k + c)) d0 (gs_dg s))).
Proof.
  cbn [grower vz_do body gstep]. unfold add_frame, emplace_frame, cbind.
  destruct (Nat.eqb (bg_vertex (gs_dg s) (long (k + c))) null_vertex) eqn:Hv.
  - unfold add_vertex. destruct (bg_add_vertex (long (k + c)) d0 (gs_dg s)) as [g1 v1] eqn:Hg. cbn. eexists _, _. split; [done|]. done.
  - cbn. eexists _, _. split; [done|]. intros Hm. exfalso.
    assert (Hx : bg_vertex (gs_dg s) (long (k + c)) = null_vertex) by (unfold bg_vertex; by rewrite Hm). rewrite Hx in Hv. done.
Qed.

Theorem visit_endless s (ord : viewid -> order) : reachable d0 einv s -> 0 < num_vertices s -> exists z : visitor D E nat,
  noself_visitor z /\ each_run d0 einv z run_ends /\ each_run d0 einv z frame_stays /\
  forall n, snd (visit_vertices d0 einv z n 0 (s, [])) = Fuel.
Proof.
  intros Hr Hn. set (k := S (list_max (String.length ∘ v_name <$> dg_verts (gs_dg s)))).
  assert (Hz : noself_visitor (grower k ord)). { intros c v s0. constructor; [done|]. intros _ _. constructor. }
  exists (grower k ord). split; [done|]. split.
  { intros c v s0 s' ev r _ _ Hb. destruct (grower_body k ord c v s0) as (s1 & ev1 & Hb1 & _). rewrite Hb in Hb1. injection Hb1 as -> -> ->. left. by exists tt. }
  split.
  { apply (visit_calls (grower k ord) Hz). apply (visit_calls (grower k ord) Hz). intros c v s0. constructor; [by intros []|]. intros _ _. constructor. }
  assert (Hk : forall r, r ∈ dg_verts (gs_dg s) -> String.length (v_name r) < k + 0).
  { intros r Hin. rewrite Nat.add_0_r. apply Nat.lt_succ_r. assert (Hmax := proj1 (list_max_le (String.length ∘ v_name <$> dg_verts (gs_dg s)) _) (Nat.le_refl _)).
    apply (proj1 (List.Forall_forall _ _) Hmax). apply elem_of_list_In. by apply (elem_of_list_fmap_1 (String.length ∘ v_name)). }
  clearbody k.
  assert (Hl : forall n c s v pre rest seen, reachable d0 einv s -> vids (gs_dg s) = pre ++ v :: rest ->
    (forall r, r ∈ dg_verts (gs_dg s) -> String.length (v_name r) < k + c) ->
    snd (visit_loop d0 einv (grower k ord) n c (Some v) (s, seen)) = Fuel).
  { clear s Hr Hn Hk. induction n as [|n IH]; intros c s v pre rest seen Hr Hi Hk; [done|]. cbn [visit_loop fst snd].
    destruct (grower_body k ord c v s) as (s1 & ev1 & Hb & Hg). rewrite Hb.
    pose proof (reachable_wf d0 einv s Hr) as Hwf.
    destruct (body_evolves _ _ _ _ _ Hr (Hz c v s) Hb I) as [Hr1 _]. pose proof (reachable_wf d0 einv s1 Hr1) as Hwf1.
    assert (Hm : dg_map (gs_dg s) !! long (k + c) = None).
    { destruct (dg_map (gs_dg s) !! long (k + c)) as [u|] eqn:Hm; [|done]. apply (wf_map einv _ Hwf) in Hm as (r & Hin & _ & Hname).
      apply Hk in Hin. rewrite Hname, long_length in Hin. lia. }
    specialize (Hg Hm). unfold bg_add_vertex in Hg. rewrite Hm in Hg. cbn [fst] in Hg.
    assert (Hi1 : vids (gs_dg s1) = pre ++ v :: (rest ++ [dg_nextv (gs_dg s)])).
    { rewrite Hg. unfold vids. cbn [dg_verts]. rewrite fmap_app. fold (vids (gs_dg s)). rewrite Hi. by rewrite <- app_assoc. }
    rewrite (next_vertex_split _ v pre (rest ++ [dg_nextv (gs_dg s)])); [|by apply (wf_vid einv)|exact Hi1].
    destruct (rest ++ [dg_nextv (gs_dg s)]) as [|u rest1] eqn:Hrest; [by destruct rest|]. cbn [head].
    cbn [vz_memory grower].
    assert (Hfin : snd (visit_loop d0 einv (grower k ord) n (S c) (Some u) (s1, seen ++ [v])) = Fuel).
    { apply (IH (S c) s1 u (pre ++ [v]) rest1); [done|by rewrite <- app_assoc|].
      intros r Hin. rewrite Hg in Hin. cbn [dg_verts] in Hin. apply elem_of_app in Hin as [Hin|Hin].
      - apply Hk in Hin. lia.
      - apply elem_of_list_singleton in Hin as ->. cbn [v_name]. rewrite long_length. lia. }
    by destruct (visit_loop d0 einv (grower k ord) n (S c) (Some u) (s1, seen ++ [v])) as [[??]?]. }
  intros n. unfold visit_vertices. cbn [fst]. unfold num_vertices in Hn. rewrite (wf_nv einv _ (reachable_wf d0 einv s Hr)) in Hn.
  destruct (dg_verts (gs_dg s)) as [|r0 vs] eqn:Hvs; [cbn in Hn; lia|]. cbn.
  apply (Hl n 0 s (v_id r0) [] (v_id <$> vs) []); [done|unfold vids; by rewrite Hvs|]. by rewrite Hvs.
Qed.

End visit.
