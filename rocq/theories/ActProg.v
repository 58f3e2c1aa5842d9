(** Programs with slots of tree views that only read. *)
From stdpp Require Import prelude strings gmap.
From Verif Require Import Outcome Digraph TreeView GraphModel GraphOps SpecObs GraphThms HandlerModel SpecHandler ActModel SpecAct SpecActProg ActQuiet.

Theorem reader_program {D E : Type} (d0 : D) (einv : E -> E) h (prog : script D E) : forall s s0 ev0 r,
  considerate id id (fun _ => True) h -> script_noself prog -> reachable d0 einv s ->
  plain d0 einv prog s = (s0, ev0, r) -> ended r ->
  exists N, forall fuel n, N <= fuel -> exists n1 ev1,
    act_exec d0 einv h fuel prog (s, n) = ((s0, n1), ev1, r) /\ filter structural ev1 = filter structural ev0.
Proof.
  induction prog as [|x|ord op k IH]; intros s s0 ev0 r Hc Hn Hr Hp He; cbn [plain] in Hp.
  - injection Hp as <- <- <-. exists 0. intros fuel n _. by exists n, [].
  - injection Hp as <- <- <-. exists 0. intros fuel n _. by exists n, [].
  - inversion Hn as [| |? ? ? Hno Hk]; subst. destruct (gstep d0 einv ord op s) as [[s1 e1] r1] eqn:Hs.
    assert (Hend : ended r1). { destruct r1 as [[]|y| |]; [by left; exists tt|by right; exists y| |]; injection Hp as <- <- <-; by destruct He as [[? ?]|[? ?]]. }
    assert (Hr1 : reachable d0 einv s1). { eapply reachable_step; try done. by destruct Hend as [[[] ->]|[y ->]]. }
    assert (Hp' : exists e2, plain d0 einv (k s1 r1) s1 = (s0, e2, r) /\ ev0 = e1 ++ e2).
    { destruct Hend as [[[] ->]|[y ->]]; destruct (plain _ _ _ _) as [[s2 e2] r2]; injection Hp as <- <- <-; by exists e2. }
    destruct Hp' as (e2 & Hp' & ->).
    destruct (IH s1 r1 s1 s0 e2 r Hc (Hk s1 r1) Hr1 Hp' He) as [N HN].
    exists (N + (length (dg_verts (gs_dg s)) + length (dg_edges (gs_dg s)) + 4)). intros fuel n Hf.
    destruct (readers_call d0 einv (fun _ => True) h fuel ord op s n s1 e1 r1) as (s1' & n1 & e1' & Hg & Hd & Hsb & Hv & Hev); try done; [lia|].
    assert (s1' = s1) as ->.
    { destruct s1' as [g1 b1 v1], s1 as [g b v]. cbn in *. f_equal; [done|done|]. apply map_eq. intros j. by apply Hv. }
    destruct (HN fuel n1) as (n2 & e2' & Hx & Hev2); [lia|].
    cbn [act_exec]. rewrite Hg. cbn [fst]. exists n2, (e1' ++ e2').
    assert (Hrun : forall r0, r0 = r1 -> (let '(s2, e3, r2) := act_exec d0 einv h fuel (k s1 r0) (s1, n1) in (s2, e1' ++ e3, r2)) = (s0, n2, e1' ++ e2', r)).
    { intros r0 ->. by rewrite Hx. }
    split; [|by rewrite !filter_app, Hev, Hev2].
    destruct Hend as [[[] ->]|[y ->]]; by apply Hrun.
Qed.
