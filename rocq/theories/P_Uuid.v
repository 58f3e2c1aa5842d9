(** Properties of the identifiers of items: C96. *)
From stdpp Require Import prelude gmap.
From Verif Require Import UuidModel SpecUuid UuidThms.

(** ** C96: items have the same identifier exactly if one is a copy of the other *)
(* The full statement is for all schedules of the threads.  Proved: schedules in which no thread begins to draw an identifier
   while another one is drawing from the same generator. *)
Theorem C96_in_turns_partial {G U : Type} (draw : G -> U * G) (which : nat -> nat) (g0 : nat -> G) l s k k' a a' u u' :
  no_repetition draw g0 -> in_turns draw which l (ids_new g0) -> id_run draw which l (ids_new g0) = s ->
  id_objs s !! k = Some (a, u) -> id_objs s !! k' = Some (a', u') ->
  u = u' <-> origins (id_objs s).*1 !! k = origins (id_objs s).*1 !! k'.
Proof. exact (same_origin draw which g0 l s k k' a a' u u'). Qed.
Print Assumptions C96_in_turns_partial.

(* In particular if only one thread makes items. *)
Theorem C96_one_thread {G U : Type} (draw : G -> U * G) (g0 : nat -> G) t l s k k' a a' u u' :
  no_repetition draw g0 -> (forall x, x ∈ l -> x.1 = t) -> id_run draw shared_generator l (ids_new g0) = s ->
  id_objs s !! k = Some (a, u) -> id_objs s !! k' = Some (a', u') ->
  u = u' <-> origins (id_objs s).*1 !! k = origins (id_objs s).*1 !! k'.
Proof. exact (fun Hn Hl => same_origin draw shared_generator g0 l s k k' a a' u u' Hn (one_thread_turns draw shared_generator t l (ids_new g0) Hl (fun _ _ => lookup_empty _))). Qed.
Print Assumptions C96_one_thread.

(* With the generators of RandomGenerator, which no constructor uses, it would hold for all schedules. *)
Theorem C96_thread_generator {G U : Type} (draw : G -> U * G) (g0 : nat -> G) l s k k' a a' u u' :
  no_repetition draw g0 -> id_run draw thread_generator l (ids_new g0) = s ->
  id_objs s !! k = Some (a, u) -> id_objs s !! k' = Some (a', u') ->
  u = u' <-> origins (id_objs s).*1 !! k = origins (id_objs s).*1 !! k'.
Proof. exact (fun Hn => same_origin draw thread_generator g0 l s k k' a a' u u' Hn (own_turns draw thread_generator l (ids_new g0) (fun _ _ H => H))). Qed.
Print Assumptions C96_thread_generator.

(* The generator of the process is used without a lock: two threads that construct items at the same time get the same identifier,
   whatever the generator and whatever happened before. *)
Theorem C96_same_id_refuted {G U : Type} (draw : G -> U * G) (s : ids G U) t t' : t <> t' -> id_busy s !! t = None -> id_busy s !! t' = None ->
  exists u, id_objs (id_run draw shared_generator [(t, MNew); (t', MNew); (t, MNew); (t', MNew)] s) = id_objs s ++ [(MNew, u); (MNew, u)].
Proof. exact (duplicate draw s t t'). Qed.
Print Assumptions C96_same_id_refuted.

(* A thread that is held up in the generator while another one makes [n] items sets the generator back: the next [n] items of the
   other thread, made while nobody else draws, repeat the identifiers of the earlier ones, but for the last. *)
Theorem C96_set_back_refuted {G U : Type} (draw : G -> U * G) (s : ids G U) t t' n : t <> t' -> id_busy s !! t = None -> id_busy s !! t' = None ->
  id_objs (id_run draw shared_generator ([(t, MNew)] ++ makes t' n ++ [(t, MNew)] ++ makes t' n) s) =
    id_objs s ++ ((fun k => (MNew, nth_id draw (id_gens s 0) k)) <$> seq 0 n ++ seq 0 (S n)).
Proof. exact (set_back draw s t t' n). Qed.
Print Assumptions C96_set_back_refuted.

(* Generators that count.  Two threads take turns; the clone has the identifier of its original and uses up one. *)
Example C96_case : let draw (g : nat * nat) := (g, (g.1, S g.2)) in let g0 i := (i, 0) in
  let l := [(1, MNew); (1, MNew); (2, MNew); (1, MCopy 0); (2, MNew); (2, MClone 1); (1, MCopy 2); (2, MNew); (1, MNew); (1, MNew)] in
  let s := id_run draw shared_generator l (ids_new g0) in
  no_repetition draw g0 /\ in_turns draw shared_generator l (ids_new g0) /\
  id_objs s = [(MNew, (0, 0)); (MCopy 0, (0, 0)); (MNew, (0, 1)); (MCopy 2, (0, 1)); (MClone 1, (0, 0)); (MNew, (0, 3))] /\
  origins (id_objs s).*1 = [0; 0; 2; 2; 0; 5].
Proof.
  cbv zeta. split; [|split; [|by vm_compute]].
  - assert (Hi : forall i m, nth_id (fun g : nat * nat => (g, (g.1, S g.2))) (i, 0) m = (i, m)).
    { intros i m. unfold nth_id. cbn [fst]. induction m as [|m IH]; [done|]. rewrite Nat.iter_succ, IH. done. }
    intros i j m n. rewrite !Hi. by intros [= -> ->].
  - assert (Hd : forall x l (s : ids (nat * nat) (nat * nat)),
        bool_decide (is_Some (id_busy s !! x.1)) || match x.2 with MCopy _ => true | _ => bool_decide (id_busy s = ∅) end = true ->
        in_turns (fun g : nat * nat => (g, (g.1, S g.2))) shared_generator l (id_step (fun g : nat * nat => (g, (g.1, S g.2))) shared_generator x s) ->
        in_turns (fun g : nat * nat => (g, (g.1, S g.2))) shared_generator (x :: l) s).
    { intros [t a] l s H1 H2. split; [|done]. intros E. cbn [fst snd] in H1. rewrite E in H1. rewrite bool_decide_false in H1 by (by intros [? ?]).
      cbn [orb] in H1. destruct a as [|i|i]; [|by left|]; right; intros t' _ _; apply bool_decide_eq_true in H1; by rewrite H1. }
    repeat (apply Hd; [vm_compute; reflexivity|]).
    exact I.
Qed.

(* Threads 1 and 2 make two items at once, and thread 1 is held up while thread 2 makes three. *)
Example C96_race_case : let draw (g : nat) := (g, S g) in
  (id_objs (id_run draw shared_generator [(1, MNew); (2, MNew); (1, MNew); (2, MNew)] (ids_new (fun _ => 7)))).*2 = [7; 7] /\
  (id_objs (id_run draw shared_generator ([(1, MNew)] ++ makes 2 3 ++ [(1, MNew)] ++ makes 2 3) (ids_new (fun _ => 7)))).*2 = [7; 8; 9; 7; 8; 9; 10].
Proof. by vm_compute. Qed.
