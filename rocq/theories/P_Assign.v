(** Property C102: assigning a graph to another one. *)
From stdpp Require Import prelude strings gmap.
From Coq Require Import ZArith.
From Verif Require Import Outcome Digraph GraphModel AssignModel SpecAssign AssignThms AssignApart AssignSubs AssignCopy ExGraph ExAssign.

(** As long as no graph is assigned to another one, the names of every graph lead to frames of this graph. *)
Theorem C102_separate {D E : Type} (d0 : D) (einv : E -> E) (w : aworld D E) : made d0 einv w -> separate w.
Proof. exact (made_separate d0 einv w). Qed.
Print Assumptions C102_separate.
Example C102_case_separate : made 0 Z.opp gworld /\ separate gworld /\ aw_contains gworld 3 fa = Ret true /\ aw_contains gworld 1 fa = Ret false.
Proof. split; [exact gworld_made|]. split; [exact (C102_separate _ _ _ gworld_made)|]. by vm_compute. Qed.

(** And no step changes what any other graph answers than the one it works on, however it ends. *)
Theorem C102_independent {D E : Type} (d0 : D) (einv : E -> E) (w : aworld D E) (op : aop D E) (c : agid) :
  made d0 einv w -> no_assign op -> works_on op <> Some c ->
  same_answers (fst (fst (awstep d0 einv op w))) c w c.
Proof. exact (apart d0 einv c w op). Qed.
Print Assumptions C102_independent.
Example C102_case_independent :
  made 0 Z.opp gworld /\
  same_answers (fst (fst (awstep 0 Z.opp (ARemoveEdge 2 fa fb) gworld))) 3 gworld 3 /\
  aw_contains_edge gworld 3 fa fb = Ret true /\ aw_contains_edge gworld 2 fa fb = Ret true /\
  aw_contains_edge (fst (fst (awstep 0 Z.opp (ARemoveEdge 2 fa fb) gworld))) 2 fa fb = Ret false.
Proof.
  split; [exact gworld_made|]. split; [by apply (C102_independent 0 Z.opp gworld (ARemoveEdge 2 fa fb) 3 gworld_made)|]. by vm_compute.
Qed.

(** A copy made by the copy constructor answers all queries by name as the original does. *)
Theorem C102_copy {D E : Type} (d0 : D) (einv : E -> E) (w w' : aworld D E) (a b : agid) :
  made d0 einv w -> aw_copy a b w = (w', [], Ret tt) -> same_answers w' a w b.
Proof. exact (copy_same d0 einv w a b w'). Qed.
Print Assumptions C102_copy.
Example C102_case_copy : made 0 Z.opp gworld /\ aw_copy 5 2 gworld = (fst (fst (aw_copy 5 2 gworld)), [], Ret tt) /\
  aw_num_vertices gworld 2 = Ret 3 /\ aw_edge_property (fst (fst (aw_copy 5 2 gworld))) 5 fa fb = Ret 5%Z.
Proof. split; [exact gworld_made|]. split; [|by vm_compute]. apply (surjective_out (aw_copy 5 2 gworld)); by vm_compute. Qed.

(** Right after a = b, all queries by name on a give what they give on b, and all other graphs (b included) answer as before. *)
Theorem C102_content_partial {D E : Type} (d0 : D) (einv : E -> E) (w : aworld D E) (a b : agid) :
  made d0 einv w -> is_Some (aw_objs w !! a) -> is_Some (aw_objs w !! b) -> a <> b ->
  exists w', aw_assign a b w = (w', [], Ret tt) /\ same_answers w' a w b /\
    forall c, c <> a -> is_Some (aw_objs w !! c) -> same_answers w' c w c.
Proof.
  exact (fun Hw Ha Hb Hab => match Ha, Hb with ex_intro _ oa Hoa, ex_intro _ ob Hob =>
    let Hf := made_awf d0 einv w Hw in
    ex_intro _ (assigned a b w) (conj (assign_eq w a b oa ob Hoa Hob Hab)
      (conj (assigned_same w a b oa ob Hf Hoa Hob Hab) (assigned_others w a b oa ob Hf Hoa Hob Hab))) end).
Qed.
Print Assumptions C102_content_partial.
Example C102_case_content :
  made 0 Z.opp gworld /\ is_Some (aw_objs gworld !! 1) /\ is_Some (aw_objs gworld !! 2) /\
  aw_contains gworld 1 fd = Ret true /\ aw_contains_edge gworld 1 fa fb = Throw (XUnknownFrame fa) /\
  aw_contains (fst (fst (aw_assign 1 2 gworld))) 1 fd = Ret false /\ aw_edge_property (fst (fst (aw_assign 1 2 gworld))) 1 fb fa = Ret (-5)%Z /\
  aw_frame_property (fst (fst (aw_assign 1 2 gworld))) 1 fc = Ret 3.
Proof. split; [exact gworld_made|]. split; [by vm_compute; eexists|]. split; [by vm_compute; eexists|]. by vm_compute. Qed.

(** Assigning a graph to itself changes nothing. *)
Theorem C102_self {D E : Type} (w : aworld D E) (a : agid) : is_Some (aw_objs w !! a) -> aw_assign a a w = (w, [], Ret tt).
Proof. exact (assign_self w a). Qed.
Print Assumptions C102_self.
Example C102_case_self : is_Some (aw_objs gworld !! 2).
Proof. by vm_compute; eexists. Qed.

(** But the graphs are separate afterwards only if b has no frame at all. *)
Theorem C102_exact {D E : Type} (d0 : D) (einv : E -> E) (w : aworld D E) (a b : agid) (oa ob : gobj) :
  made d0 einv w -> aw_objs w !! a = Some oa -> aw_objs w !! b = Some ob -> a <> b ->
  (exists w', aw_assign a b w = (w', [], Ret tt) /\ separate w') <-> go_map ob = ∅.
Proof. exact (assign_exact d0 einv w a b oa ob). Qed.
Print Assumptions C102_exact.
Example C102_case_exact : aw_objs gworld !! 2 = Some gtwo /\ bool_decide (go_map gtwo = ∅) = false /\
  exists o, aw_objs gworld !! 4 = Some o /\ bool_decide (go_map o = ∅) = true.
Proof. split; [by vm_compute|]. split; [by vm_compute|]. eexists. by vm_compute. Qed.

(** Writing to the property of a frame through either graph shows in the other one. *)
Theorem C102_shared_refuted {D E : Type} (d0 : D) (einv : E -> E) (w : aworld D E) (a b c x : agid) (f : frameid) (d : D) :
  made d0 einv w -> is_Some (aw_objs w !! a) -> a <> b -> aw_contains w b f = Ret true ->
  (c = a /\ x = b \/ c = b /\ x = a) ->
  exists w1 w2, aw_assign a b w = (w1, [], Ret tt) /\ aw_set_data c f d w1 = (w2, [], Ret tt) /\ aw_frame_property w2 x f = Ret d.
Proof. exact (assign_shared d0 einv w a b c x f d). Qed.
Print Assumptions C102_shared_refuted.
Example C102_case_shared : is_Some (aw_objs gworld !! 1) /\ aw_contains gworld 2 fc = Ret true /\ aw_frame_property gworld 2 fc = Ret 3.
Proof. split; [by vm_compute; eexists|]. by vm_compute. Qed.

(** Changes of the structure of a do not work: adding an edge between two of its unconnected frames, removing an edge and removing a frame are
    undefined behaviour (unless removing the frame throws because of an edge). *)
Theorem C102_change_refuted {D E : Type} (d0 : D) (einv : E -> E) (w : aworld D E) (a b : agid) :
  made d0 einv w -> is_Some (aw_objs w !! a) -> is_Some (aw_objs w !! b) -> a <> b ->
  exists w1, aw_assign a b w = (w1, [], Ret tt) /\
    (forall o t p, aw_contains_edge w b o t = Ret false -> snd (aw_add_edge d0 einv a o t p w1) = UB) /\
    (forall o t, aw_contains_edge w b o t = Ret true -> aw_contains_edge w b t o = Ret true -> snd (aw_remove_edge a o t w1) = UB) /\
    (forall f, aw_contains w b f = Ret true ->
       snd (aw_remove_frame a f w1) = UB \/ snd (aw_remove_frame a f w1) = Throw (XFrameStillConnected f)).
Proof. exact (assign_change d0 einv w a b). Qed.
Print Assumptions C102_change_refuted.
Example C102_case_change : is_Some (aw_objs gworld !! 1) /\ is_Some (aw_objs gworld !! 2) /\ aw_contains_edge gworld 2 fa fc = Ret false /\
  aw_contains_edge gworld 2 fa fb = Ret true /\ aw_contains_edge gworld 2 fb fa = Ret true /\
  snd (aw_remove_frame 1 fc (fst (fst (aw_assign 1 2 gworld)))) = UB /\
  snd (aw_remove_frame 1 fa (fst (fst (aw_assign 1 2 gworld)))) = Throw (XFrameStillConnected fa).
Proof. split; [by vm_compute; eexists|]. split; [by vm_compute; eexists|]. by vm_compute. Qed.

(** After the destruction of b, a still knows the names, but reading a frame of a is undefined behaviour.  (Here b has no subscribers.) *)
Theorem C102_dangling_refuted {D E : Type} (d0 : D) (einv : E -> E) (w : aworld D E) (a b : agid) (oa ob : gobj) (f : frameid) :
  made d0 einv w -> aw_objs w !! a = Some oa -> aw_objs w !! b = Some ob -> a <> b -> go_recv ob = [] -> aw_contains w b f = Ret true ->
  exists w1 w2, aw_assign a b w = (w1, [], Ret tt) /\ aw_destroy b w1 = (w2, [], Ret tt) /\
    aw_contains w2 a f = Ret true /\ aw_frame_property w2 a f = UB.
Proof. exact (assign_dangling d0 einv w a b oa ob f). Qed.
Print Assumptions C102_dangling_refuted.
Example C102_case_dangling : aw_objs gworld !! 3 = Some gthree /\ go_recv gthree = [] /\ aw_contains gworld 3 fa = Ret true.
Proof. by vm_compute. Qed.

(** Without assignments the events of a graph go to its subscribers only, each told once, and no destroyed subscriber is called. *)
Theorem C102_told {D E : Type} (d0 : D) (einv : E -> E) (w : aworld D E) (a : agid) (f : frameid) (d : D) :
  made d0 einv w -> aw_contains w a f = Ret false ->
  exists w' l, aw_emplace a f d w = (w', [], Ret tt) /\ aw_told w' = aw_told w ++ ((fun s => (s, EvFrameAdded f)) <$> l) /\ NoDup l /\
    forall s, s ∈ l -> aw_pubs w !! s = Some (Some a).
Proof. exact (told_sound d0 einv w a f d). Qed.
Print Assumptions C102_told.

(** And to all of them, as long as no graph was destroyed either. *)
Theorem C102_told_all {D E : Type} (d0 : D) (einv : E -> E) (w : aworld D E) (a : agid) (f : frameid) (d : D) :
  made_alive d0 einv w -> aw_contains w a f = Ret false ->
  exists w' l, aw_emplace a f d w = (w', [], Ret tt) /\ aw_told w' = aw_told w ++ ((fun s => (s, EvFrameAdded f)) <$> l) /\ NoDup l /\
    forall s, s ∈ l <-> aw_pubs w !! s = Some (Some a).
Proof. exact (told_all d0 einv w a f d). Qed.
Print Assumptions C102_told_all.
Example C102_case_told_all : made 0 Z.opp gworld /\ made_alive 0 Z.opp gworld /\ aw_contains gworld 2 fd = Ret false /\
  aw_pubs gworld !! 9 = Some (Some 2) /\ aw_told (fst (fst (aw_emplace 2 fd 1 gworld))) = [(9, EvFrameAdded fd)] /\
  aw_told (fst (fst (aw_emplace 3 fd 1 gworld))) = [].
Proof. split; [exact gworld_made|]. split; [exists gprog; split; [by repeat constructor|]; by vm_compute|]. by vm_compute. Qed.

(** The subscribers of b are told what happens to a (and those of a are not): the next frame added to a is announced to b's subscribers. *)
Theorem C102_told_refuted {D E : Type} (d0 : D) (einv : E -> E) (w : aworld D E) (a b : agid) (oa ob : gobj) (f : frameid) (d : D) :
  made d0 einv w -> aw_objs w !! a = Some oa -> aw_objs w !! b = Some ob -> a <> b ->
  aw_contains w b f = Ret false -> Forall (fun s => is_Some (aw_pubs w !! s)) (go_recv ob) ->
  exists w1 w2, aw_assign a b w = (w1, [], Ret tt) /\ aw_emplace a f d w1 = (w2, [], Ret tt) /\
    aw_told w2 = aw_told w ++ ((fun s => (s, EvFrameAdded f)) <$> go_recv ob).
Proof. exact (assign_told d0 einv w a b oa ob f d). Qed.
Print Assumptions C102_told_refuted.
Example C102_case_told : aw_objs gworld !! 2 = Some gtwo /\ aw_contains gworld 2 fd = Ret false /\ Forall (fun s => is_Some (aw_pubs gworld !! s)) (go_recv gtwo) /\
  go_recv gtwo = [9].
Proof. split; [by vm_compute|]. split; [by vm_compute|]. split; [|by vm_compute]. vm_compute. repeat constructor. by eexists. Qed.

(** A subscriber of b that is destroyed afterwards leaves b but not a: the next event of a is undefined behaviour. *)
Theorem C102_subscribers_refuted {D E : Type} (d0 : D) (einv : E -> E) (w : aworld D E) (a b : agid) (oa ob : gobj) (s : asid) (f : frameid) (d : D) :
  made d0 einv w -> aw_objs w !! a = Some oa -> aw_objs w !! b = Some ob -> a <> b ->
  aw_contains w b f = Ret false -> s ∈ go_recv ob -> aw_pubs w !! s = Some (Some b) ->
  exists w1 w2, aw_assign a b w = (w1, [], Ret tt) /\ aw_destroy_sub s w1 = (w2, [], Ret tt) /\ snd (aw_emplace a f d w2) = UB.
Proof. exact (assign_dead_sub d0 einv w a b oa ob s f d). Qed.
Print Assumptions C102_subscribers_refuted.
Example C102_case_subscribers : aw_objs gworld !! 2 = Some gtwo /\ go_recv gtwo = [9] /\ aw_pubs gworld !! 9 = Some (Some 2) /\
  aw_contains gworld 2 fd = Ret false.
Proof. by vm_compute. Qed.
