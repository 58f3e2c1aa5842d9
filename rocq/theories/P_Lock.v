(** Properties of graphs shared by threads: C57, C58, C73. *)
From stdpp Require Import prelude strings gmap.
From Verif Require Import Outcome Digraph TreeView GraphModel GraphOps SpecObs GraphThms MiscModel LockModel SpecLock LockThms LockReach ExGraph ExLock.

(** ** C57: calls through the thread-safe graph are atomic
    [fn] is what the functions of the graph do, cut into accesses in any way and with any calls from handlers. *)

(** Whenever the mutex is free, graph and values are those of the turns one after the other, in the order in which the mutex was got. *)
Theorem C57_turns_in_order {G V : Type} (fn : wcall -> body G V) (g : G) (us : list (user V)) sched w :
  Forall (disciplined 0) us -> wrun sched (world_start fn g us) = Some w -> w_mutex w = None ->
  exists us', turns fn (w_turns w) g ((fun u => (u, [])) <$> us) = Some (w_graph w, us') /\
    w_threads w = (fun x => (user_prog fn x.1, x.2)) <$> us'.
Proof. exact (serialisable fn g us sched w). Qed.
Print Assumptions C57_turns_in_order.

(** In between, the owner of the mutex can go on and free it, without a further turn. *)
Theorem C57_owner_unlocks {G V : Type} (fn : wcall -> body G V) (g : G) (us : list (user V)) sched w i n :
  Forall (disciplined 0) us -> wrun sched (world_start fn g us) = Some w -> w_mutex w = Some (i, n) ->
  exists m w', wrun (replicate m i) w = Some w' /\ w_mutex w' = None /\ w_turns w' = w_turns w.
Proof. exact (owner_unlocks fn g us sched w i n). Qed.
Print Assumptions C57_owner_unlocks.

(** A thread that is about to access the graph holds the mutex; so there is only one. *)
Theorem C57_access_is_exclusive {G V : Type} (fn : wcall -> body G V) (g : G) (us : list (user V)) sched w :
  Forall (disciplined 0) us -> wrun sched (world_start fn g us) = Some w ->
  (forall i, accessing w i -> exists n, w_mutex w = Some (i, n)) /\ (forall i j, accessing w i -> accessing w j -> i = j).
Proof. exact (access_exclusive fn g us sched w). Qed.
Print Assumptions C57_access_is_exclusive.

(** Nothing undefined happens, and as long as a thread has not ended some thread can go on. *)
Theorem C57_no_deadlock {G V : Type} (fn : wcall -> body G V) (g : G) (us : list (user V)) sched :
  Forall (disciplined 0) us ->
  exists w, wrun sched (world_start fn g us) = Some w /\
    (forall i, i < length us -> ~ ended w i -> exists j, can_go w j) /\
    ((forall i, i < length us -> ended w i) -> w_mutex w = None).
Proof. exact (no_deadlock fn g us sched). Qed.
Print Assumptions C57_no_deadlock.

Example C57_case : Forall (disciplined 0) lusers /\
  lvalues (lworld [0; 1; 0; 0; 1; 0; 1; 0; 1; 1; 1]) = Some ([[CUnit (Ret tt)]; [CBool (Ret true)]], Some (1, 2), [0; 1]) /\
  lvalues (lworld [0; 1; 0; 0; 1; 0; 1; 0; 1; 1; 1; 1; 0; 1; 1; 1; 1; 1; 0; 0; 0; 0; 0]) =
    Some ([[CUnit (Ret tt); CBool (Ret true)]; [CBool (Ret true); CBool (Ret true)]], None, [0; 1; 0]) /\
  lvalues (lworld [1; 0; 1; 0; 1; 0; 1; 0; 1; 1; 1; 0; 1; 1; 1; 1; 0; 0; 0; 0; 0; 0; 0; 0; 0]) =
    Some ([[CUnit (Ret tt); CBool (Ret true)]; [CBool (Ret false); CBool (Ret true)]], None, [1; 0; 0]) /\
  lvalues (wrun (replicate 12 0) (world_start nested_add (xstate ops1) lusers)) =
    Some ([[CUnit (Ret tt); CBool (Ret true)]; []], None, [0; 0]).
Proof. split; [exact lusers_disciplined|]. by vm_compute. Qed.

(** ** C58: containsEdge through the thread-safe graph is race-free
    Full statement: for every use.  It is false: containsEdge takes no lock.  The theorem is about a caller that locks. *)
Theorem C58_locked_value_partial {G V : Type} (fn : wcall -> body G V) (g : G) (us : list (user V)) sched w i a b vs :
  Forall (disciplined 0) us -> wrun sched (world_start fn g us) = Some w ->
  us !! i = Some (ULock (UCall (WContainsEdge a b) (fun _ => UUnlock UEnd))) ->
  w_threads w !! i = Some (PDone, vs) -> w_mutex w = None ->
  exists o1 o2 g1 us1, w_turns w = o1 ++ i :: o2 /\ turns fn o1 g ((fun u => (u, [])) <$> us) = Some (g1, us1) /\
    vs = [snd (alone (fn (WContainsEdge a b)) g1)].
Proof. exact (locked_call_value fn g us sched w i (WContainsEdge a b) vs). Qed.
Print Assumptions C58_locked_value_partial.

(** Two threads, one asks for an edge of a frame, the other removes the frame: both access the graph at the same time; and if the removal
    comes after the names were looked up, containsEdge follows a pointer to the removed vertex, although alone it is defined. *)
Theorem C58_race_refuted {D E : Type} (d0 : D) (einv : E -> E) (s : gst D E) a b s' ev :
  reachable d0 einv s -> contains_frame s a = true -> contains_frame s b = true -> remove_frame a s = (s', ev, Ret tt) ->
  let us := [UCall (WContainsEdge a b) (fun _ => UEnd); UCall (WRemoveFrame a) (fun _ => UEnd)] in
  (exists w, wrun [0; 0; 1] (world_start (small_graph d0) s us) = Some w /\ accessing w 0 /\ accessing w 1) /\
  (exists w, wrun [0; 0; 1; 1; 1; 1; 0; 0] (world_start (small_graph d0) s us) = Some w /\
    w_threads w = [(PDone, [CBool UB]); (PDone, [CUnit (Ret tt)])] /\ w_graph w = s') /\
  alone (small_graph d0 (WContainsEdge a b)) s = (s, CBool (contains_edge s a b)) /\ contains_edge s a b <> UB /\
  alone (small_graph d0 (WContainsEdge a b)) s' = (s', CBool (Throw (XUnknownFrame a))).
Proof. exact (contains_edge_race_reachable d0 einv s a b s' ev). Qed.
Print Assumptions C58_race_refuted.

Example C58_case : let s := xstate (ops1 ++ [OEmplaceFrame "x" 3]) in
  reachable 0 Z.opp s /\ contains_frame s "x" = true /\ contains_frame s fa = true /\ (remove_frame "x" s).2 = Ret tt /\
  lvalues (lworld [1; 1; 1; 1; 1; 1; 1; 1; 1; 1]) = Some ([[]; [CBool (Ret false); CBool (Ret true)]], None, [1]).
Proof. cbv zeta. split; [apply xstate_reachable; [by repeat constructor|by vm_compute]|]. by vm_compute. Qed.

(** ** C73: one graph per name for all threads
    Full statement: whatever the schedule, all threads get the same graph for a name.  It is false, see the refutation.  The theorem is
    about graphs that were there before the threads started. *)
Theorem C73_created_before_partial (m : manager) (nss : list (list string)) sched w i k ns p vs n g v :
  wrun sched (World m None ((fun ns => (instances_prog ns, [])) <$> nss) []) = Some w ->
  nss !! i = Some ns -> w_threads w !! i = Some (p, vs) -> ns !! k = Some n -> vs !! k = Some v ->
  mg_graphs m !! n = Some (Some g) -> v = Some g.
Proof. exact (created_before m nss sched w i k ns p vs n g v). Qed.
Print Assumptions C73_created_before_partial.

Theorem C73_two_graphs_refuted (m : manager) (name : string) :
  mg_graphs m !! name = None ->
  alone (get_instance_body name) m = get_instance name m /\
  exists w, wrun [0; 1; 0; 1; 0; 1] (World m None [(instances_prog [name], []); (instances_prog [name], [])] []) = Some w /\
    w_threads w = [(PDone, [Some (mg_next m)]); (PDone, [Some (S (mg_next m))])].
Proof. exact (fun H => conj (get_instance_alone name m) (get_instance_race name m H)). Qed.
Print Assumptions C73_two_graphs_refuted.

Example C73_case : let m := fst (get_instance "a" mg_init) in
  mg_graphs m !! "a"%string = Some (Some 0) /\ mg_graphs m !! "b"%string = None /\
  (fun w => snd <$> w_threads w) <$> wrun [0; 0; 0; 1; 0; 1; 0; 1; 1; 1]
    (World m None ((fun ns => (instances_prog ns, [])) <$> [["a"; "b"]; ["b"; "a"]]%string) []) =
  Some [[Some 0; Some 1]; [Some 2; Some 0]].
Proof. by vm_compute. Qed.
