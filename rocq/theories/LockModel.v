(** Model of class ThreadSaveEnvireGraph (/repo/src/util/ThreadSaveEnvireGraph.hpp) used by several threads.  Executable
    definitions only. *)
From stdpp Require Import prelude strings gmap.
From Verif Require Import ItemClass Outcome Digraph TreeView GraphModel MiscModel.

(* The member functions that use the graph, /repo/src/util/ThreadSaveEnvireGraph.hpp:82-178.  Transforms and functions passed by the
   caller are numbers; they matter only to the graph. *)
Inductive wcall : Type :=
| WAddFrame (f : frameid)
| WRemoveFrame (f : frameid)
| WClear
| WContainsFrame (f : frameid)
| WContainsEdge (o t : frameid)
| WAddTransform (o t : frameid) (x : nat)
| WUpdateTransform (o t : frameid) (x : nat)
| WRemoveTransform (o t : frameid)
| WGetTransform (o t : frameid)
| WGetPosition (o t : frameid)
| WGetOrientation (o t : frameid)
| WGetFrames (o t : frameid)
| WAddItem (i : iptr)
| WAddItemToFrame (f : frameid) (i : iptr)
| WRemoveItemFromFrame (i : iptr)
| WGetItem (f : frameid) (T : tyid) (n : nat)
| WGetItems (f : frameid) (T : tyid)
| WVisitItems (f : frameid) (T : tyid) (n : nat).

(* Does the function begin with a std::lock_guard?  addFrame 83, removeFrame 88, clear 93, containsFrame 98, containsEdge 102 (none),
   addTransform 107, updateTransform 112, removeTransform 117, getTransform 127, getPosition 132, getOrientation 137, getFrames 142,
   addItem 151, addItemToFrame 156, removeItemFromFrame 161, getItem 166, getItems 171, visitItems 176 of
   /repo/src/util/ThreadSaveEnvireGraph.hpp. *)
Definition guarded (c : wcall) : bool :=
  match c with
  | WContainsEdge _ _ => false
  | WAddFrame _ | WRemoveFrame _ | WClear | WContainsFrame _ | WAddTransform _ _ _ | WUpdateTransform _ _ _ | WRemoveTransform _ _
  | WGetTransform _ _ | WGetPosition _ _ | WGetOrientation _ _ | WGetFrames _ _ | WAddItem _ | WAddItemToFrame _ _
  | WRemoveItemFromFrame _ | WGetItem _ _ _ | WGetItems _ _ | WVisitItems _ _ _ => true
  end.

Section threads.
Context {G V : Type}.

(* What a function of the graph does: accesses to the graph, each of which another thread may get in between, and calls that event
   handlers and visitors make through the same ThreadSaveEnvireGraph object ("reactors",
   /repo/src/util/ThreadSaveEnvireGraph.hpp:198-199) with what those do.  An exception is a value. *)
Inductive body : Type :=
| BRet (v : V)
| BMicro (f : G -> G * V) (k : V -> body)
| BNest (c : wcall) (b : body) (k : V -> body).

(* What a thread executes: accesses to the graph, recursive_mutex::lock and unlock, and returning a value to the user of the class. *)
Inductive prog : Type :=
| PDone
| PMicro (f : G -> G * V) (k : V -> prog)
| PAcq (k : prog)
| PRel (k : prog)
| PLog (v : V) (k : prog).

(* What a user of the class does in one thread, /repo/src/util/ThreadSaveEnvireGraph.hpp:62-192.
   [ULock], [UUnlock]: lock() and unlock(), 183-192; also the lifetime of what getThreadSaveAccess() returned, 62-64 and 22-33.
   [UDirect]: a function of the graph, not of this class, through operator-> (39-41) or getUnsafeGraph() (73-75). *)
Inductive user : Type :=
| UEnd
| UCall (c : wcall) (k : V -> user)
| UDirect (c : wcall) (k : V -> user)
| ULock (k : user)
| UUnlock (k : user).

(* Executing a function of the graph.  /repo/src/util/ThreadSaveEnvireGraph.hpp:82-178. *)
Fixpoint body_prog (b : body) (k : V -> prog) : prog :=
  match b with
  | BRet v => k v
  | BMicro f j => PMicro f (fun v => body_prog (j v) k)
  | BNest c b' j =>
      if guarded c then PAcq (body_prog b' (fun v => PRel (body_prog (j v) k)))
      else body_prog b' (fun v => body_prog (j v) k)
  end.

(* Executing what the user of the class does; [fn] is what the graph does.  The value is returned before the destructor of the
   lock_guard runs, also if it is an exception.  /repo/src/util/ThreadSaveEnvireGraph.hpp:82-192. *)
Fixpoint user_prog (fn : wcall -> body) (u : user) : prog :=
  match u with
  | UEnd => PDone
  | UCall c k =>
      if guarded c then PAcq (body_prog (fn c) (fun v => PLog v (PRel (user_prog fn (k v)))))
      else body_prog (fn c) (fun v => PLog v (user_prog fn (k v)))
  | UDirect c k => body_prog (fn c) (fun v => PLog v (user_prog fn (k v)))
  | ULock k => PAcq (user_prog fn k)
  | UUnlock k => PRel (user_prog fn k)
  end.

(* All threads, the graph and the mutex, /repo/src/util/ThreadSaveEnvireGraph.hpp:195-199.  A thread is what it has still to do and the values it was given; a
   locked mutex has an owner and a count.
   [w_turns]: the threads in the order in which they got the free mutex, kept for statements only. *)
Record world := World {
  w_graph : G;
  w_mutex : option (nat * nat);
  w_threads : list (prog * list V);
  w_turns : list nat }.

(* Before the threads start, /repo/src/util/ThreadSaveEnvireGraph.hpp:58. *)
Definition world_start (fn : wcall -> body) (g : G) (us : list user) : world :=
  World g None ((fun u => (user_prog fn u, [])) <$> us) [].

(* What a scheduled thread does: one step, nothing because it waits for the mutex or has ended, or undefined behaviour (unlocking a mutex
   it does not own). *)
Inductive progress : Type := Went (w : world) | Waits | Ended | Undefined.

(* One step of thread [i]; std::recursive_mutex::lock and unlock as in the C++ standard.
   /repo/src/util/ThreadSaveEnvireGraph.hpp:82-192. *)
Definition wstep (i : nat) (w : world) : progress :=
  match w_threads w !! i with
  | None => Ended
  | Some (p, vs) =>
      let put g m p vs t := Went (World g m (<[i := (p, vs)]> (w_threads w)) t) in
      match p with
      | PDone => Ended
      | PMicro f k => let '(g, v) := f (w_graph w) in put g (w_mutex w) (k v) vs (w_turns w)
      | PLog v k => put (w_graph w) (w_mutex w) k (vs ++ [v]) (w_turns w)
      | PAcq k =>
          match w_mutex w with
          | None => put (w_graph w) (Some (i, 1)) k vs (w_turns w ++ [i])
          | Some (j, n) => if Nat.eqb j i then put (w_graph w) (Some (i, S n)) k vs (w_turns w) else Waits
          end
      | PRel k =>
          match w_mutex w with
          | Some (j, n) =>
              if Nat.eqb j i then put (w_graph w) (match n with S (S n') => Some (i, S n') | _ => None end) k vs (w_turns w)
              else Undefined
          | None => Undefined
          end
      end
  end.

(* The threads scheduled in any order; [None] is undefined behaviour. *)
Fixpoint wrun (sched : list nat) (w : world) : option world :=
  match sched with
  | [] => Some w
  | i :: sched' =>
      match wstep i w with
      | Went w' => wrun sched' w'
      | Waits | Ended => wrun sched' w
      | Undefined => None
      end
  end.
End threads.
Global Arguments body : clear implicits.
Global Arguments prog : clear implicits.
Global Arguments user : clear implicits.
Global Arguments world : clear implicits.
Global Arguments progress : clear implicits.

(** containsEdge, which takes no lock, with the accesses it makes. *)
Section contains_edge.
Context {D E : Type} (d0 : D).

(* Values of the two functions below: a vertex or a result. *)
Inductive cvalue : Type := CVertex (v : vid) | CBool (r : outcome bool) | CUnit (r : outcome unit).

(* Graph::containsEdge with its two lookups of names and the lookup of the edge as separate accesses.
   /repo/src/graph/Graph.hpp:1047-1058, called at /repo/src/util/ThreadSaveEnvireGraph.hpp:103. *)
Definition contains_edge_body (o t : frameid) : body (gst D E) cvalue :=
  BMicro (fun s => (s, match get_vertex s o with Ret v => CVertex v | Throw x => CBool (Throw x) | UB => CBool UB | Fuel => CBool Fuel end))
    (fun x => match x with
     | CVertex vo =>
         BMicro (fun s => (s, match get_vertex s t with Ret v => CVertex v | Throw x => CBool (Throw x) | UB => CBool UB | Fuel => CBool Fuel end))
           (fun y => match y with
            | CVertex vt => BMicro (fun s => (s, CBool (contains_edge_v s vo vt))) BRet
            | _ => BRet y
            end)
     | _ => BRet x
     end).

(* What the graph does, as far as these functions are concerned: containsEdge as above, removeFrame and addFrame each as a single access.
   /repo/src/util/ThreadSaveEnvireGraph.hpp:82-104. *)
Definition small_graph (c : wcall) : body (gst D E) cvalue :=
  match c with
  | WContainsEdge o t => contains_edge_body o t
  | WRemoveFrame f => BMicro (fun s => let '(s', _, r) := remove_frame f s in (s', CUnit r)) BRet
  | WAddFrame f => BMicro (fun s => let '(s', _, r) := add_frame d0 f s in (s', CUnit (obind r (fun _ => Ret tt)))) BRet
  | WContainsFrame f => BMicro (fun s => (s, CBool (Ret (contains_frame s f)))) BRet
  | _ => BRet (CUnit (Ret tt))
  end.
End contains_edge.

(** EnvireManager::getInstance called by several threads; it takes no lock. *)

(* The subscript that reads and, if it was null, the one that writes are separate accesses to the map.
   /repo/src/util/EnvireManager.cpp:27-35. *)
Definition get_instance_body (name : string) : body manager (option nat) :=
  BMicro (fun m => match mg_graphs m !! name with
                   | Some x => (m, x)
                   | None => (Manager (<[name := None]> (mg_graphs m)) (mg_next m), None)
                   end)
    (fun x => match x with
     | Some g => BRet (Some g)
     | None => BMicro (fun m => (Manager (<[name := Some (mg_next m)]> (mg_graphs m)) (S (mg_next m)), Some (mg_next m))) BRet
     end).

(* A thread that calls getInstance for these names.  /repo/src/util/EnvireManager.cpp:27. *)
Fixpoint instances_prog (names : list string) : prog manager (option nat) :=
  match names with
  | [] => PDone
  | n :: names' => body_prog (get_instance_body n) (fun v => PLog v (instances_prog names'))
  end.
