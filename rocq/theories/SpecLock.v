(** Vocabulary for statements about threads that share a graph. *)
From stdpp Require Import prelude strings gmap.
From Verif Require Import Outcome LockModel.

(** The calls that may be made without holding the lock: all but containsEdge. *)
Definition safe_unlocked (c : wcall) : Prop := forall a b, c <> WContainsEdge a b.

Section spec.
Context {G V : Type} (fn : wcall -> body G V).

(** What a function does if nothing interferes: the graph afterwards and the value. *)
Fixpoint alone (b : body G V) (g : G) : G * V :=
  match b with
  | BRet v => (g, v)
  | BMicro f k => let '(g', v) := f g in alone (k v) g'
  | BNest _ b' k => let '(g', v) := alone b' g in alone (k v) g'
  end.

(** One uninterrupted turn of a user: a call, or everything from lock() to the matching unlock(). *)
Fixpoint until_unlocked (n : nat) (u : user V) (g : G) (vs : list V) : option (G * user V * list V) :=
  match u with
  | UEnd => None
  | UCall c k | UDirect c k => let '(g', v) := alone (fn c) g in until_unlocked n (k v) g' (vs ++ [v])
  | ULock k => until_unlocked (S n) k g vs
  | UUnlock k => match n with 0 => None | 1 => Some (g, k, vs) | S n' => until_unlocked n' k g vs end
  end.
Definition turn (u : user V) (g : G) (vs : list V) : option (G * user V * list V) :=
  match u with
  | UCall c k => let '(g', v) := alone (fn c) g in Some (g', k v, vs ++ [v])
  | ULock k => until_unlocked 1 k g vs
  | _ => None
  end.

(** Turns of several users one after the other: the graph and, for every user, what is left to do and the values obtained. *)
Fixpoint turns (order : list nat) (g : G) (us : list (user V * list V)) : option (G * list (user V * list V)) :=
  match order with
  | [] => Some (g, us)
  | i :: order' =>
      match us !! i with
      | Some (u, vs) =>
          match turn u g vs with
          | Some (g', u', vs') => turns order' g' (<[i := (u', vs')]> us)
          | None => None
          end
      | None => None
      end
  end.

(** The user unlocks only what is locked, uses containsEdge and the graph itself only while holding the lock, and ends without
    holding it.  [n]: how often the lock is held. *)
Fixpoint disciplined (n : nat) (u : user V) : Prop :=
  match u with
  | UEnd => n = 0
  | UCall c k => (safe_unlocked c \/ 0 < n) /\ forall v, disciplined n (k v)
  | UDirect c k => 0 < n /\ forall v, disciplined n (k v)
  | ULock k => disciplined (S n) k
  | UUnlock k => match n with 0 => False | S n' => disciplined n' k end
  end.
End spec.

(** The next thing the thread does is an access to the graph. *)
Definition accessing {G V} (w : world G V) (i : nat) : Prop := exists f k vs, w_threads w !! i = Some (PMicro f k, vs).
(** The thread has ended. *)
Definition ended {G V} (w : world G V) (i : nat) : Prop := exists vs, w_threads w !! i = Some (PDone, vs).
(** The thread can do something now. *)
Definition can_go {G V} (w : world G V) (i : nat) : Prop := exists w', wstep i w = Went w'.
