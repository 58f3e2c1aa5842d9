(** Model of whole archives: an item in a byte vector (/repo/src/serialization/Serialization.cpp:41-56) and a graph with its items in
    a file (/repo/src/graph/EnvireGraph.cpp:313-332).  Executable definitions only. *)
From Coq.Init Require Import Byte.
From stdpp Require Import prelude strings gmap.
From Verif Require Import ItemClass Outcome Digraph TreeView GraphModel SerialModel BufferModel.

(** ** An item in a byte vector *)
Section binary.
Context {P O S I : Type} (e : env P O S byte I) (cls : I -> iclass).

(* Serialization::saveToBinary, /repo/src/serialization/Serialization.cpp:41-48.  [pre]: state of a new binary_oarchive and the bytes its
   constructor writes; [chunk]: the write calls by which the archive hands bytes to the buffer.
   The process, what is returned, the vector afterwards. *)
Definition save_item_to_binary (pre : O * list byte) (chunk : list byte -> list write) (p : P) (i : I) (v : list byte) : P * outcome bool * list byte :=
  let '(p1, o1, w, r) := ser_save e cls p pre.1 i in
  match save_to_binary (chunk (pre.2 ++ w)) v with
  | Ret v' => (p1, r, v')
  | Throw x => (p1, Throw x, v)
  | UB => (p1, UB, v)
  | Fuel => (p1, Fuel, v)
  end.

(* Serialization::loadFromBinary, /repo/src/serialization/Serialization.cpp:50-56.  [dec_pre]: the constructor of binary_iarchive reads and
   checks the beginning; the archive reads from the bytes the buffer delivers. *)
Definition load_item_from_binary (dec_pre : list byte -> option (S * list byte)) (p : P) (v : list byte) : P * outcome (option I) :=
  match dec_pre (sgetn (length v) (ibuf_new v)).2 with
  | Some (s, rest) => let '(p1, _, _, r) := ser_load e p s rest in (p1, r)
  | None => (p, Throw XRuntime)
  end.
End binary.

(** ** A graph in a file *)
(* The codecs of numbers (counts and positions), frame ids and edge properties (Transform::serialize,
   /repo/src/items/Transform.hpp:126-131), all outside of /repo/src or thin. *)
Record genv (O S A E : Type) := GEnv {
  enc_num : O -> nat -> O * list A;
  dec_num : S -> list A -> reading S A nat;
  enc_fid : O -> frameid -> O * list A;
  dec_fid : S -> list A -> reading S A frameid;
  enc_prop : O -> E -> O * list A;
  dec_prop : S -> list A -> reading S A E }.
Arguments GEnv {O S A E}.
Arguments enc_num {O S A E}.
Arguments dec_num {O S A E}.
Arguments enc_fid {O S A E}.
Arguments dec_fid {O S A E}.
Arguments enc_prop {O S A E}.
Arguments dec_prop {O S A E}.

Section file.
Context {P O S A I E : Type} (e : env P O S A I) (ge : genv O S A E) (cls : I -> iclass).
Local Notation items := (gmap iclass (list I)).
Implicit Types s : gst items E.

(* The order in which a frame's item map is iterated, /repo/src/items/Frame.hpp:167, 183. *)
Definition forder : Type := vid -> items -> list (iclass * list I).

(* Frame::serialize for one frame after the other, /repo/src/items/Frame.hpp:141-146. *)
Fixpoint save_frames (v : bool) (p : P) (o : O) (l : list (frameid * list (iclass * list I))) : P * O * list A * outcome unit :=
  match l with
  | [] => (p, o, [], Ret tt)
  | (f, is) :: l' =>
      let '(o1, w1) := enc_fid ge o f in
      let '(p2, o2, w2, r) := save_items e cls v p o1 is in
      match r with
      | Ret _ => let '(p3, o3, w3, r3) := save_frames v p2 o2 l' in (p3, o3, w1 ++ w2 ++ w3, r3)
      | _ => (p2, o2, w1 ++ w2, r)
      end
  end.

(* The edges, each with the positions of its ends, in `ar << graph()`, /repo/src/graph/Graph.hpp:1005. *)
Fixpoint save_edges (o : O) (l : list (nat * nat * E)) : O * list A :=
  match l with
  | [] => (o, [])
  | (i, j, x) :: l' =>
      let '(o1, w1) := enc_num ge o i in
      let '(o2, w2) := enc_num ge o1 j in
      let '(o3, w3) := enc_prop ge o2 x in
      let '(o4, w4) := save_edges o3 l' in (o4, w1 ++ w2 ++ w3 ++ w4)
  end.

(* EnvireGraph::serialize and the save of its bases, /repo/src/graph/EnvireGraph.hpp:453-457, /repo/src/graph/TransformGraph.hpp:287-292,
   /repo/src/graph/Graph.hpp:1001-1006: the number of vertices and of edges, the vertices in order, the edges in order. *)
Definition save_archive (v : bool) (io : forder) (p : P) (o : O) (g : digraph items E) : P * O * list A * outcome unit :=
  let '(o1, w1) := enc_num ge o (length (dg_verts g)) in
  let '(o2, w2) := enc_num ge o1 (length (dg_edges g)) in
  let '(p3, o3, w3, r) := save_frames v p o2 ((fun x => (v_name x, io (v_id x) (v_data x))) <$> dg_verts g) in
  match r with
  | Ret _ => let '(o4, w4) := save_edges o3 (sv_edges (save_graph g)) in (p3, o4, w1 ++ w2 ++ w3 ++ w4, Ret tt)
  | _ => (p3, o3, w1 ++ w2 ++ w3, r)
  end.

(* A read that is not guarded by a try block, /repo/src/items/Frame.hpp:144, /repo/src/graph/Graph.hpp:995. *)
Definition plain_read {B} (x : reading S A B) (s : S) (w : list A) : S * list A * outcome B :=
  match x with
  | RGot b s' w' => (s', w', Ret b)
  | RRuntime s' w' => (s', w', Throw XRuntime)
  | RAbort => (s, w, Throw XRuntime)
  end.

(* Frame::serialize for [n] frames, /repo/src/items/Frame.hpp:141-146. *)
Fixpoint load_frames (v : bool) (n : nat) (p : P) (s : S) (w : list A) : P * S * list A * outcome (list (frameid * items)) :=
  match n with
  | 0 => (p, s, w, Ret [])
  | Datatypes.S n' =>
      let '(s1, w1, r1) := plain_read (dec_fid ge s w) s w in
      match r1 with
      | Ret f =>
          let '(p2, s2, w2, r2) := load_items e cls v p s1 w1 in
          match r2 with
          | Ret m =>
              let '(p3, s3, w3, r3) := load_frames v n' p2 s2 w2 in
              (p3, s3, w3, obind r3 (fun l => Ret ((f, m) :: l)))
          | Throw y => (p2, s2, w2, Throw y)
          | UB => (p2, s2, w2, UB)
          | Fuel => (p2, s2, w2, Fuel)
          end
      | Throw y => (p, s1, w1, Throw y)
      | UB => (p, s1, w1, UB)
      | Fuel => (p, s1, w1, Fuel)
      end
  end.

(* [n] edges, in `ar >> graph()`, /repo/src/graph/Graph.hpp:995. *)
Fixpoint read_edges (n : nat) (s : S) (w : list A) : S * list A * outcome (list (nat * nat * E)) :=
  match n with
  | 0 => (s, w, Ret [])
  | Datatypes.S n' =>
      let '(s1, w1, r1) := plain_read (dec_num ge s w) s w in
      let '(s2, w2, r2) := plain_read (dec_num ge s1 w1) s1 w1 in
      let '(s3, w3, r3) := plain_read (dec_prop ge s2 w2) s2 w2 in
      let '(s4, w4, r4) := read_edges n' s3 w3 in
      (s4, w4, obind r1 (fun i => obind r2 (fun j => obind r3 (fun x => obind r4 (fun l => Ret ((i, j, x) :: l))))))
  end.

(* What `ar >> graph()` reads, /repo/src/graph/Graph.hpp:995. *)
Definition read_saved (v : bool) (p : P) (s : S) (w : list A) : P * S * list A * outcome (saved items E) :=
  let '(s1, w1, r1) := plain_read (dec_num ge s w) s w in
  let '(s2, w2, r2) := plain_read (dec_num ge s1 w1) s1 w1 in
  match r1, r2 with
  | Ret n, Ret k =>
      let '(p3, s3, w3, r3) := load_frames v n p s2 w2 in
      match r3 with
      | Ret fs => let '(s4, w4, r4) := read_edges k s3 w3 in (p3, s4, w4, obind r4 (fun es => Ret (Saved fs es)))
      | Throw y => (p3, s3, w3, Throw y)
      | UB => (p3, s3, w3, UB)
      | Fuel => (p3, s3, w3, Fuel)
      end
  | _, _ => (p, s2, w2, Throw XRuntime)
  end.

(* EnvireGraph::saveToFile, /repo/src/graph/EnvireGraph.cpp:313-322: the process, the content of the file, the outcome.  [pre] as above.
   Simplification: the file can be opened and written (it is truncated by opening it). *)
Definition save_to_file (pre : O * list A) (v : bool) (io : forder) (p : P) s : P * list A * outcome unit :=
  let '(p1, o1, w, r) := save_archive v io p pre.1 (gs_dg s) in (p1, pre.2 ++ w, r).

(* EnvireGraph::loadFromFile, /repo/src/graph/EnvireGraph.cpp:324-332, Graph::load, /repo/src/graph/Graph.hpp:991-999.
   Simplification: the library fills the graph while it reads; the state of the graph after an exception is not modelled (the
   old one is returned, no theorem speaks of it). *)
Definition load_from_file (dec_pre : list A -> option (S * list A)) (keep v : bool) (p : P) (w : list A) s : P * gst items E * list event * outcome unit :=
  match dec_pre w with
  | Some (t, rest) =>
      let '(p1, _, _, r) := read_saved v p t rest in
      match r with
      | Ret x => let '(s1, ev, r1) := load_saved keep id x s in (p1, s1, ev, r1)
      | Throw y => (p1, s, [], Throw y)
      | UB => (p1, s, [], UB)
      | Fuel => (p1, s, [], Fuel)
      end
  | None => (p, s, [], Throw XRuntime)
  end.
End file.
