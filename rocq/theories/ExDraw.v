(** Concrete drawings used by the examples beside the theorems. *)
From stdpp Require Import prelude strings gmap pretty.
From Verif Require Import Outcome ItemClass Digraph Bfs TreeView GraphModel GraphOps SpecStore SpecObs GraphWf ItemsModel SpecItems
  ItemsData ItemsOps GraphCopy ItemsLog ItemsCopy ItemsThms ItemsPublish DrawModel SpecDraw DrawThms ExGraph ExTransform ExItems.

(* Example client of /repo/src/graph/GraphDrawing.hpp:46-61: demangled names of the item types. *)
Definition xtname (T : tyid) : string :=
  match T with
  | CItem 0 => "envire::core::Item<std::vector<int, std::allocator<int> > >"
  | CItem 1 => "envire::core::Item<Eigen::Matrix<double, 3, 1, 0, 3, 1> >"
  | _ => "A"
  end.
(* Same client, /repo/src/graph/GraphDrawing.hpp:92-100: text of an edge. *)
Definition xestr (z : Z) : string := match z with Z0 => "0" | Zpos _ => "20200101-10:00:00\nt: (1.00 0.00 0.00)" | Zneg _ => "20200101-10:00:00\nt: (-1.00 0.00 0.00)" end.
Lemma xtname_ok T : type_like (xtname T) = true.
Proof. by destruct T as [[|[|n]]|? ?]. Qed.
Lemma xestr_ok z : quotable (xestr z) = true.
Proof. by destruct z. Qed.

Lemma names_plain (s : est Z) : ereachable Z.opp s -> forallb plain (names (gs_dg (es_g s))) = true ->
  forall f, contains_frame (es_g s) f = true -> plain f = true.
Proof.
  intros Hs Hp f Hf. pose proof (ereachable_wf Z.opp s Hs) as Hwf. rewrite forallb_forall in Hp. apply Hp, elem_of_list_In.
  apply (names_all Z.opp); [done|]. destruct (known_map s f Hf) as [v Hv]. by rewrite Hv.
Qed.

(* Same client: an item of each of two types in the frame a; names without angle brackets. *)
Definition dops1 : list (eop Z) := [EGraph (OAddFrame fa); ENewItem 1 cA ""; ENewItem 2 cB ""; EAddItemTo fa 1; EAddItemTo fa 2].
(* Same client: one item in a frame whose name contains bars and braces. *)
Definition dops2 (f : frameid) (T : tyid) : list (eop Z) := [EGraph (OAddFrame f); ENewItem 1 T ""; EAddItemTo f 1].
(* Same client: short type names. *)
Definition dtname (T : tyid) : string := match T with CItem 0 => "A" | _ => "B" end.
Lemma dops1_reachable : ereachable Z.opp (istate Z.opp dops1).
Proof. apply istate_reachable; [ops_ok|by vm_compute]. Qed.
