(** Properties of the small classes: C59-C64 (without serialisation), C69. *)
From Coq Require Import QArith_base.
From stdpp Require Import prelude strings gmap.
From Verif Require Import Outcome ItemClass BoxModel MiscModel SpecMisc MiscThms.

(** ** C59: one graph per name *)
Theorem C59_one_graph_per_name names i j n1 n2 g1 g2 :
  names !! i = Some n1 -> names !! j = Some n2 -> (get_instances names mg_init).2 !! i = Some g1 -> (get_instances names mg_init).2 !! j = Some g2 ->
  g1 <> None /\ (g1 = g2 <-> n1 = n2).
Proof. exact (one_graph_per_name names i j n1 n2 g1 g2). Qed.
Print Assumptions C59_one_graph_per_name.
Theorem C59_every_call_returns names : length (get_instances names mg_init).2 = length names.
Proof. exact (results_for_all names). Qed.
Print Assumptions C59_every_call_returns.
Example C59_case : (get_instances ["a"; "b"; "a"; ""; "b"] mg_init).2 = [Some 0; Some 1; Some 0; Some 2; Some 1].
Proof. by vm_compute. Qed.

(** ** C60: loadAllEnvireItemLibraries reports success *)
(* Every library is attempted once, in order.  Missing: the result, see below. *)
Theorem C60_all_attempted_partial {L : Type} (ld : L -> string -> L * bool) names l :
  exists l' r, load_all_libraries ld names l = (l', names, r) /\ (r = true <-> ~ all_load ld names l).
Proof. exact (load_all_spec ld names l). Qed.
Print Assumptions C60_all_attempted_partial.
(* The result is the opposite of what it should be, for all libraries and outcomes. *)
Theorem C60_result_inverted_refuted {L : Type} (ld : L -> string -> L * bool) names l :
  (all_load ld names l -> (load_all_libraries ld names l).2 = false) /\ (~ all_load ld names l -> (load_all_libraries ld names l).2 = true).
Proof. exact (load_all_inverted ld names l). Qed.
Print Assumptions C60_result_inverted_refuted.
Example C60_case : let ld := fun (l : nat) (n : string) => (S l, negb (String.eqb n "broken")) in
  all_load ld ["a"; "b"] 0 /\ ~ all_load ld ["a"; "broken"; "b"] 0 /\
  load_all_libraries ld ["a"; "broken"; "b"] 0 = (3, ["a"; "broken"; "b"], true) /\ load_all_libraries ld ["a"; "b"] 0 = (2, ["a"; "b"], false).
Proof. cbn. split; [done|]. split; [|done]. intros (_ & Hb & _). done. Qed.

(** ** C61: escaping of angle brackets *)
Theorem C61_escape s : escape_angle_braces s = with_backslashes s.
Proof. exact (escape_spec s). Qed.
Print Assumptions C61_escape.
Theorem C61_injective s t : escape_angle_braces s = escape_angle_braces t -> s = t.
Proof. exact (escape_inj s t). Qed.
Print Assumptions C61_injective.
Example C61_case : escape_angle_braces "a<b<>\<" = "a\<b\<\>\\<".
Proof. by vm_compute. Qed.

(** ** C62: copies and clones of items *)
Theorem C62_copy p q o i : p <> q -> ob_items o !! p = Some i -> exists o', copy_item p q o = Ret o' /\
  content o' q = content o p /\ callbacks o' q = Some [] /\ boundary o' q = boundary o p /\ io_class <$> ob_items o' !! q = Some (io_class i) /\
  (forall r, r <> q -> ob_items o' !! r = ob_items o !! r) /\ ob_boxes o' = ob_boxes o.
Proof. exact (copy_spec p q o i). Qed.
Print Assumptions C62_copy.
Theorem C62_assign p q o i j : p <> q -> ob_items o !! p = Some i -> ob_items o !! q = Some j -> exists o', assign_item p q o = Ret o' /\
  content o' q = content o p /\ callbacks o' q = callbacks o q /\ boundary o' q = boundary o p /\
  (forall r, r <> q -> ob_items o' !! r = ob_items o !! r) /\ ob_boxes o' = ob_boxes o.
Proof. exact (assign_spec p q o i j). Qed.
Print Assumptions C62_assign.
Theorem C62_clone p q o i : p <> q -> ob_items o !! p = Some i -> exists o', clone_item p q o = Ret o' /\
  content o' q = content o p /\ callbacks o' q = Some [] /\ boundary o' q = None /\ io_class <$> ob_items o' !! q = Some (type_index (io_class i)) /\
  (forall r, r <> q -> ob_items o' !! r = ob_items o !! r) /\ ob_boxes o' = ob_boxes o.
Proof. exact (clone_spec p q o i). Qed.
Print Assumptions C62_clone.
(* Changes to other objects leave an item as it is. *)
Theorem C62_independent l o o' q : changes l o = Ret o' -> (forall p c, (p, c) ∈ l -> p <> q) -> ob_items o' !! q = ob_items o !! q.
Proof. exact (changes_other l o o' q). Qed.
Print Assumptions C62_independent.
(* A modification changes the named part of its item as told, and no other part. *)
Theorem C62_modification p c o o' : change_item p c o = Ret o' ->
  content o' p = content_after c <$> content o p /\ callbacks o' p = callbacks_after c <$> callbacks o p /\
  io_class <$> ob_items o' !! p = io_class <$> ob_items o !! p /\
  boundary o' p = (match c with ISetBoundary b => q ← b; ob_boxes o !! q | IExtend x => (fun bx => box_extend_point bx x) <$> boundary o p | _ => boundary o p end).
Proof. exact (change_this p c o o'). Qed.
Print Assumptions C62_modification.
Theorem C62_modification_possible p c o i : ob_items o !! p = Some i ->
  match c with
  | IExtend _ => (io_boundary i = None -> change_item p c o = Throw XRuntime) /\
                 (is_Some (boundary o p) -> exists o', change_item p c o = Ret o')
  | _ => exists o', change_item p c o = Ret o'
  end.
Proof. exact (change_defined p c o i). Qed.
Print Assumptions C62_modification_possible.
Example C62_case : let i := ItemObj (CItem 3) 7 8 "f" 9 (Signal [(0, 5)] 1) None in
  let o := Objects {[1 := i]} ∅ in
  exists o1 o2, copy_item 1 2 o = Ret o1 /\ changes [(2, ISetData 4); (2, ISetFrame "g"); (2, ISignal (SConnect 6))] o1 = Ret o2 /\
    content o2 1 = Some (7, 8, "f", 9) /\ content o2 2 = Some (7, 8, "g", 4) /\ callbacks o2 1 = Some [5] /\ callbacks o2 2 = Some [6].
Proof. eexists _, _. split; [by vm_compute|]. split; [by vm_compute|]. by vm_compute. Qed.

(** ** C69: copies and clones of spatial items keep their own boundary *)
(* Copies are equal at first.  Missing: clones and later changes, see below. *)
Theorem C69_copy_boundary_partial p q o i : p <> q -> ob_items o !! p = Some i -> exists o', copy_item p q o = Ret o' /\
  boundary o' q = boundary o p /\ boundary o' p = boundary o p.
Proof. exact (copy_boundary p q o i). Qed.
Print Assumptions C69_copy_boundary_partial.
(* Extending the boundary of the copy extends the one of the original. *)
Theorem C69_copy_shares_boundary_refuted p q o i b bx x o1 o2 : p <> q -> ob_items o !! p = Some i -> io_boundary i = Some b -> ob_boxes o !! b = Some bx ->
  copy_item p q o = Ret o1 -> change_item q (IExtend x) o1 = Ret o2 ->
  boundary o1 p = Some bx /\ boundary o2 p = Some (box_extend_point bx x).
Proof. exact (copy_shares_boundary p q o i b bx x o1 o2). Qed.
Print Assumptions C69_copy_shares_boundary_refuted.
(* The clone of a spatial item is not a spatial item and has no boundary. *)
Theorem C69_clone_slices_refuted p q o i n d : p <> q -> ob_items o !! p = Some i -> io_class i = CDerived n d ->
  exists o' j, clone_item p q o = Ret o' /\ ob_items o' !! q = Some j /\ io_class j = CItem d /\ io_boundary j = None.
Proof. exact (clone_slices p q o i n d). Qed.
Print Assumptions C69_clone_slices_refuted.
Example C69_case : let i := ItemObj (CDerived 0 3) 7 8 "f" 9 sig_new (Some 4) in
  let o := Objects {[1 := i]} {[4 := box_clear 100]} in
  exists o1 o2, copy_item 1 2 o = Ret o1 /\ change_item 2 (IExtend (fun _ => 1%Q)) o1 = Ret o2.
Proof. eexists _, _. split; by vm_compute. Qed.

(** ** C63: content-change callbacks *)
(* Which callbacks are connected after a history of calls. *)
Theorem C63_connected calls : (sg_slots (foldl sig_call sig_new calls)).*2 = still_connected calls.
Proof. exact (sig_connected calls). Qed.
Print Assumptions C63_connected.
(* All of them are called once in order, if none disconnects callbacks meanwhile. *)
Theorem C63_all_called {H : Type} (react : H -> nat -> H * list scall) h s : (forall h cb b, SDisconnect b ∉ (react h cb).2) ->
  (contents_changed react h s).2 = (sg_slots s).*2.
Proof. exact (changed_all react h s). Qed.
Print Assumptions C63_all_called.
(* Whatever the callbacks do, nobody else is called, nobody twice, and the order is kept. *)
Theorem C63_only_connected {H : Type} (react : H -> nat -> H * list scall) h s : sublist (contents_changed react h s).2 (sg_slots s).*2.
Proof. exact (emit_sublist react (sg_slots s) h s). Qed.
Print Assumptions C63_only_connected.
(* A callback disconnected by the first one is not called. *)
Theorem C63_disconnected_not_called {H : Type} (react : H -> nat -> H * list scall) calls0 h id cb rest h1 calls b :
  let s := foldl sig_call sig_new calls0 in
  sg_slots s = (id, cb) :: rest -> react h cb = (h1, calls) -> SDisconnect b ∈ calls -> cb <> b ->
  exists h2 s2 tr, contents_changed react h s = (h2, s2, cb :: tr) /\ b ∉ tr.
Proof. exact (changed_disconnected react h _ id cb rest h1 calls b (proj1 (sig_calls_ok calls0 sig_new sig_ok_new))). Qed.
Print Assumptions C63_disconnected_not_called.
Example C63_case : let s := foldl sig_call sig_new [SConnect 3; SConnect 5; SConnect 3; SDisconnect 5; SConnect 4; SConnect 5] in
  (contents_changed (fun (h : nat) cb => (S h, [])) 0 s).2 = [3; 3; 4; 5] /\
  (contents_changed (fun (h : nat) cb => (S h, if Nat.eqb cb 3 then [SDisconnect 4; SConnect 4; SConnect 9] else [])) 0 s).2 = [3; 3; 5].
Proof. by vm_compute. Qed.

(** ** C64: item metadata *)
Theorem C64_contains regs t : contains_metadata t (registrations regs) = true <-> exists d, (t, d) ∈ regs.
Proof. exact (metadata_contains regs t). Qed.
Print Assumptions C64_contains.
Theorem C64_get regs t : get_metadata t (registrations regs) = match last_registered t regs with Some d => Ret d | None => Throw XOutOfRange end.
Proof. exact (metadata_lookup regs t). Qed.
Print Assumptions C64_get.
Theorem C64_last_registered regs t d regs' : (forall d', (t, d') ∉ regs') -> last_registered t (regs ++ (t, d) :: regs') = Some d.
Proof. exact (last_registered_last regs t d regs'). Qed.
Print Assumptions C64_last_registered.
(* The type of an item is the one it reports, getTypeIndex. *)
Theorem C64_class_name regs c : class_name c (registrations regs) = Ret (md_class <$> last_registered (type_index c) regs) /\
  class_name_or_unknown c (registrations regs) = Ret (default "UnknownItem" (md_class <$> last_registered (type_index c) regs)).
Proof. exact (conj (class_name_spec regs c) (class_name_unknown_spec regs c)). Qed.
Print Assumptions C64_class_name.
Example C64_case : let regs := [(CItem 1, Metadata "Item<int>" "int"); (CItem 2, Metadata "Item<X>" "X"); (CItem 1, Metadata "Plugin" "int"); (CDerived 0 2, Metadata "Spatial<X>" "X")] in
  last_registered (CItem 1) regs = Some (Metadata "Plugin" "int") /\ class_name (CDerived 0 2) (registrations regs) = Ret (Some "Item<X>") /\
  class_name_or_unknown (CItem 5) (registrations regs) = Ret "UnknownItem".
Proof. by vm_compute. Qed.
