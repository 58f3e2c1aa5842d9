# Formal model of envire_core (Rocq/Coq 8.16.1)

The subject is the C++ source in /repo (read as text only). This file states what is
modelled, how each property of `properties.jsonl` is treated, and what has to be trusted.

## 1. Modelling decisions

* **Outcomes.** Every modelled call returns the new state, the list of events it emitted and an
  outcome: `Ret v`, `Throw exn` (the C++ exception), `UB` (undefined behaviour: dangling or null
  descriptor, invalidated iterator, out-of-bounds access, popping an empty vector, failed
  `assert`), or `Fuel` (a loop of the model ran out of fuel; theorems exclude it). Nothing is
  totalised silently.
* **Descriptors.** Vertex descriptors are naturals, 0 is `null_vertex()`, edge descriptors are
  naturals; allocation hands out fresh numbers (no address reuse). A descriptor that is not alive
  is a dangling pointer; dereferencing it is `UB`.
* **boost graph.** `labeled_graph<directed_graph>` is modelled as vertex list, edge list (both in
  insertion order, `listS`), label map, counters and vertex indices. Out-edge lists are the
  sub-sequence of the global edge list, which is what push_back/erase on the three lists keep.
* **Events.** Calls return the list of events passed to `notify`. Subscribers other than tree views
  are consumers of that list (Path, queue, dispatcher, replica). Re-entrant handlers are modelled
  separately in the publisher model.
* **Unordered containers.** Iteration order of `unordered_set`/`unordered_map` is an oracle
  (a function returning a permutation), and every theorem quantifies over it.
* **Arithmetic.** Transforms are elements of an arbitrary structure with product, inverse and unit;
  group laws are hypotheses of the theorems that need them (exact arithmetic, not IEEE doubles).
  Box coordinates are rationals (every finite double is one). Sizes are unbounded naturals.
* **Handlers.** Unless a property is about re-entrancy, event handlers and signal slots do not call
  back into the graph.

## 2. Properties

* **C01 Edges come in inverse pairs.** Invariant `dg_wf` of the digraph model, preserved by every mutator, lifted to all histories by induction.
* **C02 Frame names identify frames.** Invariant linking label map, vertex list and counters; induction over histories.
* **C03 Throwing graph operations change nothing.** Case analysis of every mutator on every well-formed state: exception iff condition, state and event trace unchanged.
* **C04 Each mutator does what it says and nothing else.** Refinement: abstraction function from the digraph to (set of names, map of pairs to properties); each call commutes with its abstract counterpart.
* **C05 An edge from a frame to itself behaves like any other edge.** Refutation: self edge followed by remove is UB in the model for every graph and name; set stores the inverse. Positive part: what does hold for the added self edge.
* **C06 disconnectFrame removes exactly the incident edges.** Loop invariant on the number of out-edges; fuel never runs out; exact final edge list.
* **C07 clear empties the graph.** Composition of C06 and frame removal over the vertex list; exact event trace.
* **C08 A vertex handle stays valid and keeps its meaning.** Invariant over histories relative to a fixed handle.
* **C09 getFrames returns a shortest path.** BFS invariants (queue monotone in depth, black vertices closed) => parent chains are shortest walks.
* **C10 getFrames is empty exactly when there is no route to another frame.** BFS completeness + fuel adequacy.
* **C11 getTransform composes the transforms of a shortest route.** BFS path extraction + product along it.
* **C12 Transform queries are coherent.** Group section variables with laws as hypotheses; product along walks is path independent.
* **C13 A graph without cycles is always coherent.** Potential function built from a spanning tree of a forest (no closed non-backtracking walk).
* **C14 The transform of a frame to itself is identity.** Refuted on graphs with no edge; partial theorem when at least one edge exists.
* **C15 Timestamps of transform queries.** Case analysis of getTransform.
* **C16 getTree spans exactly the root's component.** Fold of the TreeBuilder visitor over the BFS trace; invariant tying view to BFS state.
* **C17 Every edge of the component is a tree edge or a cross edge, once.** BFS trace classification of the two directions of every edge.
* **C18 A subscribed view follows additions.** `in_sync` predicate preserved by addEdgeToTreeView, incl. the filtered BFS on the other component; induction over histories.
* **C19 A subscribed view follows removals.** Refuted: (a) cross edge removed from the graph stays listed, (b) tree edge with alternative route: exception and lost vertices, (c) several cross edges inside the removed part: undefined behaviour. Partial: C20. `C19_tree_edge_outcome`: outcome for every tree edge, with the exact condition for (c) when nothing leaves.
* **C20 Removing a bridge prunes the view exactly.** `in_sync` preserved by TreeView::removeEdge when no cross edge touches the removed subtree, for every child order oracle.
* **C21 View-based transform queries agree with the graph.** Both algorithms computed as products along walks, group laws, cycle consistency.
* **C22 Tree visitors visit each vertex of the subtree once, parents first.** Traversal model with fuel, induction on the subtree size, arbitrary order oracle.
* **C23 View signals describe the tree.** Signal traces are part of the view model; replay function as specification. Connections are part of the view; clients connect and disconnect with OSlotView; a slot connected to both signals hears exactly what describes the tree.
* **C24 Moving and copying a view.** Move modelled on the list of subscribed views; edgeRemoved connections lost => refuted part.
* **C25 A clean auto-updating path is a real path.** Refuted (edge removed naming the frames in the other order); partial: holds when removals that touch the path name frames in path order.
* **C26 Transform of a path.** Model of Path and getTransform(path); uses C09/C11.
* **C27 A broken path never yields a transform.** Refuted: second query returns identity. Partial: first query throws.
* **C28 Events are a faithful log of the graph.** Replica specification (finite sets/multiset) and replay; simulation per call, induction over histories. Refuted for iterator removal; proved for all other calls.
* **C29 publishCurrentState describes the whole graph once.** Replay of the published list from the empty replica; exactly-once by induction over the edge list.
* **C30 unpublishCurrentState undoes publishCurrentState.** Same for the unpublish list, from the full replica.
* **C31 Every subscriber gets every event once, in order.** Publisher state machine with arbitrary handler behaviours (lists of subscribe/unsubscribe actions). Switching events off silences everything until they are switched on again, whatever else is called.
* **C32 Subscriptions changed inside a handler take effect after the event.** Deferred lists; refuted for later re-subscription (list of pending unsubscribes is never emptied), exact characterisation otherwise.
* **C33 Graph changes from inside a handler are safe.** Refuted with UB witness for nested notify, and in general for every full vector of subscribers (reallocation under the outer loop); characterisation of the non-nested case in C31.
* **C34 Destroying a publisher unsubscribes everybody.** Destructor loop on the subscriber list; refuted for every non-empty list of distinct subscribers; exact outcome per parity. That subscribers and pointers agree (the hypothesis) is proved for all programs that subscribe through the subscribers.
* **C35 Queued events have the same net effect.** Queue model; per-key projection; frames proved, edges refuted (remove, add, remove) with partial theorem for windows without that pattern.
* **C36 The queue keeps order and coalesces.** Invariant on the queue content relative to the received stream.
* **C37 Flushed events are applicable in order.** Refuted with frame-add/item-add/item-remove/frame-remove; partial without item events.
* **C38 waitForFrame withholds events until all awaited frames exist.** Dispatcher state machine, induction over the event stream.
* **C39 Dispatcher fan-out.** Dispatcher state machine with uninitialised flag as distinct value; refuted part for the default constructor.
* **C40 Typed item dispatchers see exactly the items of their type.** Filter equality by induction over the stream.
* **C41 Item bookkeeping queries agree.** Invariant of item maps over histories.
* **C42 Adding and removing an item by pointer.** Functional specification on per-frame, per-type lists.
* **C43 Removing an item through an iterator removes only that item.** Refuted for every list of length >= 2 and its last position; partial: exact otherwise.
* **C44 A failed removeFrame leaves the frame intact.** Refuted for every connected frame holding items; partial: unknown frame or no items.
* **C45 An item knows the frame it is in.** Refuted for double insertion and clearFrame; partial: invariant for histories in which an item is added only while in no frame and frames are not cleared while holding items.
* **C46 Filtered copies keep exactly the selected item types.** Copy model + filter on maps, for every iteration order.
* **C47 Copies are equal and independent.** Copy model with explicit out-of-bounds check of the vertex index; refuted after removeFrame; the copy is defined exactly when every removed frame was added after all frames still there (slots of the event log, RankThms).
* **C48 createStructuralCopy copies frames and transforms only.** Fold over the edge list into an empty graph.
* **C49 Indexed item access is bounds-safe.** Case analysis over Z indices.
* **C50 Saving and loading a frame's items.** Token-level archive model, codecs as section variables with a round-trip hypothesis.
* **C51 Unknown item types are skipped on loading.** Refuted: payload of an unknown item is not skipped. Partial: registry covers all saved classes.
* **C52 Binary buffers return the bytes written.** streambuf put-area model; induction over write calls.
* **C53 saveToBinary replaces the previous content.** Refuted for longer previous content; exact result for all contents.
* **C54 Loading a graph replaces its content.** regenerateLabelMap model; refuted for stale labels; partial for an empty destination.
* **C55 Bounding box algebra.** Boxes over rational coordinates, empty when a lower bound exceeds an upper one; order-theoretic characterisation.
* **C56 intersects tells whether two boxes share a point.** Refuted: depends only on the argument being non-empty; partial direction.
* **C57 Calls through the thread-safe graph are atomic.** Interleaving semantics with a recursive mutex; serialisability by commuting argument/ invariant over executions.
* **C58 containsEdge through the thread-safe graph is race-free.** Refuted with a concrete schedule in the same semantics.
* **C59 One graph per name.** Map model, induction over calls.
* **C60 loadAllEnvireItemLibraries reports success.** Refuted: result is exactly the negation; attempts-all part proved.
* **C61 Escaping of angle brackets.** Two-pass replacement equals one-pass specification; decoder gives injectivity.
* **C62 Copies and clones of items.** Item record model incl. callback list; heap of items for independence; every setter changes the part it names and nothing else.
* **C63 Content-change callbacks.** Signal model (ordered slots).
* **C64 Item metadata lookup.** Map model, induction over registrations.
* **C65 exteriorDistance is the distance of the closest points.** Per-axis gap; minimality and attainment over the rationals (squared distance).
* **C66 The center of a box.** Linear arithmetic over the rationals.
* **C67 Spatial items without boundary refuse boundary operations.** Null boundary as an option; own boundary checked, the other one dereferenced unchecked (refuted).
* **C68 flush tolerates receivers that change the graph.** List elements carry identities; flush erases the element it processed, undefined behaviour when a merge erased it before (refuted); holds for receivers whose events do not supersede the one being processed.
* **C69 Copies and clones of spatial items have their own boundary.** Item objects and boxes in a heap, the boundary is a shared pointer; implicit copy constructor and Item::clone as written (refuted).
* **C70 Paths without auto-update never change.** Same model as C25-C27; induction over histories of graph calls and path queries.
* **C71 Typed loading reports what it got.** Refuted: true is returned with a null pointer if the item has another class; partial: a set pointer has the class and comes with true.
* **C72 A saved item can be loaded.** Same archive model as C50.
* **C73 One graph per name for all threads.** Same interleaving semantics without a mutex; refuted by a schedule; partial for names that have a graph before the threads start.
* **C74 getTree by value returns an independent view.** `ViewObjModel.v` composes construction, `getTree`, move and destruction of the local view; proved from the theorem for `getTree` into a view.
* **C75 Assigning views.** `operator=` as code; refuted for a subscribed target and a source without publisher (the graph keeps the pointer of the destroyed target); exact condition for all later histories.
* **C76 Rebuilding views.** `clear` then `getTree` proved for any view, with `hasRoot` before and after; `rebuildTreeViews` reads the root after `clear` has set it to null: refuted in every state with a subscribed view.
* **C77 Graph and views can be destroyed in any order.** Objects with ends of life; exact condition: views with a publisher die before the graph.
* **C78 Event handlers see the finished change.** `HandlerModel.v`: the mutators with an arbitrary handler (any state change, exception or UB) in place of `notify`; equation with the handler-free call followed by the handler; refuted for `remove_edge`.
* **C79 A throwing handler does not corrupt the graph.** Same model; refuted for every edge removal; proved for all other calls.
* **C80 Handlers may change the graph.** Same model with handlers made of graph calls, nested to a depth given as fuel; induction on the depth; partial: removal excepted.
* **C81 Transforms through edge descriptors.** TransformModel: getTransform(edge), updateTransform(edge); the descriptor found by getEdge is the one of the names (unique edges); partial: the time stamp is lost.
* **C82 A queue keeps up with its graph.** Composition of C28, C29 and C35; induction over the windows between flushes; partial as C28 and C35 are.
* **C83 A typed dispatcher knows the items of its type.** Composition of C28, C29 and C40; replaying counts additions minus removals; partial as C28 and C40 are.
* **C84 A subscriber that moves between graphs knows the graph it is at.** Model of one recording subscriber beside the program with several graphs (RoamModel): entries in every graph's list, pPublisher, enabled flags; induction over the program with C28–C30; partial because moves without publish_current_state, unsubscribe and enableEvents break it.
* **C85 Handlers of item events see the finished change.** The item functions again with a handler call inside notify (ItemHandlerModel): `h` any state transformer with events and exceptions; equation with the handlerless call followed by the handler; removal through an iterator is refuted because notify is in the middle.
* **C86 Clearing a frame with event handlers.** Same model; the loops of clearFrame continue with iterators after notify, so a ghost oracle `touched` says which vertices' items the handlers wrote and using the iterators then is UB (conservative: any write counts). Rely-guarantee induction over both loops with a client-chosen invariant.
* **C87 The structure visualisation shows the component of its root.** `VizModel.v`: the two slots connected to the tree view as state transformers on a record of the calls made to vizkit3d, run over the signals getTree emits; induction over the search trace (discovered vertices = drawn frames), then the facts about breadth first search of C17/C18.
* **C88 The roots on offer are the frames of the graph.** Same file: the members nodes, nextNodes, currentRoot and their four functions as a state machine; invariant over histories.
* **C89 A drawn graph can be read back.** DrawModel writes the text; SpecDraw is an independent reader (lexer, statements, record labels) written after Graphviz's documentation; theorem: reading what was written gives the frames, counts, types and edges the queries report. Names of frames must be free of `"`, `\`, `{`, `}`, `|`, `<`, `>` and of leading, trailing or doubled blanks. The same for the other graphs, whose frames are drawn as one text (SpecSketch).
* **C90 An item survives saveToBinary and loadFromBinary.** ArchiveModel composes Serialization::save/load (C50) with the buffers (C53): preamble of the archive, writes split in any way; round trip for every earlier content.
* **C91 A graph survives saveToFile and loadFromFile.** ArchiveModel: counts, frames with their items, edges with positions, written and read with archives that have a memory; composition of the round trips of the item maps with the loading of the graph (C54).
* **C92 Libraries with item classes are loaded on demand.** RegistryModel replaces the abstract process of C50, C90 and C91 by the registry the macros fill: handles and metadata computed from the libraries loaded so far, in order. Induction over registrations; the round trips again for a writer and a reader that are different processes with different libraries installed, where the reader's process changes while it reads.
* **C93 The 2D structure widget shows the graph displayed last.** WidgetModel: program counters for the layout thread and the thread of the user interface, one step per access to a member, executions are lists of turns; texts, flags, mutex, queue of displaySvg calls and the renderers that exist. Invariants over all turn lists (control, texts, renderers), ranking functions for progress and for the destructor; Graphviz is an oracle that says which texts it reads, combined with the reader of C89.
* **C94 Access objects hold the graph's lock as long as a copy of them exists.** AccessModel: objects, the lock_guards they share, a recursive mutex with owner and count, threads that get, copy, reassign, use and destroy objects. Invariant for all programs: the mutex counts the lock_guards that exist, all created by its owner. For programs whose threads keep their objects to themselves: no undefined step, exclusion, progress and a decreasing measure.
* **C95 Items made by the name of their class.** CreateModel on top of RegistryModel: the requests of ClassLoader, the singletons and associations the plugin manager keeps, and objects whose C++ class is distinguished from the name registered for Item of their data. Case analysis for one request, an invariant on object numbers for all histories; saving and loading with the classes exported to boost, in two processes. False for classes derived from Item: they are saved under the name of Item of their data.
* **C96 Identifiers of items.** UuidModel: threads that construct, copy and clone items, and draw identifiers in two accesses to a generator (read its state, write it back); which generator a thread uses is a parameter, instantiated with the one of the process and with the thread-local ones of RandomGenerator. Invariant over schedules: the identifiers given out so far are those of a prefix of the generator's sequence, each to one construction. False with the generator of the process, for every generator and state.
* **C97 What slots see when a view's signal is emitted.** SlotModel: the calls of Graph and TreeView that emit signals, with the whole state (graph, views, list of subscribed views) recorded at every emission, in order with the events. Erasing the records gives the calls of GraphModel (C97_same_calls). The tree at an emission is what the signals so far say (C97_hears, by following the functions). For views in step with the graph, each sight of a search lies on the way to the final view, which is in step again (C16), so that the promises follow from it; for removals by induction over the pruned vertices, deepest first. *Partial*: for views out of step (after a removal threw) only removals are covered; that views without updates never emit signals is refuted.
* **C98 Ending and resuming a view's subscription.** The calls view_unsubscribe, unsubscribe_tree_view, destroy_view and slot_view of GraphModel. Exact effects (C98_unsubscribe, C98_destroy, C98_slots); an unsubscribed view is not touched by any history, with any outcome, self edges included (C98_unsubscribed_view_frozen: every call is shown to leave the state of a view outside subscribedTreeViews alone, then induction over the history); unsubscribe, clear and getTree make it follow again (C98_resume). After graph.unsubscribeTreeView(&view) the view still holds its publisher and cannot be subscribed again (refuted, for every reachable graph and subscribed view).
* **C99 Descriptors in events.** SpecDesc.v says when an event is current: getEdge returns the descriptor it carries. Every call is a sequence of elementary steps of the graph labelled with its events (GraphStep.v); item calls add item events and writes to frames, which leave edges alone (`traced` in DescThms.v). A step that raises an event makes it current, steps without matching removal keep it, the removal destroys the edge for good since numbers of edges are never used twice (C99_until_removed, _items). A queue drops events when a matching removal arrives, so all it holds is current (C99_queue_current); for flush with a receiver that calls the graph by induction over the rounds of QueueModel.nq_flush (C99_flush_current). Addresses of destroyed edges are not used again in the model (§3); on a real heap a dangling descriptor may look like a later edge.
* **C100 Removing items while walking over them.** IterModel.v: pairs of iterators as positions in the vector of a type, the iterators removeItemFromFrame returns, and the client's loop with an arbitrary selection. Exact result by induction over the rest of the list, using the exact effect of one removal (C43). Removing everything is right (C100_remove_all), and so is every selection without the last item (C100_remove_selected_partial); if the last item is selected, the others are lost (refuted); comparing the returned iterators after the vector was destroyed is undefined where the standard is taken strictly (`strict`, refuted). C100_iterators_stay_valid: every call leaves the list of a type in a frame alone or raises an item event for it; induction over histories. That an untouched list also stays at its place in memory is a property of std::unordered_map (§3).
* **C101 Slots that use the graph.** ActModel.v: the calls that emit signals of views, statement by statement, with an arbitrary state changing function run at every emission; the breadth first search reads the graph edge by edge as the slots leave it, the loops over subscribedTreeViews notice that the vector was changed, removed edges under an iterator are UB. Soundness of the graph for all slots, nested and throwing, by the invariant that every call is a sequence of elementary steps. Considerate slots: simulation between the model with slots and the one without, for every call, with the search matched edge by edge. The rest of the claim is false: general theorems for slots that change the subscriptions or throw, witnesses for slots that add or remove edges. Readers keep whole programs as they are: induction over the calls.
* **C102 Assigning graphs.** AssignModel.v: the memory of a program with several graph objects (each vertex and edge with the object in whose lists it is stored), copy constructor, the operator= the compiler generates, destruction, subscribers, and the calls that change graphs. Programs without assignment: every name leads to a frame of the same graph, a copy answers like the original, a call leaves the answers of all other graphs alone, and events reach exactly the subscribers of their graph (invariants over all steps; destruction of graphs with subscribers loses some of them). After an assignment: same answers, proved; independence is false, proved in general for every way the two graphs affect each other.
* **C103 Visiting all frames.** VisitModel.v: the loop of visitVertices over the list of vertices, with a visitor that has a memory and makes any calls of the graph (scripts); going on from a removed vertex is undefined; a bound on the rounds with the outcome Fuel. Invariant of the loop: what precedes the current vertex was visited, what follows was not (every sequence of elementary steps only removes old vertices and appends new ones). Each frame at most once, all final frames visited, number of calls bounded by frames plus announced additions. That the visit is always defined and ends is refuted: removing the visited frame is undefined, adding frames can go on for ever.
* **C104 Visiting the items of a frame.** VisitItemsModel.v: the two nested loops of visitItems (types of the map, positions of the list) with a visitor that has a memory and makes any calls of the graph; a call that writes the list in turn, inserts a type or removes the frame invalidates the loops, and going on is undefined. Lemmas per call of EnvireGraph: what is in a frame afterwards was there before or was announced; calls elsewhere keep the content. Induction over the visitor's script, the list and the types. That the visit is always defined is refuted for every frame with an item: removing the visited item, or adding one of its type.
* **C105 Items are values.** ItemValueModel.v: programs that make calls of the graph and copy, clone, move and assign item objects, stored or not; an object has class, frame name, time, uuid, data and callbacks, what a moved-from string or datum holds is any function. Per operation: what the target, the source and all others hold afterwards. The part of each operation that the graph can see equals calls new Item / setFrame, so reachability is kept (induction over programs) and, if stored items are neither assigned to nor moved from, so is the invariant of C45. Free assignment is refuted for every stored item: it stays stored but cannot be removed.
* **C106 Visiting a view with functions that use the graph.** VisitViewModel.v: visitBfs and visitDfs on a stored view, the function any program of calls with any memory (copied per child in visitDfs). Three contracts: the view is not subscribed (frozen, from C98); the view is subscribed but no run changes its tree; the view is subscribed and in step and the function only adds (visitBfs; via C97's following of views). Induction over the rounds with the search invariant of C22, in the last case relative to the current tree. Removals are refuted: the visited vertex is put back without a parent, for every view and function that removes it; visitDfs dangles; a queued vertex ends the visit with an exception (witness).
* **C107 Renaming a frame through its property.** RenameModel.v: graph()[v].setId(n) (test_graph.cpp:1394 does it and calls it forbidden). Every lookup by name, by vertex, paths, removal and copying compared with the graph before, for every reachable graph, frame and new name. Copies are compared with the graph in which the label map is changed too (a well-formed graph, so the theorems about copies apply). Refuted: the frame is known by its new name; a taken name; adding an edge that a subscribed view must follow.
* **C108 The visitors keep their order.** No new model: TreeView.v and VisitViewModel.v. visitBfs goes level by level (level_order), visitDfs subtree by subtree (subtree_order), for every tree, start and iteration order of the children; with functions that use the graph, on a view that is not subscribed, the calls of a visit that returns are those of the visit without effects.
* **C109 Transform::setIdentity.** IdentityModel.v splits the abstract transform into pose and covariance. Laws of poses (a group) and of composition acting on poses are hypotheses. Pose identity, neutral for poses on both sides, exactly when neutral for whole transforms, and the effect on an edge and on paths of a reachable graph. Refuted: the result is neutral (old time and old covariance stay).
* **C110 Products and inverses of transforms with time.** tf_mul and tf_inverse of TransformModel.v, for every group of transforms: associative, inverse reverses products and is its own inverse, exactly when an identity is neutral, what undoing a product gives. Refuted: undoing a product gives the other factor (its time may be lost).

## 3. Trusted base

* The kernel of Coq 8.16.1 (`coqc`; `coqchk` is run on the result) and the definitions of the
  standard library and of std++. `vm_compute` is used for witnesses, so its evaluator is trusted
  as part of the kernel. No axioms of our own, no kernel check switched off.
* `Print Assumptions` under every theorem, see section 5.
* The reading of /repo recorded in the comments of the model files (file and lines).
* Behaviour of external code, recalled from documentation or source, none of it available here:
  * boost `labeled_graph<directed_graph>`: `add_vertex(label)` inserts the label first and creates a
    vertex only for a new label; `edge(u,v)` finds the first out-edge; `add_edge` always inserts;
    `remove_edge(descriptor)` of a destroyed edge is undefined; `remove_vertex` neither touches
    edges nor renumbers; `vertex(label)` is null for an unknown label; `breadth_first_search` with
    its order of call-backs; `copy_graph` with the default index map writes a vector indexed by
    `vertex_index`. `labeled_graph::operator=` assigns the graph and then the map from labels to descriptors as it is;
    `directed_graph::operator=` drops its vertices and edges, copies those of the other graph and takes over its counters;
    assigning an object to itself does nothing.
  * C++ containers: `std::vector` reallocation and iterator invalidation, `std::list`, `std::map`
    order, `unordered_*` with arbitrary iteration order and elements that stay in place while others come and go,
    `pop_back` of an empty vector undefined.
  * `std::streambuf` of libstdc++ (`sputc`, `xsputn`, `sgetn`, `sbumpc`).
  * boost::signals2: slots in connection order, an emission runs over the slots present at its
    beginning and skips those disconnected meanwhile; `disconnect(f)` disconnects every equal slot.
  * boost::serialization: the codecs of items, of class names and of sizes are an arbitrary
    environment (`SerialModel.env`); what is assumed of it is written out in `SpecSerial.v` as
    hypotheses (`round_trips` etc.). Serialisation of `directed_graph` is in the library
    `base/boost_serialization`: it stores the vertices in order with the positions of the edges'
    ends, and whether reading empties the graph first is left open (`keep`).
  * Eigen::AlignedBox (formulas of extend, contains, intersection, squaredExteriorDistance, isEmpty).
  * `std::recursive_mutex` as in the C++ standard; memory accesses of different threads that are
    not ordered by it are interleaved at the granularity of the accesses of the model.
  * boost `write_graphviz`: header, graph writer, one statement per vertex named by its vertex index,
    one per edge, closing brace, each vertex and edge writer called once; the language of Graphviz
    (quoted strings, attribute lists, record labels) as read by `SpecDraw.v`.
  * plugin_manager: which classes and libraries are installed is an arbitrary index that does not change
    while the process runs; the static initialisers of a library run once, in the order of the file. `createInstance`
    loads the library of the class and fails if that fails or nothing loaded exports the class; singletons are kept by name.
  * boost serialisation of a polymorphic pointer throws an exception that is no `std::runtime_error` if the class of the
    object was not exported in the process.
  * Qt: a check box emits `toggled` when clicked, queued calls run in the thread of the receiver in the order
    of the posts and are dropped when it is destroyed, an item does not own its shared renderer; Graphviz:
    `agmemread` gives a null pointer for a text it cannot read, and `gvLayout` of a null graph is undefined.
  * `assert` is taken as undefined behaviour when it fails (a build with NDEBUG would go on).

## 4. What is modelled and what is not

| Source | Model file | Modelled |
|---|---|---|
| graph/Graph.hpp | Digraph, Bfs, TreeView, GraphModel, GraphOps, HandlerModel, SerialModel | all member functions (`saveToFile`/`loadFromFile` as load/save of the archive) |
| graph/GraphDrawing.hpp | DrawModel | text written for all kinds of graphs; texts of transforms and demangled names are parameters, opening of the file left out |
| graph/TreeView.hpp/.cpp, GraphVisitors.hpp | TreeView, Bfs, GraphModel, ViewObjModel | all, signals as a log plus slot identities |
| graph/TransformGraph.hpp | TransformModel, PathModel, CopyModel | all but the debug output |
| graph/Path.hpp/.cpp | PathModel | all but `toString` |
| graph/EnvireGraph.hpp/.cpp | ItemsModel, CopyModel, ItemHandlerModel, ArchiveModel | items, filters, copies, publishing, saveToFile, loadFromFile (items as values, no state after an exception) |
| items/Frame.hpp | ItemsModel, SerialModel | item map, save and load |
| items/Item*.hpp, SpatioTemporal.hpp, SpatialItem.hpp, ItemMetadata | MiscModel, BoxModel, ItemClass | copies, clones, callbacks, metadata, class names, boundary calls |
| items/SpatioTemporal.hpp (generateNewUUID), RandomGenerator.hpp | UuidModel | drawing identifiers in several threads; the generator itself is a parameter |
| graph/EnvireGraph.hpp (iterators) | IterModel | iterator pairs of one type in one frame and loops that remove |
| graph/Graph.hpp (operator= of the compiler, several graph objects) | AssignModel | copying, assigning, destroying and changing graphs; no views, subscribers only record |
| graph/Graph.hpp (visitVertices) | VisitModel | the loop with a visitor that makes calls; exceptions of the visitor end it |
| graph/EnvireGraph.hpp (visitItems), items/Frame.hpp (visitItems) | VisitItemsModel | the loops with a visitor that makes calls; insertion of a type is taken to rehash the map |
| items/Item.hpp (constructors, clone, assignments) on items of a graph | ItemValueModel | objects with all their members; assignments between objects of one class only; no boundaries; derived classes have no move operations (as SpatialItem) |
| graph/TreeView.hpp (visitBfs, visitDfs) with functions that use the graph | VisitViewModel | fuel per visited vertex; references of visitDfs tracked by relation and signals, any change of a walked set counts as UB; messages of exceptions not modelled |
| items/Frame.hpp (setId) on frames of a graph | RenameModel | one renaming of a frame of a reachable graph |
| items/Transform.hpp (setIdentity) | IdentityModel | base::TransformWithCovariance as pose and covariance, arithmetic abstract |
| graph/Graph.hpp, TreeView.cpp (slots that act) | ActModel | the calls that emit signals, with slots that change the state |
| graph/TreeView.cpp, graph/Graph.hpp, graph/GraphVisitors.hpp (emissions of signals) | SlotModel | the state at each emission; slots only read |
| items/AlignedBoundingBox.cpp | BoxModel | all operations (squared distances) |
| items/Transform.hpp | TransformModel | product, inverse, times; transforms are abstract |
| events/* | PublisherModel, QueueModel, DispatcherModel, RoamModel (one subscriber, several graphs) | publisher, subscriber, queue, dispatcher, item dispatcher |
| serialization/* | BufferModel, SerialModel, ArchiveModel, RegistryModel | registration, buffers, save, load, typed load, isSerializable, saveToBinary, loadFromBinary |
| util/ThreadSaveEnvireGraph.hpp, EnvireManager.cpp, Demangle.cpp | LockModel, AccessModel, MiscModel | locking, access objects and their copies, instances, escaping |
| viz/EnvireGraphStructureVisualization | VizModel | drawing and list of roots, against a recording vizkit3d; conversions to Qt and osg types left out |
| viz/EnvireGraph2DStructureVisualization | WidgetModel | both threads of EnvireGraph2DStructurWidget; drawing itself, view and zoom left out |
| plugin/ClassLoader.cpp, ClassLoader.hpp | MiscModel, RegistryModel, CreateModel | loading libraries, creating items and collision objects |
| plugin/Plugin.hpp | RegistryModel | what the registering macros put into the static maps |

Not modelled: memory management (leaks, shared_ptr counts) beyond the address identities named above,
logging, YAML output, class-loader internals, floating point rounding, NaN and
infinities, covariances, wall-clock time, the random numbers in UUIDs, the file system, overflow of sizes,
running out of memory. Event handlers that call back into the graph are modelled in HandlerModel
(C78-C80), ItemHandlerModel (C85, C86), PublisherModel (nested notifications) and LockModel (nested calls under the lock); slots of the signals of
tree views that act in ActModel (C101), elsewhere they only read (C97); all other properties assume handlers that do not change the graph.

## 5. Print Assumptions

Every theorem of the `P_*.v` files is followed by `Print Assumptions`; each prints
`Closed under the global context`. No theorem depends on an axiom, not even one of the standard library.
A checker that lists all constants without body of the loaded libraries also shows the seven of
`Coq.ssr.ssrunder.Under_rel` (sealed by a module type in the ssreflect library that std++ loads); no theorem here uses them.

## 6. What turned out to be false of the code

Each entry is a theorem `..._refuted`; where the failure is general it is proved for all states
with the stated pattern, otherwise by a witness.

* C05 An edge from a frame to itself: stored twice, `setEdgeProperty` leaves the inverse, removing it is undefined behaviour.
* C14 `getTransform(a,a)` throws in a graph without edges.
* C19 Removed cross edges stay listed in subscribed views; a tree edge with another route gives an exception and loses connected vertices; several cross edges inside the removed part are undefined behaviour (iterators used after `vector::erase`).
* C24 Moving a view drops the `edgeRemoved` connections; a copy of a subscribed view has the publisher pointer but is not subscribed.
* C25, C27 `Path::edgeRemoved` notices only removals in path direction; after one `InvalidPathException` the path is empty and clean and yields identity.
* C28 Events do not describe items of an emplaced frame, nor what `removeItemFromFrame(frame, it)` really removed.
* C32, C33 `toBeUnsubscribed` is never emptied; a nested notification after changing subscriptions is undefined behaviour or misses an event.
* C34 The destructor of the publisher pops an empty vector or leaves every second subscriber subscribed.
* C35, C37 Removing, adding and removing an edge within one flush window loses the removal; item events of a frame that lives within the window stay in the queue.
* C39, C40 A default-constructed dispatcher reads an uninitialised flag; `SpatialItem` does not override `getTypeInfo`, so its typed dispatcher never fires.
* C42, C43 Wrong exception for an item missing from a frame without its type; removing the last item of a list through an iterator drops the whole list.
* C44, C45 A failing `removeFrame` has already removed the items; cleared items keep their frame name.
* C47 Copying a graph after `removeFrame` writes out of bounds, unless every removed frame had been added after all frames still there.
* C51, C71 Loading does not skip the payload of an unknown class; the typed load returns true with a null pointer.
* C53 `saveToBinary` leaves the tail of longer previous content.
* C54 `regenerateLabelMap` does not clear, stale names stay (and may dangle).
* C55, C56 `extend` of an empty intersection is not smallest; `intersects` tests the wrong box for emptiness.
* C75 A subscribed view assigned from one without publisher and then destroyed leaves its pointer with the graph.
* C76 `rebuildTreeViews` is undefined with any subscribed view; `getTree` does not clear the view it fills.
* C77 A view that holds a publisher must not outlive the graph.
* C78 `remove_edge` announces EdgeRemoved after removing one of the two edges; a handler finds the other. `add_edge` announces a frame
  twice if the handler of the first new frame creates the second.
* C79 If that handler throws, the other edge stays and can never be removed or changed; both frames stay too.
* C80 A handler that puts the removed edge back leaves subscribed views without it.
* C81 getTransform(edge) returns the member `transform` of the edge's property: the time stamp is lost (null time).
* C82 An edge removed, added again and removed between two flushes of a queue is never announced as removed (as C35).
* C83 Dispatchers for classes derived from Item<T> receive nothing (as C40).
* C84 `subscribe(publisher)` with its default argument and `unsubscribe()` send nothing, so the subscriber goes on knowing the graph it left; a later move with publish_current_state takes back frames that were never announced; switched off events also suppress the taking back; subscribing at the graph and then at the subscriber delivers every event twice.
* C85 removeItemFromFrame(frame, iterator) notifies before it erases the map entry of the type: handlers see containsItems true with an empty list, and a handler that throws leaves this state behind.
* C86 a handler that adds an item to or removes one from the frame clearFrame is working on invalidates the iterators of its loops; a handler that throws at the last item of a type leaves the type with an empty list.
* C87 a root without neighbours is not drawn at all (frames are only added by edgeAdded), although makeRoot is called for it; a root whose first edge leads to itself fails the assertion that the frames of a cross edge have been drawn.
* C88 a selection from a list shown before the last sample puts a frame that is not in the graph at the front of the list.
* C89 names of frames are written unescaped: a frame named `a|2}| {A` gives the same file as a frame `a` with one item more, a quote in a name breaks the file. (Type names are escaped, but only their angle brackets.)
* C90 a save that returns false into a vector that holds an earlier saved item leaves the vector as it was: the next load returns the old item, and true.
* C91 an item without a handle in the loading process is not skipped (C51): its bytes are read as the next frame, so that frames are lost and made up, without an exception.
* C92 the metadata of a type is overwritten by the last library that registers it (ENVIRE_REGISTER_PLUGIN with two arguments registers the type of Item of the data type). Asking for an item of an unknown type loads all libraries, so the name under which later items are saved can change; they are then not read where only the first library is installed.
* C58, C73 `containsEdge` of the thread-safe graph and `EnvireManager::getInstance` take no lock.
* C60 `loadAllEnvireItemLibraries` returns the negation of success.
* C67, C69 The other item's boundary is dereferenced unchecked; copies share the boundary, clones lose it.
* C68 An event that supersedes the one being flushed erases the list element under the iterator.
* C93 The flags of the 2D widget are plain `bool`s, written by one thread and read by the other without the mutex: data races. A text that Graphviz cannot read (for example the drawing of a graph with a quote in a frame name, C89) makes `layoutGraph` use a null graph. The destructor deletes neither the renderer on display nor those in the queue. The comment of `displayGraph` names a function `redraw()` that does not exist; the widget starts paused and draws nothing until the box is clicked.
* C94 A `GraphAccess` can be copied to another thread. That thread then uses the graph without waiting, while the owner of the lock may use it too; and if it destroys the last copy, the mutex is unlocked by a thread that does not own it, which is undefined.
* C95 `getClassName` gives the name registered for Item of the data type, also for an object of a derived class. Such an object is saved under that name; reading loads the library of that name only, and boost then throws because the class of the object is unknown, although its library is installed. A derived class registered by ENVIRE_REGISTER_PLUGIN with one argument cannot be saved at all if nobody registers Item of its data. If only a derived class is registered with two arguments, a plain item of the data type counts as serialisable, and saving it throws. `createCollisionObjectFor(item)` does not find what is associated with a derived class.
* C96 Every constructor of an item calls `generateNewUUID`, which uses one `random_generator` of the process without a lock. Two threads that construct items at the same time can get the same identifier, and a thread that is held up in the generator sets it back, so that later items repeat identifiers although nobody else draws. `RandomGenerator`, written against this (its comment says so), is used nowhere.
* C97 TreeView.hpp:185-188 says that the signals of a view without updates are never invoked. `getTree(root, false, &view)` and `getTree(root, &view)` fill the view with addEdge and addCrossEdge, which emit: a slot connected before is called for every edge (refuted for every root with a neighbour).
* C98 Graph.hpp:245-247 offers `unsubscribeTreeView(&view)` as the manual way to unsubscribe. It removes the pointer but leaves `view.publisher` set: a later `getTree(root, true, &view)` fails the assertion of setPublisher (TreeView.cpp:88) in builds with assertions, after the pointer was already pushed; in builds without them it works. `view.unsubscribe()` has no such problem. (The left pointer also makes the destructor of the view call the graph, which may be dead by then: C77.)
* C100 A loop that removes selected items loses the items it wanted to keep if the last item is among the selected ones (same cause as C43, EnvireGraph.hpp:401 compares with end() instead of asking whether the vector is empty). The comment at EnvireGraph.hpp:403-405 says that returning iterators into the destroyed vector does not matter because both point to its end; comparing them, as every such loop does, is undefined in builds with checked iterators.
* C101 Slots of tree views cannot safely use the graph. Changing the list of subscribed views in a slot (unsubscribe, destroy, getTree with keepTreeUpdated, moving a view) invalidates the iterators of the loops at Graph.hpp:724 and 734. A slot that throws leaves an edge that is in the graph but was not announced, and later views without it. A slot that adds an edge while a component is joined to the tree makes the nested search take over vertices the outer one has not reached: the root of the view gets a parent, children have two parents, and every call returns normally. A slot that removes the new edge makes the graph announce the removal before the addition, with a dangling descriptor.
* C102 `a = b` for graphs compiles but does not copy: the vertices are copied, the map from names to vertices is not redirected to the copies (the copy constructor does this by regenerateLabelMap, and its comment at Graph.hpp:405 says that boost does not copy deeply). All names of a lead into b: writing through one graph shows in the other, adding or removing edges and removing frames through a is undefined, and destroying b leaves a with dangling pointers. The subscribers of b are subscribed to a as well, without knowing it: destroying one of them makes the next event of a undefined; those of a no longer hear of it. The graphs are independent exactly if b has no frame.
* C103 visitVertices keeps an iterator while the visitor runs (Graph.hpp:1102-1104): a visitor that removes the frame it is called for (the obvious way to clear a graph) makes the next step undefined, and one that adds a frame each time never comes to an end because new frames are appended to the list that is visited. Removing other frames is fine.
* C104 visitItems iterates over the live containers of the frame (Frame.hpp:126-132): a visitor that removes the item it is called for, or adds one of the same type to the frame, leaves the loops with invalid iterators. Items of other types removed before their turn are left out; calls for other frames are fine.
* C105 operator= and the move operations of Item write the frame name too (Item.hpp:82, 103, 113): an item of a frame that is assigned an item of another frame, or is moved from, stays in the frame's list, but removeItemFromFrame looks in the wrong frame and throws.
* C106 visitBfs reads tree[current] after the call of the function (TreeView.hpp:147); if the function removed the vertex from the view, e.g. by removing an edge, operator[] inserts it again with no parent and no children, and the view is no tree any more. A vertex that waits in the queue and is removed ends the visit with a runtime_error (getParent, line 145). visitDfs holds references into the tree during the call (lines 124-125), which dangle then.
* C107 setId on the property of a stored frame is public (Frame.hpp:74) and does not reach the label map. getFrameId then gives a name that getVertex does not know; addEdgeToTreeView looks vertices up by these names (Graph.hpp:740-828) and throws after both edges were added, before the event is sent; copies of the graph rebuild the map from the names, so they know the frame by the new name, or lose a frame if the name was taken.
* C109 setIdentity (Transform.hpp:115-119) writes translation and orientation only. The covariance and the time of the old transform stay, so composing with the result can add uncertainty and can make an older transform look newer.
* C110 operator* keeps the later time (Transform.hpp:86-98) and inverse keeps the time, so x.inverse() * (x * y) has the time of x when x is newer: transforms with time form a monoid, not a group.

## 7. Mutation tests

`seeded/LOG.jsonl` lists wrong programs tried in a scratch copy: the definition edited, the edit, the claim it
breaks, and the theorems that could no longer be proved. In the scratch copy every proof that fails
is replaced by an axiom and the build goes on; `failed` are the theorems of `P_*.v` that then depend on the
axiom. That includes theorems whose proof merely passes through a lemma that describes the edited definition
exactly.
