{"id": "C01", "title": "Edges come in inverse pairs", "statement": "After any sequence of frame/edge/transform operations on a graph (no frame connected to itself), containsEdge(a,b) holds exactly when containsEdge(b,a) holds, there is at most one edge per ordered pair, and of the two stored properties one is the inverse() of the other.", "quantifier": "all finite histories of public mutating calls (successful or throwing) starting from the empty graph, all frame names, all edge properties and inverse functions", "why_tests_cant": "The pairing is maintained by several call sites (add, remove, modify, disconnect, clear); a test visits a handful of histories, the claim is about every interleaving of them.", "anchors": ["src/graph/Graph.hpp: Graph::add_edge", "src/graph/Graph.hpp: Graph::remove_edge", "src/graph/Graph.hpp: Graph::setEdgeProperty", "src/graph/Graph.hpp: Graph::disconnectFrame"]}
{"id": "C02", "title": "Frame names identify frames", "statement": "After any history, containsFrame(f) holds exactly when some vertex carries the id f, no two vertices carry the same id, getVertex(getFrameId(v)) = v for every vertex v of the graph, getFrameId(getVertex(f)) = f for every known f, and num_vertices() is the number of distinct known names.", "quantifier": "all finite histories of public mutating calls from the empty graph, all names", "why_tests_cant": "The label map and the vertex list are two separate structures updated by hand (removeFrame erases from the map manually); agreement must survive every history.", "anchors": ["src/graph/Graph.hpp: Graph::addFrame", "src/graph/Graph.hpp: Graph::add_vertex", "src/graph/Graph.hpp: Graph::removeFrame", "src/graph/Graph.hpp: Graph::getVertex", "src/graph/Graph.hpp: Graph::getFrameId", "src/graph/Graph.hpp: Graph::containsFrame"]}
{"id": "C03", "title": "Throwing graph operations change nothing", "statement": "Whenever addFrame, emplaceFrame, add_edge, remove_edge, setEdgeProperty, removeFrame (of the plain graph) or disconnectFrame reports one of the documented exceptions, the frames, edges and edge properties are exactly those before the call and no event has been emitted; and each documented exception is thrown exactly under its documented condition.", "quantifier": "all graphs reachable by any history, all arguments; no tree view subscribed", "why_tests_cant": "Needs every reachable graph and every argument, including names never seen before.", "anchors": ["src/graph/Graph.hpp: Graph::addFrame", "src/graph/Graph.hpp: Graph::add_edge", "src/graph/Graph.hpp: Graph::remove_edge", "src/graph/Graph.hpp: Graph::setEdgeProperty", "src/graph/Graph.hpp: Graph::removeFrame", "src/graph/Graph.hpp: Graph::emplaceFrame"]}
{"id": "C04", "title": "Each mutator does what it says and nothing else", "statement": "Seen through containsFrame/containsEdge/getEdgeProperty, the graph behaves as an abstract store (a set of names and a partial map from ordered pairs of names to properties): every call changes exactly the entries named in its documentation (add_edge creates missing frames and sets a->b to p and b->a to p.inverse(); setEdgeProperty replaces both; remove_edge deletes both; removeFrame deletes one isolated name) and leaves all other entries as they were.", "quantifier": "all histories of public calls, all arguments (frames distinct in edge calls)", "why_tests_cant": "A refinement statement over unbounded histories; tests only compare a few end states.", "anchors": ["src/graph/Graph.hpp: Graph::add_edge", "src/graph/Graph.hpp: Graph::remove_edge", "src/graph/Graph.hpp: Graph::setEdgeProperty", "src/graph/Graph.hpp: Graph::getEdgeProperty", "src/graph/Graph.hpp: Graph::removeFrame"]}
{"id": "C05", "title": "An edge from a frame to itself behaves like any other edge", "statement": "After add_edge(a,a,p) succeeds, getEdgeProperty(a,a) is p or its inverse, exactly one undirected edge is reported, setEdgeProperty(a,a,q) makes getEdgeProperty(a,a) equal q, and remove_edge(a,a) / disconnectFrame(a) / clear() remove it without undefined behaviour.", "quantifier": "all graphs, all frames, all properties", "why_tests_cant": "The API accepts a self edge, but no test uses one and the failure mode is undefined behaviour, which a passing test cannot exclude.", "anchors": ["src/graph/Graph.hpp: Graph::add_edge", "src/graph/Graph.hpp: Graph::remove_edge", "src/graph/Graph.hpp: Graph::setEdgeProperty"]}
{"id": "C06", "title": "disconnectFrame removes exactly the incident edges", "statement": "disconnectFrame(f) on a known frame terminates, afterwards no edge touches f, every edge not touching f is unchanged with its property, all frames stay, and exactly one EdgeRemoved event per former neighbour of f is emitted.", "quantifier": "all reachable graphs of any size (no self edges), all frames", "why_tests_cant": "Loop termination and the frame condition over graphs of unbounded degree.", "anchors": ["src/graph/Graph.hpp: Graph::disconnectFrame"]}
{"id": "C07", "title": "clear empties the graph", "statement": "clear() terminates and leaves a graph with no frames, edges, items or labels; it emits exactly one EdgeRemoved per undirected edge, one ItemRemoved per stored item, one FrameRemoved per frame, edges first, and the items of a frame before that frame.", "quantifier": "all reachable graphs (no self edges, no tree view subscribed)", "why_tests_cant": "Ranges over all graphs; correctness depends on disconnecting before removing, for every edge structure.", "anchors": ["src/graph/EnvireGraph.cpp: EnvireGraph::clear", "src/graph/Graph.hpp: Graph::disconnectFrame", "src/graph/EnvireGraph.cpp: EnvireGraph::removeFrame"]}
{"id": "C08", "title": "A vertex handle stays valid and keeps its meaning", "statement": "As long as a frame is not removed, the vertex handle obtained for it keeps designating the same frame (same id) whatever other frames and edges are added, modified or removed, and the edge handle obtained for a pair keeps designating that pair and its current property until that edge is removed.", "quantifier": "all histories in which the frame (edge) is not removed", "why_tests_cant": "Handles are kept across arbitrary later histories by tree views, events and user code.", "anchors": ["src/graph/Graph.hpp: Graph::getVertex", "src/graph/Graph.hpp: Graph::getEdge", "src/graph/Graph.hpp: Graph::getFrameId", "src/graph/Graph.hpp: Graph::getEdgeProperty"]}
{"id": "C09", "title": "getFrames returns a shortest path", "statement": "If getFrames(a,b) returns a non-empty sequence, it starts with a, ends with b, consecutive frames are joined by an edge, no frame repeats, and no other walk from a to b is shorter.", "quantifier": "all reachable graphs (cycles, parallel routes, any size), all pairs of frames", "why_tests_cant": "Optimality quantifies over every walk in every graph.", "anchors": ["src/graph/Graph.hpp: Graph::getFrames", "src/graph/Graph.hpp: Graph::breadthFirstSearch", "src/graph/GraphVisitors.hpp: GraphBFSVisitor"]}
{"id": "C10", "title": "getFrames is empty exactly when there is no route to another frame", "statement": "getFrames(a,b) on known frames always terminates; it is empty if and only if b is not reachable from a or a = b; on unknown frames it throws UnknownFrameException.", "quantifier": "all reachable graphs, all pairs of names", "why_tests_cant": "Absence of a path is a universally quantified fact; termination on every cyclic graph.", "anchors": ["src/graph/Graph.hpp: Graph::getFrames"]}
{"id": "C11", "title": "getTransform composes the transforms of a shortest route", "statement": "When getTransform(a,b) returns, its transform is the edge transform if a and b are directly connected, and otherwise the product, in order and starting from identity, of the stored edge transforms along the frames of a shortest route from a to b; when it throws UnknownTransformException either b is not reachable from a or the graph has no edge at all.", "quantifier": "all reachable transform graphs, all pairs of known frames, any transform algebra", "why_tests_cant": "Order of multiplication, direction of each edge and choice of route must be right in every graph, not in the two test graphs.", "anchors": ["src/graph/TransformGraph.hpp: TransformGraph::getTransform"]}
{"id": "C12", "title": "Transform queries are coherent", "statement": "If the stored transforms are cycle-consistent, then for frames in one connected component getTransform(a,c) = getTransform(a,b)*getTransform(b,c) and getTransform(b,a) = getTransform(a,b).inverse() (transforms, ignoring timestamps), whatever routes the searches pick.", "quantifier": "all reachable graphs with cycle-consistent transforms over any group of transforms, all triples of frames in one component with at least one edge", "why_tests_cant": "An algebraic law over all graphs and all route choices.", "anchors": ["src/graph/TransformGraph.hpp: TransformGraph::getTransform", "src/items/Transform.hpp: Transform::operator*", "src/items/Transform.hpp: Transform::inverse"]}
{"id": "C13", "title": "A graph without cycles is always coherent", "statement": "If the graph is a forest (the edges form no cycle), the transforms stored in it are cycle-consistent, hence the coherence of transform queries holds without any condition on the stored values.", "quantifier": "all reachable forests, all transforms in a group", "why_tests_cant": "Every tree shape and every assignment of transforms.", "anchors": ["src/graph/TransformGraph.hpp: TransformGraph::getTransform", "src/graph/Graph.hpp: Graph::add_edge"]}
{"id": "C14", "title": "The transform of a frame to itself is identity", "statement": "getTransform(a,a) returns the identity transform for every known frame a.", "quantifier": "all reachable graphs, all known frames", "why_tests_cant": "Includes the corner cases (graph without edges, isolated frame in a graph with edges) no test covers.", "anchors": ["src/graph/TransformGraph.hpp: TransformGraph::getTransform"]}
{"id": "C15", "title": "Timestamps of transform queries", "statement": "getTransform(a,b) carries the stored timestamp when a and b are directly connected; in every other successful query by frames the timestamp is the default (null) time. A product of two transforms carries the later of the two timestamps and inverse() keeps it.", "quantifier": "all reachable graphs, all pairs of frames, all timestamps", "why_tests_cant": "Depends on which branch of the search answers, for every graph.", "anchors": ["src/graph/TransformGraph.hpp: TransformGraph::getTransform", "src/items/Transform.hpp: Transform::operator*", "src/items/Transform.hpp: Transform::inverse"]}
{"id": "C16", "title": "getTree spans exactly the root's component", "statement": "A view built by getTree(root) contains exactly the vertices reachable from root, each non-root vertex has exactly one parent, which is joined to it by a graph edge and lists it as a child, following parents reaches root, and the number of steps is the length of a shortest route from root.", "quantifier": "all reachable graphs, all roots", "why_tests_cant": "Every graph and every root; acyclicity and minimality are universally quantified.", "anchors": ["src/graph/Graph.hpp: Graph::getTree", "src/graph/GraphVisitors.hpp: TreeBuilderVisitor"]}
{"id": "C17", "title": "Every edge of the component is a tree edge or a cross edge, once", "statement": "In a view built by getTree(root) each pair of connected frames in the root's component appears exactly once: either as parent and child in the tree or as one entry of crossEdges (in one direction), never both.", "quantifier": "all reachable graphs without self edges, all roots", "why_tests_cant": "Exactly-once over all graphs; depends on the colour order of the search.", "anchors": ["src/graph/Graph.hpp: Graph::getTree", "src/graph/GraphVisitors.hpp: TreeBuilderVisitor::gray_target", "src/graph/TreeView.cpp: TreeView::addCrossEdge"]}
{"id": "C18", "title": "A subscribed view follows additions", "statement": "After getTree(root, true, &view), any sequence of frame additions, edge additions and transform updates leaves view a spanning tree of the root's current component with every other edge of the component listed once as cross edge.", "quantifier": "all reachable graphs, all roots, all sequences of additions and updates (including joining two large components)", "why_tests_cant": "Incremental maintenance over unbounded histories, including merging of whole components.", "anchors": ["src/graph/Graph.hpp: Graph::addEdgeToTreeView", "src/graph/Graph.hpp: Graph::subscribeTreeView", "src/graph/TreeView.cpp: TreeView::addEdge"]}
{"id": "C19", "title": "A subscribed view follows removals", "statement": "After remove_edge(a,b) returns or throws, every subscribed view is again a spanning tree of its root's current component with every other edge of the component listed once as cross edge.", "quantifier": "all reachable graphs, all in-sync subscribed views, all removed edges", "why_tests_cant": "Requires all graphs and all positions of the removed edge relative to the tree and cross edges.", "anchors": ["src/graph/Graph.hpp: Graph::remove_edge", "src/graph/Graph.hpp: Graph::removeEdgeFromTreeViews", "src/graph/TreeView.cpp: TreeView::removeEdge"]}
{"id": "C20", "title": "Removing a bridge prunes the view exactly", "statement": "If a subscribed, in-sync view contains a-b as tree edge and no cross edge touches the part below it, remove_edge(a,b) returns normally and the view afterwards is a spanning tree of the root's new component, in which exactly the vertices that are no longer reachable have disappeared; edgeRemoved is emitted once per vanished vertex, children before parents.", "quantifier": "all graphs, in-sync views, bridges, and every iteration order of the child sets", "why_tests_cant": "All tree shapes and all hash-set iteration orders.", "anchors": ["src/graph/TreeView.cpp: TreeView::removeEdge", "src/graph/TreeView.hpp: TreeView::visitBfs", "src/graph/Graph.hpp: Graph::removeEdgeFromTreeViews"]}
{"id": "C21", "title": "View-based transform queries agree with the graph", "statement": "If a view is an in-sync tree of the component and the transforms are cycle-consistent, getTransform(a,b,view) equals the transform of getTransform(a,b); for a = b it is identity; vertices outside the view lead to an exception, not to a value.", "quantifier": "all reachable graphs, in-sync views, pairs of vertices", "why_tests_cant": "Agreement of two different algorithms on every graph.", "anchors": ["src/graph/TransformGraph.hpp: TransformGraph::getTransform(origin, target, view)", "src/graph/TreeView.cpp: TreeView::getParent"]}
{"id": "C22", "title": "Tree visitors visit each vertex of the subtree once, parents first", "statement": "visitBfs(n,f) and visitDfs(n,f) on a vertex of a well-formed view terminate and call f exactly once for each vertex in the subtree of n, with its parent as second argument, and after the call for its parent.", "quantifier": "all well-formed views, all start vertices, all child iteration orders", "why_tests_cant": "Termination and exactly-once over every tree shape and set order.", "anchors": ["src/graph/TreeView.hpp: TreeView::visitBfs", "src/graph/TreeView.hpp: TreeView::visitDfs"]}
{"id": "C23", "title": "View signals describe the tree", "statement": "Replaying a view's edgeAdded and edgeRemoved signals, in the order emitted, on a set of parent-child links that started equal to the view's links always yields the view's current parent-child links.", "quantifier": "all sequences of additions and bridge removals applied to a subscribed view", "why_tests_cant": "Holds for every history or observers silently diverge.", "anchors": ["src/graph/TreeView.cpp: TreeView::addEdge", "src/graph/TreeView.cpp: TreeView::removeEdge"]}
{"id": "C24", "title": "Moving and copying a view", "statement": "Moving a subscribed view leaves exactly the new object subscribed (once), with the same tree, cross edges, root and all signal connections; copying a view yields equal tree, cross edges and root and does not subscribe the copy.", "quantifier": "all views, subscribed or not, all lists of other subscribed views", "why_tests_cant": "Subscription bookkeeping over all lists of views.", "anchors": ["src/graph/TreeView.cpp: TreeView::TreeView(TreeView&&)", "src/graph/TreeView.cpp: TreeView::operator=", "src/graph/Graph.hpp: Graph::unsubscribeTreeView", "src/graph/Graph.hpp: Graph::subscribeTreeView"]}
{"id": "C25", "title": "A clean auto-updating path is a real path", "statement": "As long as an auto-updating path reports isDirty() == false, every two consecutive frames of it are joined by an edge in the graph.", "quantifier": "all graphs, all paths obtained from getPath(a,b,true), all later histories of graph operations", "why_tests_cant": "Quantifies over all later histories, including edges removed by naming the frames in either order or by disconnecting a frame.", "anchors": ["src/graph/Path.cpp: Path::edgeRemoved", "src/graph/Path.cpp: Path::createEdges", "src/graph/Graph.hpp: Graph::getPath", "src/graph/Graph.hpp: Graph::remove_edge"]}
{"id": "C26", "title": "Transform of a path", "statement": "getTransform(path) on a clean path of at least two frames, all of whose consecutive frames are connected, is the in-order product of the edge transforms; on a dirty path it first recomputes a shortest route between the path's end frames in the current graph and then does the same, leaving the path clean with those frames; with at most one frame it is identity.", "quantifier": "all graphs, all paths, all histories between creation and query", "why_tests_cant": "Needs all graph states between creation and use.", "anchors": ["src/graph/TransformGraph.hpp: TransformGraph::getTransform(path)", "src/graph/Path.cpp: Path::setFrames"]}
{"id": "C27", "title": "A broken path never yields a transform", "statement": "If the end frames of an auto-updating path that had at least two frames have become disconnected, every later getTransform(path) throws until they are connected again.", "quantifier": "all graphs, all auto-updating paths, any number of repeated queries", "why_tests_cant": "The second and later queries matter; tests stop at the first exception.", "anchors": ["src/graph/TransformGraph.hpp: TransformGraph::getTransform(path)", "src/graph/Path.cpp: Path::edgeRemoved"]}
{"id": "C28", "title": "Events are a faithful log of the graph", "statement": "A subscriber that starts with a replica of the graph's frames, undirected edges and items and applies every event it receives has, after any history of calls, exactly the frames, undirected edges and items of the graph.", "quantifier": "all histories of public calls including throwing ones, all starting graphs", "why_tests_cant": "Refinement over unbounded histories: every code path that changes the graph must emit exactly the right events.", "anchors": ["src/graph/Graph.hpp: Graph::add_vertex", "src/graph/Graph.hpp: Graph::add_edge", "src/graph/Graph.hpp: Graph::remove_edge", "src/graph/Graph.hpp: Graph::removeFrame", "src/graph/EnvireGraph.cpp: EnvireGraph::addItemToFrame", "src/graph/EnvireGraph.cpp: EnvireGraph::clearFrame", "src/graph/EnvireGraph.hpp: EnvireGraph::removeItemFromFrame"]}
{"id": "C29", "title": "publishCurrentState describes the whole graph once", "statement": "Subscribing with publish_current_state delivers events which, replayed on an empty replica, are all applicable in order and yield exactly the current frames, undirected edges and items; each frame, undirected edge and item is announced exactly once.", "quantifier": "all reachable graphs without self edges", "why_tests_cant": "Exactly-once over all edge sets; the de-duplication of inverse edges must work for every order of the edge list.", "anchors": ["src/graph/Graph.hpp: Graph::publishCurrentState", "src/graph/EnvireGraph.cpp: EnvireGraph::publishCurrentState"]}
{"id": "C30", "title": "unpublishCurrentState undoes publishCurrentState", "statement": "Unsubscribing with unpublish_current_state delivers events which, replayed on a replica equal to the graph, are all applicable in order (items before edges before frames) and leave the replica empty.", "quantifier": "all reachable graphs without self edges", "why_tests_cant": "All graphs; order constraints between events of different kinds.", "anchors": ["src/graph/Graph.hpp: Graph::unpublishCurrentState", "src/graph/EnvireGraph.cpp: EnvireGraph::unpublishCurrentState"]}
{"id": "C31", "title": "Every subscriber gets every event once, in order", "statement": "While events are enabled and handlers neither notify nor throw, each notify calls every current subscriber exactly once, in subscription order, and no one else; disabled publishers deliver nothing.", "quantifier": "all sequences of subscribe/unsubscribe/enable/notify calls, with handlers that may subscribe and unsubscribe anyone", "why_tests_cant": "All histories and all handler behaviours.", "anchors": ["src/events/GraphEventPublisher.cpp: GraphEventPublisher::notify", "src/events/GraphEventPublisher.cpp: GraphEventPublisher::subscribe"]}
{"id": "C32", "title": "Subscriptions changed inside a handler take effect after the event", "statement": "A subscribe or unsubscribe call made inside a handler changes the set of receivers only from the next event on, and then exactly as if it had been made right after the event; later subscribe calls of the same subscriber are not affected by earlier unsubscribe calls.", "quantifier": "all subscriber lists, all handler behaviours, all later histories", "why_tests_cant": "The effect of a deferred unsubscribe on arbitrarily later events.", "anchors": ["src/events/GraphEventPublisher.cpp: GraphEventPublisher::notify", "src/events/GraphEventPublisher.cpp: GraphEventPublisher::unsubscribe"]}
{"id": "C33", "title": "Graph changes from inside a handler are safe", "statement": "A handler may itself change the graph (causing a nested notification) while subscribing or unsubscribing subscribers, without undefined behaviour and without any subscriber missing or repeating an event.", "quantifier": "all nestings of notifications and handler behaviours", "why_tests_cant": "Re-entrancy schedules are unbounded.", "anchors": ["src/events/GraphEventPublisher.cpp: GraphEventPublisher::notify"]}
{"id": "C34", "title": "Destroying a publisher unsubscribes everybody", "statement": "When a publisher is destroyed, every remaining subscriber is unsubscribed (its later destruction or unsubscribe does not touch the dead publisher) and the destruction has no undefined behaviour.", "quantifier": "all lists of remaining subscribers", "why_tests_cant": "All list lengths; the failure is undefined behaviour.", "anchors": ["src/events/GraphEventPublisher.cpp: GraphEventPublisher::~GraphEventPublisher", "src/events/GraphEventSubscriber.cpp: GraphEventSubscriber::unsubscribe"]}
{"id": "C35", "title": "Queued events have the same net effect", "statement": "For every consistent stream of frame and edge events received between two flushes, replaying the flushed events on the replica of the previous flush gives the same frames and undirected edges as replaying the received events.", "quantifier": "all starting replicas, all consistent event streams of any length between flushes", "why_tests_cant": "Merging rules interact over unbounded streams (remove, add, remove of one edge).", "anchors": ["src/events/GraphEventQueue.cpp: GraphEventQueue::notifyGraphEvent", "src/events/EdgeEvents.hpp: EdgeEvent::mergeable", "src/events/FrameEvents.hpp: FrameEvent::mergeable"]}
{"id": "C36", "title": "The queue keeps order and coalesces", "statement": "What flush delivers is a subsequence of the received events in their original order; it contains at most one modification event per undirected edge, the latest one received, and nothing about an edge that was added and removed within the window.", "quantifier": "all event streams of any length", "why_tests_cant": "All streams.", "anchors": ["src/events/GraphEventQueue.cpp: GraphEventQueue::notifyGraphEvent", "src/events/GraphEventQueue.cpp: GraphEventQueue::flush"]}
{"id": "C37", "title": "Flushed events are applicable in order", "statement": "If the received stream is applicable in order to the replica of the previous flush (frames exist when their items or edges are announced), then so is the flushed stream.", "quantifier": "all starting replicas, all applicable event streams including item events", "why_tests_cant": "Cancelled frame additions against surviving item events need long histories.", "anchors": ["src/events/GraphEventQueue.cpp: GraphEventQueue::notifyGraphEvent", "src/events/GraphEvent.hpp: GraphEvent::mergeable"]}
{"id": "C38", "title": "waitForFrame withholds events until all awaited frames exist", "statement": "After waitForFrame(f1..fn) on an enabled dispatcher, no callback fires until an addition event for each awaited entry has been received; every event after that point is forwarded again, and nothing is forwarded before.", "quantifier": "all lists of awaited frames, all event streams", "why_tests_cant": "All streams and all orders in which the frames appear.", "anchors": ["src/events/GraphEventDispatcher.cpp: GraphEventDispatcher::notifyGraphEvent", "src/events/GraphEventDispatcher.cpp: GraphEventDispatcher::waitForFrame", "src/events/GraphEventDispatcher.cpp: GraphEventDispatcher::checkWaitingForFrames"]}
{"id": "C39", "title": "Dispatcher fan-out", "statement": "An enabled dispatcher calls, for every event, exactly the callbacks registered for that kind of event, each once, in registration order; a disabled one that is not waiting calls none; a default-constructed dispatcher that is disabled without waiting behaves the same.", "quantifier": "all callback tables, all event streams, both constructors", "why_tests_cant": "All tables and streams; the default-constructor case is an uninitialised read.", "anchors": ["src/events/GraphEventDispatcher.cpp: GraphEventDispatcher::notifyGraphEvent", "src/events/GraphEventDispatcher.cpp: GraphEventDispatcher::GraphEventDispatcher"]}
{"id": "C40", "title": "Typed item dispatchers see exactly the items of their type", "statement": "A GraphItemEventDispatcher<T> receives, in order, exactly the item-added and item-removed events whose item has type T and nothing else.", "quantifier": "all event streams, all item types", "why_tests_cant": "All streams.", "anchors": ["src/events/GraphItemEventDispatcher.hpp: GraphItemEventDispatcher::notifyGraphEvent"]}
{"id": "C41", "title": "Item bookkeeping queries agree", "statement": "After any history of item operations that remove items by pointer, by clearing or removing frames, every stored list is non-empty and contains only items of its type, containsItems<T>(f) iff getItemCount<T>(f) > 0 iff T is in getItemTypes(f), and getTotalItemCount(f) is the sum of getItemCount over getItemTypes(f), each type listed once.", "quantifier": "all histories of item and frame operations, all frames and types", "why_tests_cant": "Representation invariant over all histories.", "anchors": ["src/graph/EnvireGraph.cpp: EnvireGraph::addItemToFrame", "src/graph/EnvireGraph.cpp: EnvireGraph::removeItemFromFrame", "src/graph/EnvireGraph.cpp: EnvireGraph::clearFrame", "src/graph/EnvireGraph.hpp: EnvireGraph::getItemCount", "src/items/Frame.hpp: Frame::calculateTotalItemCount"]}
{"id": "C42", "title": "Adding and removing an item by pointer", "statement": "addItemToFrame appends the item to its type's list in that frame, sets its frame name and emits one ItemAdded; removeItemFromFrame(item) removes exactly one occurrence of that item from the frame it names, keeps the order of the others, resets its frame name and emits one ItemRemoved; all other frames, types and items are untouched; the documented exceptions are thrown under their documented conditions and leave everything unchanged.", "quantifier": "all reachable graphs, all items and frames", "why_tests_cant": "Frame condition over all other items and frames in all graphs.", "anchors": ["src/graph/EnvireGraph.cpp: EnvireGraph::addItemToFrame", "src/graph/EnvireGraph.cpp: EnvireGraph::removeItemFromFrame"]}
{"id": "C43", "title": "Removing an item through an iterator removes only that item", "statement": "removeItemFromFrame(frame, it) removes exactly the item it points to; every other item of the frame stays in place and retrievable.", "quantifier": "all frames, all item lists, all valid positions in the list", "why_tests_cant": "All positions in lists of all lengths; the tests only remove from the front or single items.", "anchors": ["src/graph/EnvireGraph.hpp: EnvireGraph::removeItemFromFrame"]}
{"id": "C44", "title": "A failed removeFrame leaves the frame intact", "statement": "If removeFrame(f) throws (unknown frame or still connected), frames, edges and items are exactly as before and no event has been emitted.", "quantifier": "all reachable graphs, all frames", "why_tests_cant": "Exception safety over all states.", "anchors": ["src/graph/EnvireGraph.cpp: EnvireGraph::removeFrame", "src/graph/EnvireGraph.cpp: EnvireGraph::clearFrame"]}
{"id": "C45", "title": "An item knows the frame it is in", "statement": "For every item stored in frame f, item.getFrame() is f, and an item that is in no frame any more reports the empty frame name.", "quantifier": "all histories of item operations", "why_tests_cant": "All histories, including adding one item twice and clearing frames.", "anchors": ["src/graph/EnvireGraph.cpp: EnvireGraph::addItemToFrame", "src/graph/EnvireGraph.cpp: EnvireGraph::clearFrame", "src/graph/EnvireGraph.cpp: EnvireGraph::removeItemFromFrame"]}
{"id": "C46", "title": "Filtered copies keep exactly the selected item types", "statement": "EnvireGraph(other, types, inclusive) has the same frames and edges as other and, per frame, exactly the items of other whose type is (inclusive) or is not (exclusive) in types, in the same order; other is unchanged; a null filter keeps everything.", "quantifier": "all source graphs, all filters, both modes", "why_tests_cant": "All graphs, filters and map iteration orders (erase while iterating).", "anchors": ["src/graph/EnvireGraph.cpp: EnvireGraph::EnvireGraph(const EnvireGraph&, filter_list, inclusive)"]}
{"id": "C47", "title": "Copies are equal and independent", "statement": "The copy constructor yields, without undefined behaviour, a graph with the same frames, edges, properties and items; afterwards operations on one graph never change frames, edges or properties of the other.", "quantifier": "all reachable graphs (including graphs from which frames were removed), all later histories on either graph", "why_tests_cant": "All histories before and after the copy; failure is undefined behaviour.", "anchors": ["src/graph/Graph.hpp: Graph::Graph(const Graph&)", "src/graph/EnvireGraph.cpp: EnvireGraph::EnvireGraph(const EnvireGraph&)", "src/graph/Graph.hpp: Graph::regenerateLabelMap"]}
{"id": "C48", "title": "createStructuralCopy copies frames and transforms only", "statement": "Into an empty destination, createStructuralCopy produces exactly the frames and edges of the source with equal transforms and without any item, and leaves the source unchanged.", "quantifier": "all reachable source graphs without self edges, all transforms with an involutive inverse", "why_tests_cant": "All graphs and edge orders; relies on the inverse pairing of every edge.", "anchors": ["src/graph/EnvireGraph.cpp: EnvireGraph::createStructuralCopy"]}
{"id": "C49", "title": "Indexed item access is bounds-safe", "statement": "getItem<T>(f,i) returns the i-th item of that type exactly when 0 <= i < getItemCount<T>(f); otherwise it throws (out_of_range for a bad index, NoItemsOfTypeInFrame if there is none, UnknownFrame for an unknown frame) and never touches memory outside the list.", "quantifier": "all graphs, frames, types and integer indices including negatives", "why_tests_cant": "All integers.", "anchors": ["src/graph/EnvireGraph.hpp: EnvireGraph::getItem"]}
{"id": "C50", "title": "Saving and loading a frame's items", "statement": "If every registered item type's codec round-trips, loading what was saved yields, for each type that is serialisable, the same items in the same order and drops exactly the other types; the archive is consumed completely.", "quantifier": "all item maps, all sets of registered types, both size encodings, any data following in the archive", "why_tests_cant": "All maps and registries.", "anchors": ["src/items/Frame.hpp: boost::serialization::save(ItemMap)", "src/items/Frame.hpp: boost::serialization::load(ItemMap)", "src/serialization/Serialization.hpp: Serialization::save", "src/serialization/Serialization.hpp: Serialization::load"]}
{"id": "C51", "title": "Unknown item types are skipped on loading", "statement": "Loading an archive in a process that lacks the handle of some saved type drops the items of that type and loads all others correctly.", "quantifier": "all archives, all subsets of missing handles", "why_tests_cant": "All positions of unknown types among known ones.", "anchors": ["src/items/Frame.hpp: boost::serialization::load(ItemMap)", "src/serialization/Serialization.hpp: Serialization::load"]}
{"id": "C52", "title": "Binary buffers return the bytes written", "statement": "Whatever bytes are written, in whatever pieces, through a BinaryOutputBuffer over an empty vector, the vector afterwards holds exactly these bytes, and a BinaryInputBuffer over it reads them back and then reports end of data.", "quantifier": "all byte sequences, all splittings into write calls", "why_tests_cant": "All sequences and splittings, including byte 0xff.", "anchors": ["src/serialization/BinaryBufferHelper.hpp: BinaryOutputBuffer::overflow", "src/serialization/BinaryBufferHelper.hpp: BinaryInputBuffer"]}
{"id": "C53", "title": "saveToBinary replaces the previous content", "statement": "After saveToBinary(v,item) the vector holds exactly the serialised item, whatever it held before.", "quantifier": "all previous contents, all items", "why_tests_cant": "All previous lengths.", "anchors": ["src/serialization/Serialization.cpp: Serialization::saveToBinary", "src/serialization/BinaryBufferHelper.hpp: BinaryOutputBuffer"]}
{"id": "C54", "title": "Loading a graph replaces its content", "statement": "After loading a saved graph into any graph object, the frame lookup by name is exactly that of the saved graph: known names are the saved ones and each maps to its vertex.", "quantifier": "all saved graphs, all previous contents of the destination", "why_tests_cant": "All previous contents.", "anchors": ["src/graph/Graph.hpp: Graph::load", "src/graph/Graph.hpp: Graph::regenerateLabelMap"]}
{"id": "C55", "title": "Bounding box algebra", "statement": "extend yields the smallest box containing the old box and the new point or box; contains(point) is exact; contains(box) holds iff every point of the other non-empty box is contained; intersection contains exactly the common points.", "quantifier": "all boxes and points with finite coordinates", "why_tests_cant": "All coordinates.", "anchors": ["src/items/AlignedBoundingBox.cpp: AlignedBoundingBox::extend", "src/items/AlignedBoundingBox.cpp: AlignedBoundingBox::contains", "src/items/AlignedBoundingBox.cpp: AlignedBoundingBox::intersection"]}
{"id": "C56", "title": "intersects tells whether two boxes share a point", "statement": "intersects(other) is true exactly when the two boxes have a common point.", "quantifier": "all pairs of boxes", "why_tests_cant": "All pairs; tests use overlapping boxes only.", "anchors": ["src/items/AlignedBoundingBox.cpp: AlignedBoundingBox::intersects"]}
{"id": "C57", "title": "Calls through the thread-safe graph are atomic", "statement": "Any concurrent execution of locked operations of ThreadSaveEnvireGraph (including re-entrant calls from handlers and explicit lock/unlock) gives every call the result it has in the sequential execution ordered by lock acquisition, and no two threads are ever inside the graph at once.", "quantifier": "all numbers of threads, all programs, all schedules", "why_tests_cant": "All interleavings.", "anchors": ["src/util/ThreadSaveEnvireGraph.hpp: ThreadSaveEnvireGraph"]}
{"id": "C58", "title": "containsEdge through the thread-safe graph is race-free", "statement": "A concurrent containsEdge call never overlaps another thread's modification and returns a value the graph had between two operations.", "quantifier": "all schedules", "why_tests_cant": "A data race shows up only under particular schedules.", "anchors": ["src/util/ThreadSaveEnvireGraph.hpp: ThreadSaveEnvireGraph::containsEdge"]}
{"id": "C59", "title": "One graph per name", "statement": "EnvireManager::getInstance(name) returns the same graph for the same name for ever and different graphs for different names, never null.", "quantifier": "all sequences of names", "why_tests_cant": "All histories.", "anchors": ["src/util/EnvireManager.cpp: EnvireManager::getInstance"]}
{"id": "C60", "title": "loadAllEnvireItemLibraries reports success", "statement": "loadAllEnvireItemLibraries() attempts every available item library and returns true exactly when all of them could be loaded.", "quantifier": "all sets of available classes and all outcomes of loading each", "why_tests_cant": "All outcomes.", "anchors": ["src/plugin/ClassLoader.cpp: ClassLoader::loadAllEnvireItemLibraries"]}
{"id": "C61", "title": "Escaping of angle brackets", "statement": "escapeAngleBraces puts one backslash before every angle bracket and changes nothing else; different inputs give different outputs.", "quantifier": "all strings", "why_tests_cant": "All strings; injectivity is a statement about pairs of strings.", "anchors": ["src/util/Demangle.cpp: escapeAngleBraces"]}
{"id": "C62", "title": "Copies and clones of items", "statement": "Copy construction, assignment and clone() of an item preserve time, id, frame name and data and do not carry over change callbacks; later changes to either leave the other unchanged.", "quantifier": "all items, all later modifications", "why_tests_cant": "All values and later histories.", "anchors": ["src/items/Item.hpp: Item", "src/items/ItemBase.cpp: ItemBase", "src/items/Item.hpp: Item::clone"]}
{"id": "C63", "title": "Content-change callbacks", "statement": "contentsChanged() calls every connected callback once in connection order, and no disconnected one.", "quantifier": "all sequences of connect/disconnect/contentsChanged", "why_tests_cant": "All histories.", "anchors": ["src/items/ItemBase.hpp: ItemBase::connectContentsChangedCallback", "src/items/ItemBase.cpp: ItemBase::contentsChanged"]}
{"id": "C64", "title": "Item metadata lookup", "statement": "After any registrations, containsMetadata(t) holds iff t was registered, getMetadata(t) is the last registered value (else an exception), and an item's class name is available exactly when its type is registered.", "quantifier": "all sequences of registrations and queries", "why_tests_cant": "All histories.", "anchors": ["src/items/ItemMetadata.cpp: ItemMetadataMapping"]}
{"id": "C65", "title": "exteriorDistance is the distance of the closest points", "statement": "For non-empty boxes, exteriorDistance to a box or point is the smallest distance between points of the two (attained), and zero exactly when they share a point.", "quantifier": "all non-empty boxes and all points", "why_tests_cant": "All coordinates and relative positions.", "anchors": ["src/items/AlignedBoundingBox.cpp: AlignedBoundingBox::exteriorDistance"]}
{"id": "C66", "title": "The center of a box", "statement": "The center of a non-empty box lies in it and reflecting any point of the box at the center gives a point of the box.", "quantifier": "all non-empty boxes", "why_tests_cant": "All coordinates.", "anchors": ["src/items/AlignedBoundingBox.cpp: AlignedBoundingBox::center"]}
{"id": "C67", "title": "Spatial items without boundary refuse boundary operations", "statement": "Boundary operations of a spatial item throw when a boundary they need (their own or that of the other item) is missing, and otherwise are the operations of the two boxes.", "quantifier": "all spatial items with or without boundary", "why_tests_cant": "Missing boundaries in every combination; the failure is undefined behaviour.", "anchors": ["src/items/SpatialItem.hpp: SpatialItem::checkBoundingVolume", "src/items/SpatialItem.hpp: SpatialItem::extendBoundary"]}
{"id": "C68", "title": "flush tolerates receivers that change the graph", "statement": "If process() changes the graph while the queue is flushed, flush still processes every queued event, old and new, and ends with an empty queue.", "quantifier": "all queues, all receivers with any state and any events caused by them", "why_tests_cant": "Any receiver reaction at any position; the failure is an erased list element, undefined behaviour that tests rarely expose.", "anchors": ["src/events/GraphEventQueue.cpp: GraphEventQueue::flush", "src/events/GraphEventQueue.cpp: GraphEventQueue::notifyGraphEvent"]}
{"id": "C69", "title": "Copies and clones of spatial items have their own boundary", "statement": "A copy or clone of a spatial item is a spatial item with an equal boundary, and extending the boundary of one leaves that of the other unchanged.", "quantifier": "all spatial items, all later modifications", "why_tests_cant": "Aliasing shows only when the other object is inspected after a later change; a test would have to think of it for every way of copying.", "anchors": ["src/items/SpatialItem.hpp: SpatialItem", "src/items/Item.hpp: Item::clone"]}
{"id": "C70", "title": "Paths without auto-update never change", "statement": "A path obtained by getPath holds a shortest route between the two frames (or nothing if there is none or they are equal) with the frames as its ends; if it is not auto-updating, no graph operation and no query changes it.", "quantifier": "all graphs, all pairs of frames, all later histories of graph operations and queries", "why_tests_cant": "Quantifies over all later histories.", "anchors": ["src/graph/Graph.hpp: Graph::getPath", "src/graph/Path.cpp: Path::Path", "src/graph/TransformGraph.hpp: TransformGraph::getTransform(path)"]}
{"id": "C71", "title": "Typed loading reports what it got", "statement": "Serialization::load of a derived item type returns true exactly if the pointer is set afterwards, and the item it points to is of the requested class or derives from it.", "quantifier": "all archives, all classes, all sets of registered types", "why_tests_cant": "The test suite only loads items with the class they were saved with.", "anchors": ["src/serialization/Serialization.hpp: Serialization::load"]}
{"id": "C72", "title": "A saved item can be loaded", "statement": "If the handles' codecs round-trip, an item for which save returned true is loaded again from the archive, exactly its part of the archive is read, and isSerializable says beforehand whether save will succeed; save writes nothing if it does not.", "quantifier": "all items, all sets of registered types and plugins, any data following in the archive", "why_tests_cant": "All items and registries.", "anchors": ["src/serialization/Serialization.hpp: Serialization::save", "src/serialization/Serialization.hpp: Serialization::load", "src/serialization/Serialization.cpp: Serialization::isSerializable"]}
{"id": "C73", "title": "One graph per name for all threads", "statement": "Threads that call EnvireManager::getInstance for the same name get the same graph, whatever the schedule.", "quantifier": "all numbers of threads, all sequences of names, all schedules", "why_tests_cant": "The outcome depends on how the accesses of two threads to the map interleave.", "anchors": ["src/util/EnvireManager.cpp: EnvireManager::getInstance"]}
{"id": "C74", "title": "getTree by value returns an independent view", "statement": "getTree(root) returns a view that is a breadth-first spanning tree of the root's component with every other edge as one cross edge. The view is not subscribed and has no connected slots; the graph, its subscribed views and all other views are unchanged. An unknown root is reported by an exception and leaves nothing behind.", "quantifier": "all graph histories, all roots, all existing views", "why_tests_cant": "The test suite checks the tree of one graph.", "anchors": ["src/graph/Graph.hpp: Graph::getTree", "src/graph/TreeView.cpp: TreeView::TreeView(TreeView&&)"]}
{"id": "C75", "title": "Assigning views", "statement": "After view = other the view has the root, tree and cross edges of the other one and keeps its own signal connections, and the graph never holds a pointer to a destroyed view afterwards.", "quantifier": "all graph histories, all pairs of views, subscribed or not, all later histories", "why_tests_cant": "Whether a pointer dangles depends on calls made long after the assignment.", "anchors": ["src/graph/TreeView.cpp: TreeView::operator=", "src/graph/TreeView.cpp: TreeView::~TreeView"]}
{"id": "C76", "title": "Rebuilding views", "statement": "Clearing a view and calling getTree on it brings it in step with the graph, whatever it held before; rebuildTreeViews does so for every subscribed view.", "quantifier": "all graph histories, all views and roots", "why_tests_cant": "rebuildTreeViews is never called by the test suite.", "anchors": ["src/graph/Graph.hpp: Graph::rebuildTreeViews", "src/graph/Graph.hpp: Graph::getTree", "src/graph/TreeView.cpp: TreeView::clear"]}
{"id": "C77", "title": "Graph and views can be destroyed in any order", "statement": "Destroying a graph and its views in any order is well defined.", "quantifier": "all graph histories, all orders of destruction", "why_tests_cant": "Reading through a dangling pointer is often unnoticed by a test.", "anchors": ["src/graph/TreeView.cpp: TreeView::~TreeView", "src/graph/Graph.hpp: Graph::unsubscribeTreeView"]}
{"id": "C78", "title": "Event handlers see the finished change", "statement": "A handler of a graph event is called after the change it is told about is complete: the call behaves as if the handler ran right after it, even if the handler itself changes the graph.", "quantifier": "all handlers (including throwing and re-entrant ones), all graph histories, all calls", "why_tests_cant": "All handlers.", "anchors": ["src/graph/Graph.hpp: Graph::add_vertex", "src/graph/Graph.hpp: Graph::add_edge", "src/graph/Graph.hpp: Graph::remove_edge", "src/graph/Graph.hpp: Graph::setEdgeProperty", "src/graph/Graph.hpp: Graph::removeFrame", "src/events/GraphEventPublisher.cpp: GraphEventPublisher::notify"]}
{"id": "C79", "title": "A throwing handler does not corrupt the graph", "statement": "If an event handler throws, every edge of the graph still has its inverse edge.", "quantifier": "all handlers, all graph histories, all calls", "why_tests_cant": "No test has a throwing handler.", "anchors": ["src/graph/Graph.hpp: Graph::remove_edge", "src/graph/Graph.hpp: Graph::disconnectFrame"]}
{"id": "C80", "title": "Handlers may change the graph", "statement": "If event handlers call the graph's own member functions, the resulting state is one that could have been reached without handlers, so every invariant of the graph holds for it.", "quantifier": "all handlers made of graph calls, nested to any depth, all graph histories", "why_tests_cant": "All handlers and nesting depths.", "anchors": ["src/graph/Graph.hpp: Graph::add_edge", "src/graph/Graph.hpp: Graph::remove_edge", "src/events/GraphEventPublisher.cpp: GraphEventPublisher::notify"]}
{"id": "C81", "title": "Transforms through edge descriptors", "statement": "Reading and updating a transform through an edge descriptor has the same result, events and time stamp as doing so through the names of its two frames.", "quantifier": "all reachable transform graphs, all edges, all transforms", "why_tests_cant": "All graph states and edges; no test looks at the time stamp of a transform read through an edge.", "anchors": ["src/graph/TransformGraph.hpp: TransformGraph::getTransform(edge_descriptor)", "src/graph/TransformGraph.hpp: TransformGraph::updateTransform(edge_descriptor)", "src/items/Transform.hpp: Transform"]}
{"id": "C82", "title": "A queue keeps up with its graph", "statement": "Someone who subscribes an event queue to a graph, flushes it from time to time and applies what is processed knows, after each flush, exactly the frames, edges and items of the graph.", "quantifier": "all graph histories cut into any number of windows, windows of any length", "why_tests_cant": "Unboundedly many histories and flush points.", "anchors": ["src/events/GraphEventQueue.cpp: GraphEventQueue::notifyGraphEvent", "src/events/GraphEventQueue.cpp: GraphEventQueue::flush", "src/graph/EnvireGraph.cpp: EnvireGraph::publishCurrentState"]}
{"id": "C83", "title": "A typed dispatcher knows the items of its type", "statement": "Someone who subscribes a GraphItemEventDispatcher<Item<T>> to a graph knows at every time exactly the items of type T of every frame: those added minus those removed.", "quantifier": "all graph histories, item types, frames and items", "why_tests_cant": "All histories; tests look at single additions and removals.", "anchors": ["src/events/GraphItemEventDispatcher.hpp: GraphItemEventDispatcher::notifyGraphEvent", "src/graph/EnvireGraph.cpp: EnvireGraph::publishCurrentState", "src/graph/EnvireGraph.cpp: EnvireGraph::addItemToFrame"]}
{"id": "C84", "title": "A subscriber that moves between graphs knows the graph it is at", "statement": "A subscriber that is subscribed to one graph after another and applies every event it gets knows exactly the frames, edges and items of the graph it is subscribed to at the moment, and nothing when it is subscribed to none.", "quantifier": "all programs with any number of graphs, copies included, all interleavings of graph calls and moves of the subscriber", "why_tests_cant": "Unboundedly many graphs, calls and moves; tests subscribe once to one graph.", "anchors": ["src/events/GraphEventSubscriber.cpp: GraphEventSubscriber::subscribe", "src/events/GraphEventPublisher.cpp: GraphEventPublisher::subscribe", "src/events/GraphEventPublisher.cpp: GraphEventPublisher::unsubscribe", "src/graph/EnvireGraph.cpp: EnvireGraph::unpublishCurrentState"]}
{"id": "C85", "title": "Handlers of item events see the finished change", "statement": "Adding or removing an item calls the event handlers after the change is complete: the call with handlers is the call without handlers followed by the handlers, whatever they do, call or throw.", "quantifier": "all graph states, items, frames and handlers", "why_tests_cant": "Handlers are arbitrary programs; tests have handlers that only record events.", "anchors": ["src/graph/EnvireGraph.cpp: EnvireGraph::addItemToFrame", "src/graph/EnvireGraph.cpp: EnvireGraph::removeItemFromFrame", "src/graph/EnvireGraph.hpp: EnvireGraph::removeItemFromFrame", "src/events/GraphEventPublisher.cpp: GraphEventPublisher::notify"]}
{"id": "C86", "title": "Clearing a frame with event handlers", "statement": "clearFrame announces every item of the frame once, runs the handlers after each announcement, and leaves the frame without items and types whatever the handlers do; if a handler throws, exactly the items not yet announced are left.", "quantifier": "all graph states, frames, iteration orders of the item map and handlers", "why_tests_cant": "Handlers are arbitrary programs; tests have handlers that only record events.", "anchors": ["src/graph/EnvireGraph.cpp: EnvireGraph::clearFrame", "src/graph/EnvireGraph.cpp: EnvireGraph::removeFrame", "src/events/GraphEventPublisher.cpp: GraphEventPublisher::notify"]}
{"id": "C87", "title": "The structure visualisation shows the component of its root", "statement": "drawGraphStructure draws every frame connected to the root exactly once, places every other frame by exactly one transformation, the one stored in the graph for that pair of frames, in a tree hanging from the root, draws every edge of the component exactly once (as transformation or as link), draws nothing else, and none of its assertions fails.", "quantifier": "all reachable transform graphs and root frames", "why_tests_cant": "There is no test of the visualisation; the order in which tree and cross edges are announced depends on the whole graph.", "anchors": ["viz/EnvireGraphStructureVisualization/EnvireGraphStructureVisualization.cpp: EnvireGraphStructureVisualization::drawGraphStructure", "src/graph/Graph.hpp: Graph::getTree", "src/graph/TreeView.cpp: TreeView::addCrossEdge"]}
{"id": "C88", "title": "The roots on offer are the frames of the graph", "statement": "In every history of samples, selections by the user and redraws, the list of possible roots names every frame of the last sample exactly once, the current root first; a selected root is kept as long as the graph contains it, the drawing is made for the root shown first, and a changed list is announced exactly once.", "quantifier": "all histories of the plugin and all reachable graphs as samples", "why_tests_cant": "There is no test of the visualisation; the GUI thread and the user interleave arbitrarily with new samples.", "anchors": ["viz/EnvireGraphStructureVisualization/EnvireGraphStructureVisualization.cpp: EnvireGraphStructureVisualization::initNodeList", "viz/EnvireGraphStructureVisualization/EnvireGraphStructureVisualization.cpp: EnvireGraphStructureVisualization::getNodes", "viz/EnvireGraphStructureVisualization/EnvireGraphStructureVisualization.cpp: EnvireGraphStructureVisualization::setNodes", "viz/EnvireGraphStructureVisualization/EnvireGraphStructureVisualization.cpp: EnvireGraphStructureVisualization::updateMainNode", "viz/EnvireGraphStructureVisualization/EnvireGraphStructureVisualization.cpp: EnvireGraphStructureVisualization::areSame", "viz/EnvireGraphStructureVisualization/EnvireGraphStructureVisualization.cpp: EnvireGraphStructureVisualization::updateDataIntern"]}
{"id": "C89", "title": "A drawn graph can be read back", "statement": "The dot file GraphDrawing writes for an EnvireGraph is a well-formed directed graph with one record per frame and one arrow per directed edge; a reader gets from it exactly the frames, their total item counts, their item types with the number of items of each, and the edges with their labels.", "quantifier": "all reachable graphs with items, iteration orders of the item map, names of frames and types, and edge texts", "why_tests_cant": "The tests write files that nobody parses; what is written depends on the names users choose and on vertex indices after removals.", "anchors": ["src/graph/GraphDrawing.hpp: GraphDrawing::write", "src/graph/GraphDrawing.hpp: EnvireGraphVertexWriter::operator()", "src/graph/GraphDrawing.hpp: EnvireGraphEdgeWriter::operator()", "src/items/Frame.hpp: Frame::calculateTotalItemCount", "src/util/Demangle.cpp: escapeAngleBraces"]}
{"id": "C90", "title": "An item survives saveToBinary and loadFromBinary", "statement": "Whatever a byte vector held before, loading from it after saveToBinary gives back the saved item and true if the save returned true, and no item if it returned false.", "quantifier": "all items, class registries and handles of the saving and the loading process, all earlier contents of the vector, all ways the archive splits its writes", "why_tests_cant": "Tests save a few items into new vectors; vectors that are used again and failing saves are not tried, and the buffer grows byte by byte in ways that depend on the earlier content.", "anchors": ["src/serialization/Serialization.cpp: Serialization::saveToBinary", "src/serialization/Serialization.cpp: Serialization::loadFromBinary", "src/serialization/Serialization.hpp: Serialization::save", "src/serialization/Serialization.hpp: Serialization::load", "src/serialization/BinaryBufferHelper.hpp: BinaryOutputBuffer", "src/serialization/BinaryBufferHelper.hpp: BinaryInputBuffer"]}
{"id": "C91", "title": "A graph survives saveToFile and loadFromFile", "statement": "A graph saved to a file and loaded into a new graph, in the same or another process, has the same frames, the same edges with the same properties in both directions, and in each frame the same lists of items of every type that has a handle; items of other types are dropped and nothing else is affected.", "quantifier": "all reachable graphs with items, iteration orders of the item maps, processes with their libraries and handles, item codecs that give back what they wrote", "why_tests_cant": "Tests save one or two graphs whose types are all registered and load them in the same process.", "anchors": ["src/graph/EnvireGraph.cpp: EnvireGraph::saveToFile", "src/graph/EnvireGraph.cpp: EnvireGraph::loadFromFile", "src/graph/Graph.hpp: Graph::save", "src/graph/Graph.hpp: Graph::load", "src/items/Frame.hpp: boost::serialization::save", "src/items/Frame.hpp: boost::serialization::load"]}
{"id": "C92", "title": "Libraries with item classes are loaded on demand", "statement": "An item whose type is registered by an installed library can be saved in one process and loaded in another, whatever libraries either has loaded before: missing libraries are loaded when needed. Loading a library never takes away a name or a handle that was registered before.", "quantifier": "all sets of installed libraries and their registrations, all load histories of writer and reader, all items, all reachable graphs", "why_tests_cant": "Tests link the item classes they use, so that nothing is loaded on demand, and have one library per item type.", "anchors": ["src/serialization/Serialization.cpp: Serialization::isSerializable", "src/serialization/Serialization.cpp: Serialization::loadPluginLibrary", "src/serialization/Serialization.cpp: Serialization::loadAllPluginLibraries", "src/serialization/Serialization.cpp: Serialization::registerHandle", "src/items/ItemMetadata.cpp: ItemMetadataMapping::addMapping", "src/plugin/Plugin.hpp: ENVIRE_REGISTER_ITEM", "src/plugin/ClassLoader.cpp: ClassLoader::loadEnvireItemLibrary"]}
{"id": "C93", "title": "The 2D structure widget shows the graph displayed last", "statement": "In every interleaving of the user interface and the layout thread, the behaviour is defined, no member is used by both threads at once, and when nothing is left to do the screen shows the drawing of the text given to displayGraph last. Texts are drawn in the order in which they were displayed, a pending text is taken after a bounded number of steps of the layout thread, displayGraph does not wait for a drawing, a paused widget takes at most one more text, and the destructor ends.", "quantifier": "all interleavings of the two threads, all texts, all clicks, paints and deliveries, destruction at any time", "why_tests_cant": "Tests have no user interface, and a test run shows one interleaving; races on plain flags are invisible on most hardware.", "anchors": ["viz/EnvireGraph2DStructureVisualization/EnvireGraph2DStructurWidget.cpp: EnvireGraph2DStructurWidget::layoutGraph", "viz/EnvireGraph2DStructureVisualization/EnvireGraph2DStructurWidget.cpp: EnvireGraph2DStructurWidget::displayGraph", "viz/EnvireGraph2DStructureVisualization/EnvireGraph2DStructurWidget.cpp: EnvireGraph2DStructurWidget::displaySvg", "viz/EnvireGraph2DStructureVisualization/EnvireGraph2DStructurWidget.cpp: EnvireGraph2DStructurWidget::pauseToggled", "viz/EnvireGraph2DStructureVisualization/EnvireGraph2DStructurWidget.cpp: EnvireGraph2DStructurWidget::~EnvireGraph2DStructurWidget"]}
{"id": "C94", "title": "Access objects hold the graph's lock as long as a copy of them exists", "statement": "As long as the object returned by getThreadSaveAccess or a copy of it exists, the graph is locked for the thread that asked for it, and with the last copy the lock is given back. A thread that has such an object has the graph to itself. No program with access objects has undefined behaviour or deadlocks.", "quantifier": "all numbers of threads, all programs that get, copy, reassign, use and destroy access objects, all interleavings", "why_tests_cant": "A test run shows one interleaving, and a mutex unlocked by the wrong thread goes unnoticed on common platforms.", "anchors": ["src/util/ThreadSaveEnvireGraph.hpp: ThreadSaveEnvireGraph::GraphAccess", "src/util/ThreadSaveEnvireGraph.hpp: ThreadSaveEnvireGraph::getThreadSaveAccess"]}
{"id": "C95", "title": "Items made by the name of their class", "statement": "An item made by the class loader is of the class asked for, and one made for a data type is Item of it or of the associated class; making fails only if no library provides the class. Two requests give the same object exactly if they give objects of one class marked as singleton. An item made this way knows the name of its class, can be saved, and is read back as an item of the same class by every process where the class is installed.", "quantifier": "all installations (libraries, registrations, associations, singleton flags), all load histories, all sequences of requests, all pairs of processes", "why_tests_cant": "Tests make items of two classes that are registered by ENVIRE_REGISTER_ITEM in one process, never of classes derived from Item and never with an association that differs from the class.", "anchors": ["src/plugin/ClassLoader.cpp: ClassLoader::createEnvireItem", "src/plugin/ClassLoader.cpp: ClassLoader::createEnvireItemFor", "src/plugin/ClassLoader.hpp: ClassLoader::createEnvireItem", "src/plugin/ClassLoader.hpp: ClassLoader::createCollisionObjectFor", "src/items/Item.hpp: Item::getClassName", "src/items/Item.hpp: Item::getTypeInfo", "src/serialization/Serialization.hpp: Serialization::save", "src/serialization/Serialization.hpp: Serialization::load"]}
{"id": "C96", "title": "Identifiers of items", "statement": "Two items have the same identifier exactly if one was made from the other, or both from a third, by copying and cloning: items constructed independently of each other have different identifiers, in whatever threads they are constructed.", "quantifier": "all generators that do not repeat themselves, all numbers of threads, all schedules of constructors, copies and clones, all interleavings of the generator's accesses", "why_tests_cant": "Tests compare the identifiers of a few items of one thread. That two threads draw the same identifier needs a particular interleaving inside the generator, and a later repetition needs one thread to be held up there.", "anchors": ["src/items/SpatioTemporal.hpp: SpatioTemporal::generateNewUUID", "src/items/RandomGenerator.hpp: RandomGenerator::getRandomGenerator", "src/items/Item.hpp: Item::Item", "src/items/Item.hpp: Item::clone"]}
{"id": "C97", "title": "What slots see when a view's signal is emitted", "statement": "When edgeAdded is emitted, the edge is in the tree and in the graph and its target has no children yet; when crossEdgeAdded is emitted, the entry is the last of crossEdges, its ends are in the tree and not parent and child, and it is an edge of the graph; when edgeRemoved is emitted, the target has left the tree, the origin is still in it, and both are vertices of the graph. In every case the view is a tree, and the tree is what the signals so far say. The graph is as the call leaves it; views subscribed earlier are already updated, later ones not yet. Signals come before the event of an added edge and after that of a removed one. A view for which no updates were requested never emits a signal.", "quantifier": "all reachable graphs, all views, all public calls and their outcomes, all emissions during a call, all iteration orders of child sets", "why_tests_cant": "Tests count emissions and look at the tree after the call; the state inside the call, for every shape of tree and every position of the new edge, is not looked at.", "anchors": ["src/graph/TreeView.cpp: TreeView::addEdge", "src/graph/TreeView.cpp: TreeView::addCrossEdge", "src/graph/TreeView.cpp: TreeView::removeEdge", "src/graph/TreeView.hpp: TreeView::edgeRemoved", "src/graph/Graph.hpp: Graph::addEdgeToTreeViews", "src/graph/Graph.hpp: Graph::removeEdgeFromTreeViews", "src/graph/GraphVisitors.hpp: TreeBuilderVisitor"]}
{"id": "C98", "title": "Ending and resuming a view's subscription", "statement": "After view.unsubscribe(), graph.unsubscribeTreeView(&view) or the destruction of the view, the graph holds no pointer to it and keeps all its other views in their order; a view that is not subscribed stays exactly as it is and emits nothing, whatever is called on the graph and on other views and however those calls end; and it can be subscribed again with getTree(root, true, &view), after which it follows the graph.", "quantifier": "all reachable graphs, all views, all later histories of calls including throwing ones", "why_tests_cant": "That nothing changes must hold for every later history; the tests unsubscribe a view and make one call.", "anchors": ["src/graph/TreeView.cpp: TreeView::unsubscribe", "src/graph/TreeView.cpp: TreeView::~TreeView", "src/graph/Graph.hpp: Graph::unsubscribeTreeView", "src/graph/TreeView.cpp: TreeView::setPublisher"]}
{"id": "C99", "title": "Edge descriptors in events stay valid until the removal is announced", "statement": "The descriptors an EdgeAddedEvent or EdgeModifiedEvent carries are those of the edges between the frames it names (the inverse edge: in the opposite direction), whatever is called later, until an EdgeRemovedEvent for these frames; from then on using them is undefined. Hence every event a GraphEventQueue holds or hands out in flush carries current descriptors, also if the receiver changes the graph while it processes events.", "quantifier": "all reachable graphs, all histories of calls including throwing ones, all events raised, all receivers that call the graph", "why_tests_cant": "The claim is about every later history and every moment at which a queue may be flushed; the tests flush once after a few calls and do not look at the descriptors.", "anchors": ["src/events/GraphEventQueue.cpp: GraphEventQueue::notifyGraphEvent", "src/events/GraphEventQueue.cpp: GraphEventQueue::flush", "src/events/EdgeEvents.hpp: EdgeAddedEvent", "src/graph/Graph.hpp: Graph::add_edge", "src/graph/Graph.hpp: Graph::setEdgeProperty", "src/graph/Graph.hpp: Graph::remove_edge"]}
{"id": "C100", "title": "Removing items while walking over them", "statement": "A loop over getItems<T>(frame) that removes items with removeItemFromFrame(frame, it) and goes on with the iterators it returns visits every item of the list once, removes exactly the selected ones with one ItemRemovedEvent each in the order of the list, keeps the others in order and changes nothing else; its iterators stay valid as long as no event tells of an item of that type put into or taken out of that frame.", "quantifier": "all reachable graphs, frames, types, selections; all histories between two uses of the iterators", "why_tests_cant": "The test removes all of 42 items from the front; selections that keep items, and the other calls that may be made meanwhile, are not tried.", "anchors": ["src/graph/EnvireGraph.hpp: EnvireGraph::removeItemFromFrame", "src/graph/EnvireGraph.hpp: EnvireGraph::getItemsInternal", "src/items/ItemBase.hpp: ItemBaseCaster"]}
{"id": "C101", "title": "Slots of tree views may use the graph", "statement": "Slots connected to the signals of a tree view may themselves call the graph and the views while an edge is added, removed or a tree is built: the call stays defined, the graph stays consistent, the views stay trees in step with it and the events tell what happened. Slots that only read, write contents and edge properties or use other views do not change what the call does.", "quantifier": "all programs of calls, all slots (any calls depending on view, signal and state, nested to any depth, exceptions thrown and caught), all reachable graphs, all numbers of views", "why_tests_cant": "What a slot does is arbitrary code; the tests connect slots that count or store the signals.", "anchors": ["src/graph/TreeView.hpp: TreeView::edgeAdded", "src/graph/TreeView.cpp: TreeView::addEdge", "src/graph/TreeView.cpp: TreeView::removeEdge", "src/graph/Graph.hpp: Graph::addEdgeToTreeView", "src/graph/Graph.hpp: Graph::addEdgeToTreeViews", "src/graph/Graph.hpp: Graph::removeEdgeFromTreeViews", "src/graph/Graph.hpp: Graph::breadthFirstSearch", "src/graph/GraphVisitors.hpp: TreeBuilderVisitor"]}
{"id": "C102", "title": "Assigning a graph makes an independent copy", "statement": "After a = b for two graphs, a answers every query by name as b does, all other graphs are unchanged, and from then on the graphs are independent: no call on one changes what the other answers, every call on a is defined if it is defined on a graph with the same content, also after b was destroyed, and a's events go to a's subscribers. Graphs that are only made, copied by the copy constructor, changed and destroyed are independent.", "quantifier": "all programs with any number of graphs that are made, copied, assigned, destroyed, changed by frame and edge calls, and subscribed to; all payloads", "why_tests_cant": "The sharing is invisible to queries right after the assignment; it needs a later change, destruction or event to show, and which one depends on the history.", "anchors": ["src/graph/Graph.hpp: Graph::Graph(const Graph&)", "src/graph/Graph.hpp: Graph::regenerateLabelMap", "src/graph/GraphTypes.hpp: GraphBase", "src/events/GraphEventPublisher.hpp: GraphEventPublisher", "src/events/GraphEventPublisher.cpp: GraphEventPublisher::~GraphEventPublisher", "src/events/GraphEventSubscriber.cpp: GraphEventSubscriber::~GraphEventSubscriber"]}
{"id": "C103", "title": "visitVertices visits every frame once", "statement": "visitVertices(visitor) calls the visitor exactly once for each frame of the graph and returns, or ends with the visitor's exception. This also holds if the visitor makes calls of the graph: it is called at most once for each frame, frames it removes before their turn are left out, frames it adds are visited as well, and when the visit returns every frame then in the graph was visited.", "quantifier": "all reachable graphs with views, all visitors (any memory, any calls chosen by what they find, exceptions), all numbers of rounds", "why_tests_cant": "The tests visit an empty graph and one with four frames, with visitors that only record. What happens when the visitor changes the graph depends on which frame it removes at which moment.", "anchors": ["src/graph/Graph.hpp: Graph::visitVertices", "src/graph/Graph.hpp: Graph::getVertices", "test/test_graph.cpp: visit_vertices_lambda_test"]}
{"id": "C104", "title": "visitItems visits every item of a frame once", "statement": "visitItems(frame, func) throws UnknownFrameException for an unknown frame. Otherwise it calls func once for each position of each list of items of the frame and returns, or ends with the exception of func. This also holds if func makes calls of the graph: it is called only for items that are in the frame or were added meanwhile, and when the visit returns every item then in the frame was visited unless it was added meanwhile.", "quantifier": "all reachable graphs with items, all frames, all iteration orders of the types, all visitors (any memory, any calls chosen by what they find, exceptions)", "why_tests_cant": "The tests do not call visitItems. Whether a visitor may change the graph depends on the types, the order of the unordered map and the moment of the change; most wrong uses go unnoticed when run.", "anchors": ["src/graph/EnvireGraph.hpp: EnvireGraph::visitItems", "src/items/Frame.hpp: Frame::visitItems"]}
{"id": "C105", "title": "Items are values", "statement": "Copying, cloning, moving and assigning items copies time, uuid, frame name and data, leaves callbacks with their object and touches no other object and no graph. Programs may mix these operations with calls of the graph: the graph stays consistent, and items of frames keep naming their frame and can be removed.", "quantifier": "all programs of calls of EnvireGraph and operations on items, all classes, all values, whatever moved-from strings and data hold", "why_tests_cant": "The tests copy and move single items outside of graphs; the harm of assigning to an item of a frame appears only at a later removal.", "anchors": ["src/items/Item.hpp: Item::Item", "src/items/Item.hpp: Item::operator=", "src/items/Item.hpp: Item::clone", "src/graph/EnvireGraph.cpp: EnvireGraph::removeItemFromFrame"]}
{"id": "C106", "title": "Visiting a view with functions that use the graph", "statement": "visitBfs and visitDfs with a function that calls the graph call it once for each vertex of the subtree, parents first, or end with the function's exception; the view is afterwards what the function's calls made of it, in particular still a tree in step with the graph if it was subscribed.", "quantifier": "all reachable graphs, all views, all functions (any programs of calls, any memory), all start vertices, all child iteration orders", "why_tests_cant": "The tests visit with functions that only record; harm depends on which vertex the function changes and what is still in the queue at that time.", "anchors": ["src/graph/TreeView.hpp: TreeView::visitBfs", "src/graph/TreeView.hpp: TreeView::visitDfs"]}
{"id": "C107", "title": "Renaming a frame through its property", "statement": "After graph()[v].setId(n) the frame is called n: getFrameId gives n, lookups, edges, paths and removal work with n, and the graph and its copies stay consistent.", "quantifier": "all reachable graphs, all frames, all new names, free or taken", "why_tests_cant": "The test that renames frames looks only at the copy made before; which calls use the map and which the property differs from call to call.", "anchors": ["src/items/Frame.hpp: Frame::setId", "src/graph/Graph.hpp: Graph::getFrameId", "src/graph/Graph.hpp: Graph::getVertex", "src/graph/Graph.hpp: Graph::addEdgeToTreeView", "src/graph/Graph.hpp: Graph::regenerateLabelMap"]}
{"id": "C108", "title": "The visitors keep their order", "statement": "visitBfs visits no vertex before one that is closer to the start; visitDfs visits only descendants of a vertex between it and a descendant of it. Functions that use the graph do not change the order when the view is not subscribed.", "quantifier": "all trees, all start vertices in the tree, all iteration orders of the sets of children, all functions that leave the view alone", "why_tests_cant": "The order among children is that of an unordered_set and differs between library versions; a test sees one order on one tree.", "anchors": ["src/graph/TreeView.hpp: TreeView::visitBfs", "src/graph/TreeView.hpp: TreeView::visitDfs"]}
{"id": "C109", "title": "setIdentity makes a transform the identity", "statement": "After setIdentity the transform is neutral: composing any transform with it, on either side, gives that transform, and its inverse is the identity; an edge updated with it has the identity in both directions.", "quantifier": "all transforms with any pose, covariance and time, all composition laws that act on poses as a group, all reachable graphs and edges", "why_tests_cant": "The test looks at the translation of one transform that has no time.", "anchors": ["src/items/Transform.hpp: Transform::setIdentity", "src/items/Transform.hpp: Transform::operator*", "src/items/Transform.hpp: Transform::inverse", "src/graph/TransformGraph.hpp: TransformGraph::updateTransform"]}
{"id": "C110", "title": "Transforms with time compose like transforms", "statement": "operator* is associative, inverse() reverses products and is its own inverse, a transform times its inverse is the identity with its time, and x.inverse() * (x * y) is y.", "quantifier": "all transforms and times, all groups of poses", "why_tests_cant": "The tests compose two transforms without times; the choice of the later time matters only in longer products and when undoing them.", "anchors": ["src/items/Transform.hpp: Transform::operator*", "src/items/Transform.hpp: Transform::inverse"]}
