{
 "claims": [
  {
   "property": "C01",
   "status": "proved",
   "theorems": [
    "C01_edges_in_inverse_pairs"
   ],
   "note": "All histories from the empty graph without self edges, views allowed. \"One is the inverse of the other\": inverse() need not be involutive."
  },
  {
   "property": "C02",
   "status": "proved",
   "theorems": [
    "C02_frame_names"
   ],
   "note": ""
  },
  {
   "property": "C03",
   "status": "proved",
   "theorems": [
    "C03_throwing_calls_change_nothing"
   ],
   "note": "Also says what holds with views subscribed: only XRuntime (NOT IMPLEMENTED of TreeView::removeEdge) can appear in addition."
  },
  {
   "property": "C04",
   "status": "proved",
   "theorems": [
    "C04_calls_refine_the_store",
    "C04_histories_refine_the_store",
    "C04_handle_calls",
    "C04_handle_reads",
    "C04_store_exists"
   ],
   "note": "Refinement of the abstract store in SpecStore.v."
  },
  {
   "property": "C05",
   "status": "partial",
   "theorems": [
    "C05_self_edge_behaviour",
    "C05_self_edge_like_any_other_refuted"
   ],
   "note": "False of the code: two parallel edges are stored, setEdgeProperty stores the inverse, remove_edge and disconnectFrame are undefined behaviour. Behaviour proved for all graphs and properties, refutation with a witness."
  },
  {
   "property": "C06",
   "status": "proved",
   "theorems": [
    "C06_disconnect_removes_incident_edges"
   ],
   "note": ""
  },
  {
   "property": "C07",
   "status": "proved",
   "theorems": [
    "C07_clear_empties"
   ],
   "note": "No tree view subscribed, as in the property."
  },
  {
   "property": "C08",
   "status": "proved",
   "theorems": [
    "C08_handles_stay_valid",
    "C08_vertex_handle_until_removeFrame"
   ],
   "note": ""
  },
  {
   "property": "C09",
   "status": "proved",
   "theorems": [
    "C09_getFrames_shortest"
   ],
   "note": "Every reachable state without self edges, any attached views."
  },
  {
   "property": "C10",
   "status": "proved",
   "theorems": [
    "C10_getFrames_empty"
   ],
   "note": ""
  },
  {
   "property": "C11",
   "status": "proved",
   "theorems": [
    "C11_getTransform_composes"
   ],
   "note": "any transform algebra; an UnknownTransformException is thrown exactly when there is no route or no edge at all"
  },
  {
   "property": "C12",
   "status": "proved",
   "theorems": [
    "C12_transforms_coherent"
   ],
   "note": "group laws are hypotheses; floating point and covariances are outside the model"
  },
  {
   "property": "C13",
   "status": "proved",
   "theorems": [
    "C13_forest_consistent",
    "C13_forest_coherent"
   ],
   "note": ""
  },
  {
   "property": "C14",
   "status": "partial",
   "theorems": [
    "C14_self_transform_partial",
    "C14_self_transform_refuted"
   ],
   "note": "identity whenever the graph has an edge; in a graph without edges the query throws (refuted for all such graphs)"
  },
  {
   "property": "C15",
   "status": "proved",
   "theorems": [
    "C15_query_times",
    "C15_algebra_times"
   ],
   "note": ""
  },
  {
   "property": "C16",
   "status": "proved",
   "theorems": [
    "C16_getTree_spans_component",
    "C16_getTree_unknown_root"
   ],
   "note": "For a view object that is empty before the call (the only use in the code); following child links from the root gives a shortest route."
  },
  {
   "property": "C17",
   "status": "proved",
   "theorems": [
    "C17_tree_or_cross_once"
   ],
   "note": ""
  },
  {
   "property": "C18",
   "status": "proved",
   "theorems": [
    "C18_view_follows_additions"
   ],
   "note": "All histories of calls (also on other views) whose events show no removed edge and not the removal of the root frame."
  },
  {
   "property": "C19",
   "status": "partial",
   "theorems": [
    "C19_removed_cross_edge_refuted",
    "C19_leaving_cross_edge_refuted",
    "C19_inner_cross_edges_refuted",
    "C19_view_follows_removals_partial",
    "C19_tree_edge_outcome"
   ],
   "note": "False of the code in three ways, each proved: removed cross edges stay listed, a leaving cross edge gives an exception and loses connected vertices (both for all reachable graphs and views), several inner cross edges are undefined behaviour (witness). The partial theorem covers edges outside the view, edges listed as cross edge (spanning tree kept) and bridges. C19_tree_edge_outcome gives the outcome of removing any tree edge, with the exact condition for undefined behaviour if no cross edge leaves the part below."
  },
  {
   "property": "C20",
   "status": "proved",
   "theorems": [
    "C20_bridge_removal_prunes"
   ],
   "note": "Every child iteration order; all subscribed views at once."
  },
  {
   "property": "C21",
   "status": "proved",
   "theorems": [
    "C21_view_transform",
    "C21_view_transform_self",
    "C21_view_transform_outside",
    "C21_view_transform_unknown"
   ],
   "note": "view in step with the graph (in_sync), which C16-C19 establish for getTree and updates"
  },
  {
   "property": "C22",
   "status": "proved",
   "theorems": [
    "C22_visitBfs",
    "C22_visitDfs"
   ],
   "note": "The model has fuel; the theorem shows that the size of the tree suffices."
  },
  {
   "property": "C23",
   "status": "proved",
   "theorems": [
    "C23_signals_describe_tree",
    "C23_connected_slots",
    "C23_getTree_signals"
   ],
   "note": "All histories of calls, including removals that throw, without in-sync hypothesis."
  },
  {
   "property": "C24",
   "status": "partial",
   "theorems": [
    "C24_move_subscribed_view_partial",
    "C24_move_unsubscribed_view_partial",
    "C24_copy_view",
    "C24_connections_lost_refuted",
    "C24_moved_copy_refuted"
   ],
   "note": "The move constructor does not carry over the edgeRemoved connections (tv_slots_removed is empty afterwards); everything else of the claim is proved. A moved copy of a subscribed view becomes subscribed."
  },
  {
   "property": "C25",
   "status": "partial",
   "theorems": [
    "C25_clean_path_partial",
    "C25_dirty_exactly",
    "C25_reversed_removal_refuted",
    "C25_disconnected_target_refuted"
   ],
   "note": "False of the code: removals naming the frames against the direction of the path, and disconnecting its target, go unnoticed (refuted). Proved that nothing else does."
  },
  {
   "property": "C26",
   "status": "proved",
   "theorems": [
    "C26_short_path",
    "C26_clean_path",
    "C26_dirty_path"
   ],
   "note": ""
  },
  {
   "property": "C27",
   "status": "partial",
   "theorems": [
    "C27_broken_path_partial",
    "C27_identity_after_exception_refuted"
   ],
   "note": "False of the code: after the first InvalidPath the path is empty and clean, every later query returns identity (refuted). Proved for every query before the first InvalidPath."
  },
  {
   "property": "C28",
   "status": "partial",
   "theorems": [
    "C28_events_are_a_log_partial",
    "C28_iterator_at_end_refuted",
    "C28_frame_of_item_refuted",
    "C28_emplaced_items_refuted"
   ],
   "note": "Proved for all histories without the three kinds of calls for which the claim is false of the code (refuted): iterator removal of the last of several items, removeItemFromFrame(item->getFrame(), it), emplaceFrame with a frame that has items."
  },
  {
   "property": "C29",
   "status": "proved",
   "theorems": [
    "C29_publish_describes_graph"
   ],
   "note": ""
  },
  {
   "property": "C30",
   "status": "proved",
   "theorems": [
    "C30_unpublish_empties_replica"
   ],
   "note": ""
  },
  {
   "property": "C31",
   "status": "proved",
   "theorems": [
    "C31_notify_calls_everybody_once",
    "C31_disabled_delivers_nothing",
    "C31_histories_served",
    "C31_switched_off",
    "C31_switched_on"
   ],
   "note": "From every publisher state; handlers with arbitrary state that may subscribe and unsubscribe anybody. The history theorem derives the receivers from the requests alone."
  },
  {
   "property": "C32",
   "status": "partial",
   "theorems": [
    "C32_requests_take_effect_partial",
    "C32_histories_partial",
    "C32_subscribe_again_refuted",
    "C32_histories_refuted",
    "C32_same_event_refuted"
   ],
   "note": "False of the code: toBeUnsubscribed is never emptied, so a later re-subscription is dropped after one event (proved for all states); proved for all histories without such a re-subscription."
  },
  {
   "property": "C33",
   "status": "partial",
   "theorems": [
    "C33_nested_events_partial",
    "C33_undefined_behaviour_refuted",
    "C33_missed_event_refuted",
    "C33_reallocation_refuted"
   ],
   "note": "False of the code when a handler changes subscriptions and then causes an event (undefined behaviour or a missed event, witnesses); proved for handlers that only cause events, at any nesting depth."
  },
  {
   "property": "C34",
   "status": "partial",
   "theorems": [
    "C34_destroy_partial",
    "C34_destroy_refuted",
    "C34_subscribers_point"
   ],
   "note": "False of the code for every list of distinct subscribers that point to the publisher: exact outcome per parity proved. Holds for subscribers without a pointer."
  },
  {
   "property": "C35",
   "status": "partial",
   "theorems": [
    "C35_frames_net_effect",
    "C35_net_effect_partial",
    "C35_edge_removed_twice_refuted"
   ],
   "note": "False of the code for edges known before the window that are removed, added and removed again: the queue drops all three events (refuted for all streams with that pattern). Frames are right for all consistent streams; edges and items for all streams without that pattern and without item events of frames that live within the window."
  },
  {
   "property": "C36",
   "status": "proved",
   "theorems": [
    "C36_subsequence",
    "C36_flush_delivers_the_queue",
    "C36_one_modification",
    "C36_latest_modification",
    "C36_added_and_removed"
   ],
   "note": "flush with a receiver that does not change the graph; for others see C68."
  },
  {
   "property": "C37",
   "status": "partial",
   "theorems": [
    "C37_applicable_partial",
    "C37_item_events_refuted"
   ],
   "note": "False of the code: item events of a frame added and removed within the window stay in the queue (refuted for all replicas and items)."
  },
  {
   "property": "C38",
   "status": "proved",
   "theorems": [
    "C38_withheld",
    "C38_forwarded_again"
   ],
   "note": "From any dispatcher state (also with entries awaited before), both constructors. The event that completes the wait is itself not forwarded. After the wait callbacks that make no calls on the dispatcher."
  },
  {
   "property": "C39",
   "status": "partial",
   "theorems": [
    "C39_enabled_calls_all",
    "C39_registered",
    "C39_disabled_calls_none",
    "C39_stays_disabled_partial",
    "C39_no_undefined_behaviour_partial",
    "C39_default_constructed_refuted"
   ],
   "note": "False of the default constructor, which leaves isWaitingForFrame uninitialised (refuted for every event); everything else proved for callbacks that may enable, disable, wait and register."
  },
  {
   "property": "C40",
   "status": "partial",
   "theorems": [
    "C40_exactly_its_items_partial",
    "C40_derived_items_refuted"
   ],
   "note": "Exact for T = Item<D>. False for classes derived from Item<D> such as SpatialItem<D>, which do not override getTypeInfo: nothing is ever delivered."
  },
  {
   "property": "C41",
   "status": "proved",
   "theorems": [
    "C41_lists_typed",
    "C41_queries_agree",
    "C41_queries_unknown_frame"
   ],
   "note": "Also covers histories with removals by iterator."
  },
  {
   "property": "C42",
   "status": "partial",
   "theorems": [
    "C42_add",
    "C42_add_unknown_frame",
    "C42_add_own_frame",
    "C42_remove",
    "C42_remove_throws_partial",
    "C42_documented_exception_refuted"
   ],
   "note": "Everything but one documented exception: an item missing from a frame without items of its type gives NoItemsOfTypeInFrameException instead of UnknownItemException (refuted)."
  },
  {
   "property": "C43",
   "status": "partial",
   "theorems": [
    "C43_remove_by_iterator_partial",
    "C43_remove_last_by_iterator_refuted"
   ],
   "note": "False of the code for the last position of a list with at least two items (refuted for all such lists); proved for all other positions."
  },
  {
   "property": "C44",
   "status": "partial",
   "theorems": [
    "C44_failed_remove_frame_partial",
    "C44_failed_remove_frame_refuted",
    "C44_remove_frame_ok"
   ],
   "note": "False of the code for connected frames with items (refuted for all such frames); proved for all other failures."
  },
  {
   "property": "C45",
   "status": "partial",
   "theorems": [
    "C45_items_know_frame_partial",
    "C45_cleared_item_keeps_frame_refuted",
    "C45_item_in_two_frames_refuted",
    "C45_copies_share_items_refuted"
   ],
   "note": "Proved for histories on one graph that add only items in no frame; false after clearFrame, after adding an item twice and with copied graphs (refuted)."
  },
  {
   "property": "C46",
   "status": "partial",
   "theorems": [
    "C46_filtered_copy_partial",
    "C46_defined_like_copy"
   ],
   "note": "All filters and modes; partial because the copy itself is undefined behaviour after frames were removed (C47)."
  },
  {
   "property": "C47",
   "status": "partial",
   "theorems": [
    "C47_copy_equal_partial",
    "C47_copy_behaves_alike_partial",
    "C47_copy_defined_partial",
    "C47_plain_copy_defined_partial",
    "C47_copy_defined_iff",
    "C47_plain_copy_defined_iff",
    "C47_copied_copy_defined_iff",
    "C47_graphs_independent",
    "C47_copy_after_removal_refuted"
   ],
   "note": "False of the code for graphs from which a frame was removed: undefined behaviour (refuted). Proved for all defined copies, and exactly when a copy is defined (removed frames were all added after the remaining ones)."
  },
  {
   "property": "C48",
   "status": "proved",
   "theorems": [
    "C48_structural_copy"
   ],
   "note": ""
  },
  {
   "property": "C49",
   "status": "proved",
   "theorems": [
    "C49_get_item"
   ],
   "note": ""
  },
  {
   "property": "C50",
   "status": "proved",
   "theorems": [
    "C50_items_round_trip",
    "C50_exactly_registered",
    "C50_saving_succeeds"
   ],
   "note": "Codecs, metadata, handles and plugin loading are an arbitrary environment with a round-trip hypothesis; both size encodings."
  },
  {
   "property": "C51",
   "status": "partial",
   "theorems": [
    "C51_last_type_dropped_partial",
    "C51_payload_left_refuted",
    "C51_others_lost_refuted"
   ],
   "note": "False in general: the bytes of an item without a handle are not skipped. Proved where nothing follows them."
  },
  {
   "property": "C52",
   "status": "proved",
   "theorems": [
    "C52_written",
    "C52_read",
    "C52_read_back",
    "C52_same_pieces",
    "C52_read_mixed",
    "C52_round_trip"
   ],
   "note": "std::streambuf (sputc, xsputn, sgetn) is modelled after libstdc++."
  },
  {
   "property": "C53",
   "status": "partial",
   "theorems": [
    "C53_replaced_partial",
    "C53_stale_tail_refuted"
   ],
   "note": "False of the code: the vector is overwritten from its beginning and never shortened (refuted for every longer previous content)."
  },
  {
   "property": "C54",
   "status": "partial",
   "theorems": [
    "C54_loaded_graph_partial",
    "C54_saved_frames_found_partial",
    "C54_old_names_stay_refuted"
   ],
   "note": "False in general: names of the destination stay in the label map. Proved for destinations without other names."
  },
  {
   "property": "C55",
   "status": "partial",
   "theorems": [
    "C55_extend_smallest_partial",
    "C55_extend_point_smallest_partial",
    "C55_extend_intersection_refuted",
    "C55_contains_point_exact",
    "C55_contains_box_exact",
    "C55_intersection_exact"
   ],
   "note": "Everything proved except that extend is not smallest on an empty box produced by intersection (refuted with a witness). Coordinates are rationals, which include all finite doubles."
  },
  {
   "property": "C56",
   "status": "partial",
   "theorems": [
    "C56_common_point_intersects_partial",
    "C56_intersects_refuted"
   ],
   "note": "False of the code: intersects ignores the computed intersection and tests the argument for emptiness; refuted for every pair of disjoint boxes."
  },
  {
   "property": "C57",
   "status": "proved",
   "theorems": [
    "C57_turns_in_order",
    "C57_owner_unlocks",
    "C57_access_is_exclusive",
    "C57_no_deadlock"
   ],
   "note": "For users that unlock only what they locked and use containsEdge and the graph itself only under the lock; what the graph does is arbitrary, cut into accesses in any way."
  },
  {
   "property": "C58",
   "status": "partial",
   "theorems": [
    "C58_locked_value_partial",
    "C58_race_refuted"
   ],
   "note": "False: containsEdge takes no lock. Proved for callers that lock."
  },
  {
   "property": "C59",
   "status": "proved",
   "theorems": [
    "C59_one_graph_per_name",
    "C59_every_call_returns"
   ],
   "note": "Sequential calls."
  },
  {
   "property": "C60",
   "status": "partial",
   "theorems": [
    "C60_all_attempted_partial",
    "C60_result_inverted_refuted"
   ],
   "note": "False of the code: the result is inverted (refuted for all outcomes); every library is attempted once in order."
  },
  {
   "property": "C61",
   "status": "proved",
   "theorems": [
    "C61_escape",
    "C61_injective"
   ],
   "note": ""
  },
  {
   "property": "C62",
   "status": "proved",
   "theorems": [
    "C62_copy",
    "C62_assign",
    "C62_clone",
    "C62_independent",
    "C62_modification",
    "C62_modification_possible"
   ],
   "note": "Boundaries of spatial items are C69."
  },
  {
   "property": "C63",
   "status": "proved",
   "theorems": [
    "C63_connected",
    "C63_all_called",
    "C63_only_connected",
    "C63_disconnected_not_called"
   ],
   "note": "boost::signals2 semantics is part of the trusted base; callbacks may connect and disconnect during the emission."
  },
  {
   "property": "C64",
   "status": "proved",
   "theorems": [
    "C64_contains",
    "C64_get",
    "C64_last_registered",
    "C64_class_name"
   ],
   "note": "The type of an item is the one it reports (getTypeIndex); for classes derived from Item<D> that is Item<D>."
  },
  {
   "property": "C65",
   "status": "proved",
   "theorems": [
    "C65_distance_is_minimal",
    "C65_point_distance_is_minimal"
   ],
   "note": "Squared distances in exact arithmetic; the square root and rounding are not modelled."
  },
  {
   "property": "C66",
   "status": "proved",
   "theorems": [
    "C66_center"
   ],
   "note": "Exact arithmetic."
  },
  {
   "property": "C67",
   "status": "partial",
   "theorems": [
    "C67_boundary_checked_partial",
    "C67_other_boundary_refuted"
   ],
   "note": "False of the code: the boundary of the other item is dereferenced unchecked (refuted for every own boundary)."
  },
  {
   "property": "C68",
   "status": "partial",
   "theorems": [
    "C68_flush_reentrant_partial",
    "C68_flush_reentrant_refuted"
   ],
   "note": "False of the code: an event superseding the one being processed erases the list element under the iterator of flush."
  },
  {
   "property": "C69",
   "status": "partial",
   "theorems": [
    "C69_copy_boundary_partial",
    "C69_copy_shares_boundary_refuted",
    "C69_clone_slices_refuted"
   ],
   "note": "False of the code: copies share the boundary object and clones lose boundary and class (refuted for all items)."
  },
  {
   "property": "C70",
   "status": "proved",
   "theorems": [
    "C70_fixed_path",
    "C70_new_path"
   ],
   "note": ""
  },
  {
   "property": "C71",
   "status": "partial",
   "theorems": [
    "C71_typed_load_partial",
    "C71_true_without_item_refuted"
   ],
   "note": "False in general: true is returned with a null pointer after a failed cast."
  },
  {
   "property": "C72",
   "status": "proved",
   "theorems": [
    "C72_item_round_trip",
    "C72_serializable_iff_saved"
   ],
   "note": ""
  },
  {
   "property": "C73",
   "status": "partial",
   "theorems": [
    "C73_created_before_partial",
    "C73_two_graphs_refuted"
   ],
   "note": "False: getInstance takes no lock. Proved for graphs created before the threads start."
  },
  {
   "property": "C74",
   "status": "proved",
   "theorems": [
    "C74_getTree_by_value",
    "C74_unknown_root"
   ],
   "note": ""
  },
  {
   "property": "C75",
   "status": "partial",
   "theorems": [
    "C75_assignment",
    "C75_no_dangling_view_partial",
    "C75_assigned_view_follows",
    "C75_dangling_view_refuted",
    "C75_assigned_view_not_subscribed"
   ],
   "note": "False: a subscribed view assigned from one without publisher and then destroyed stays in subscribedTreeViews. Exact condition proved."
  },
  {
   "property": "C76",
   "status": "partial",
   "theorems": [
    "C76_clear_and_getTree",
    "C76_has_root",
    "C76_getTree_does_not_clear_refuted",
    "C76_rebuildTreeViews_refuted",
    "C76_rebuildTreeViews_partial"
   ],
   "note": "False: rebuildTreeViews searches from the null vertex because clear resets the root; getTree does not clear. Clearing and getTree by hand is proved."
  },
  {
   "property": "C77",
   "status": "partial",
   "theorems": [
    "C77_destruction_order_partial"
   ],
   "note": "False: a view with a publisher must not outlive the graph. Exact condition proved."
  },
  {
   "property": "C78",
   "status": "partial",
   "theorems": [
    "C78_without_handlers",
    "C78_handled_after_the_call_partial",
    "C78_removal_refuted",
    "C78_frame_announced_twice_refuted"
   ],
   "note": "False for removal: EdgeRemoved is announced between the two removals. Proved for the calls with one event and any handler."
  },
  {
   "property": "C79",
   "status": "partial",
   "theorems": [
    "C79_edges_paired_partial",
    "C79_throwing_handler_refuted"
   ],
   "note": "False for EdgeRemoved. Proved when the handler of EdgeRemoved does nothing."
  },
  {
   "property": "C80",
   "status": "partial",
   "theorems": [
    "C80_reachable_partial",
    "C80_program_partial",
    "C80_edge_put_back_refuted"
   ],
   "note": "False for EdgeRemoved. Proved for any nesting of handlers when the handler of EdgeRemoved does nothing."
  },
  {
   "property": "C81",
   "status": "partial",
   "theorems": [
    "C81_update",
    "C81_read_partial",
    "C81_read_time_refuted"
   ],
   "note": "updateTransform(edge) equals updateTransform(names); getTransform(edge) gives the same transform but always the null time."
  },
  {
   "property": "C82",
   "status": "partial",
   "theorems": [
    "C82_queue_keeps_up_partial",
    "C82_edge_removed_twice_refuted"
   ],
   "note": "Holds for windows of calls that C28 and C35 cover; false for edges removed twice between flushes."
  },
  {
   "property": "C83",
   "status": "partial",
   "theorems": [
    "C83_typed_items_partial"
   ],
   "note": "Holds for calls that C28 covers and dispatchers of Item<T> itself; derived classes receive nothing (C40_derived_items_refuted)."
  },
  {
   "property": "C84",
   "status": "partial",
   "theorems": [
    "C84_knows_its_graph_partial",
    "C84_move_possible",
    "C84_switched_off",
    "C84_default_move_refuted",
    "C84_unsubscribe_refuted",
    "C84_late_move_refuted",
    "C84_switched_off_refuted",
    "C84_twice_refuted"
   ],
   "note": "Proved for any program whose moves ask for the current state; false for the default argument, unsubscribe, enableEvents(false) and double subscription."
  },
  {
   "property": "C85",
   "status": "partial",
   "theorems": [
    "C85_add_item_to_frame",
    "C85_add_item",
    "C85_remove_item",
    "C85_remove_by_iterator_partial",
    "C85_remove_by_iterator_refuted",
    "C85_without_handlers"
   ],
   "note": "Proved for all handlers of addItem, addItemToFrame and removeItemFromFrame(item). False for removal through an iterator: handlers run before the map entry is erased, a handler that throws leaves a type with an empty list; for handlers that leave the items of the frame alone and return, the items end as without handlers."
  },
  {
   "property": "C86",
   "status": "partial",
   "theorems": [
    "C86_clear_frame_returns_partial",
    "C86_clear_frame_throws_partial",
    "C86_clear_frame_defined_partial",
    "C86_unknown_frame",
    "C86_handler_writes_refuted",
    "C86_interrupted_refuted"
   ],
   "note": "Proved for handlers that may do and throw anything but write the items of the frame being cleared. Such a write is undefined behaviour (invalid iterators), for every frame with an item; an exception can leave a type with an empty list."
  },
  {
   "property": "C87",
   "status": "partial",
   "theorems": [
    "C87_shows_component_partial",
    "C87_other_roots",
    "C87_root_alone_refuted",
    "C87_self_edge_refuted"
   ],
   "note": "Proved for every graph without self edges and every root with a neighbour; a root without neighbours is not drawn, a self edge at the root can fail the assertion."
  },
  {
   "property": "C88",
   "status": "partial",
   "theorems": [
    "C88_sample",
    "C88_redraw",
    "C88_roots_on_offer_partial",
    "C88_old_selection_refuted"
   ],
   "note": "Proved for histories in which the user selects frames of the last sample; false for selections from an older list."
  },
  {
   "property": "C89",
   "status": "partial",
   "theorems": [
    "C89_drawing_read_back_partial",
    "C89_sketch_read_back_partial",
    "C89_same_drawing_refuted",
    "C89_quote_refuted"
   ],
   "note": "Proved for names of frames without characters that have a meaning in record labels; names are written unescaped, so two different graphs can have the same drawing and a quote breaks the file."
  },
  {
   "property": "C90",
   "status": "partial",
   "theorems": [
    "C90_item_round_trip_partial",
    "C90_serializable_saved",
    "C90_failed_save_partial",
    "C90_old_item_refuted"
   ],
   "note": "Proved for every save that returns true, whatever the vector held, and for failed saves into an empty vector (an exception on loading). False for a failed save into a vector that is used again: the item saved before is loaded."
  },
  {
   "property": "C91",
   "status": "partial",
   "theorems": [
    "C91_file_round_trip_partial",
    "C91_saving_succeeds",
    "C91_frame_lost_refuted"
   ],
   "note": "Proved for processes that have the handles of the saved types and destinations without other frames. False if a handle is missing: frames are lost and made up. State of the graph after an exception is not modelled."
  },
  {
   "property": "C92",
   "status": "partial",
   "theorems": [
    "C92_libraries_add_partial",
    "C92_handles_stay",
    "C92_serializable_partial",
    "C92_unnamed_never",
    "C92_item_on_demand_partial",
    "C92_item_arrives_partial",
    "C92_graph_arrives_partial",
    "C92_name_changes_refuted"
   ],
   "note": "Proved if no type is registered under two names by the libraries installed where the writer runs; false otherwise. What the plugin manager knows (classes, libraries) does not change while the process runs."
  },
  {
   "property": "C93",
   "status": "partial",
   "theorems": [
    "C93_last_shown_partial",
    "C93_in_order",
    "C93_arrives_partial",
    "C93_no_starvation",
    "C93_no_wait",
    "C93_paused",
    "C93_box",
    "C93_destroyed",
    "C93_gone",
    "C93_defined_partial",
    "C93_renderers",
    "C93_graphs_defined_partial",
    "C93_accesses",
    "C93_text_not_raced",
    "C93_flags_raced_refuted",
    "C93_unreadable_refuted",
    "C93_leak_refuted"
   ],
   "note": "Proved for all interleavings with sequentially consistent memory, and without undefined behaviour for texts Graphviz reads. False otherwise: the three flags are raced, and a text that cannot be read crashes the layout thread."
  },
  {
   "property": "C94",
   "status": "partial",
   "theorems": [
    "C94_held",
    "C94_free",
    "C94_defined_partial",
    "C94_exclusive_partial",
    "C94_others_wait_partial",
    "C94_no_deadlock_partial",
    "C94_wrong_thread_refuted",
    "C94_shared_copy_raced_refuted"
   ],
   "note": "That objects hold the lock is proved for all programs; exclusion, definedness and progress for programs whose threads keep their objects to themselves. False otherwise: copies given to other threads race and may unlock in the wrong thread. The pointer returned by getGraphPtr is only used while its object exists."
  },
  {
   "property": "C95",
   "status": "partial",
   "theorems": [
    "C95_created",
    "C95_created_for",
    "C95_created_as",
    "C95_own_object",
    "C95_travels_partial",
    "C95_arrives",
    "C95_derived_never_arrives_refuted",
    "C95_derived_lost_refuted",
    "C95_unnamed_refuted",
    "C95_plain_throws_refuted",
    "C95_collision_refuted"
   ],
   "note": "Making items is proved for all installations and histories. Saving and reading elsewhere is proved for classes registered by ENVIRE_REGISTER_ITEM if no type has two names; false for classes derived from Item, which are saved under the name of Item of their data. The plugin manager is modelled by what it is documented to do."
  },
  {
   "property": "C96",
   "status": "partial",
   "theorems": [
    "C96_in_turns_partial",
    "C96_one_thread",
    "C96_thread_generator",
    "C96_same_id_refuted",
    "C96_set_back_refuted"
   ],
   "note": "Proved for schedules in which no thread begins to draw from a generator another one is drawing from, in particular for one thread, and for all schedules if every thread had its own generator. False otherwise: the generator of the process is used without a lock. A generator is read and written as a whole; in C++ the overlap is a data race."
  },
  {
   "property": "C97",
   "status": "partial",
   "theorems": [
    "C97_same_calls",
    "C97_hears",
    "C97_contract_partial",
    "C97_removal",
    "C97_others",
    "C97_order",
    "C97_where",
    "C97_not_updating_refuted"
   ],
   "note": "The promises are proved for views in step with the graph and for views being filled; for removals for every view that is a tree of vertices of the graph. That a view without updates never emits is false. Slots only read."
  },
  {
   "property": "C98",
   "status": "partial",
   "theorems": [
    "C98_unsubscribe",
    "C98_destroy",
    "C98_unsubscribed_view_frozen",
    "C98_resume",
    "C98_resume_after_unsubscribeTreeView_refuted",
    "C98_slots"
   ],
   "note": "After graph.unsubscribeTreeView the view cannot be subscribed again: it still holds its publisher, and setPublisher asserts that there is none."
  },
  {
   "property": "C99",
   "status": "proved",
   "theorems": [
    "C99_until_removed",
    "C99_until_removed_items",
    "C99_queue_current",
    "C99_flush_current"
   ],
   "note": "Histories without calls that connect a frame to itself. Edge descriptors are numbers that are never used twice; on a real heap a dangling one may alias a later edge."
  },
  {
   "property": "C100",
   "status": "partial",
   "theorems": [
    "C100_remove_all",
    "C100_remove_selected_partial",
    "C100_remove_last_refuted",
    "C100_compare_refuted",
    "C100_iterators_stay_valid"
   ],
   "note": "Proved for removing everything and for selections without the last item; if the last item is selected the items to be kept are lost. For the two positive theorems iterators into the destroyed vector are taken to compare by position."
  },
  {
   "property": "C101",
   "status": "partial",
   "theorems": [
    "C101_graph_sound_partial",
    "C101_considerate_partial",
    "C101_readers_partial",
    "C101_set_property_slots",
    "C101_subscriptions_refuted",
    "C101_throw_refuted",
    "C101_added_in_slot_refuted",
    "C101_removed_in_slot_refuted",
    "C101_reader_program"
   ],
   "note": "The graph itself stays sound for all slots unless the behaviour is undefined, and slots that leave frames, edges, subscriptions and the views concerned alone do not change a call. False otherwise: changing subscriptions is undefined, exceptions leave half a call, edges added or removed in slots break views and events. The slots of one signal are one function."
  },
  {
   "property": "C102",
   "status": "partial",
   "theorems": [
    "C102_separate",
    "C102_independent",
    "C102_copy",
    "C102_content_partial",
    "C102_self",
    "C102_exact",
    "C102_shared_refuted",
    "C102_change_refuted",
    "C102_dangling_refuted",
    "C102_told",
    "C102_told_all",
    "C102_told_refuted",
    "C102_subscribers_refuted"
   ],
   "note": "Graphs that are only made, copied, changed and destroyed are independent. Right after a = b the answers agree; independence after it is false in every respect (the names of a lead into b, the subscribers are shared) unless b has no frame."
  },
  {
   "property": "C103",
   "status": "partial",
   "theorems": [
    "C103_reads",
    "C103_each",
    "C103_complete",
    "C103_defined",
    "C103_ends",
    "C103_calls",
    "C103_endless_refuted",
    "C103_current_refuted"
   ],
   "note": "At most once for each frame and complete for all visitors, exactly once in order for visitors that neither add nor remove frames; defined and finite for visitors that keep the frame they are called for and add none. False otherwise: removing the visited frame is undefined, adding a frame each time never ends. Visitors do not connect a frame to itself."
  },
  {
   "property": "C104",
   "status": "partial",
   "theorems": [
    "C104_reads",
    "C104_unknown",
    "C104_each",
    "C104_complete",
    "C104_defined",
    "C104_calls",
    "C104_remove_refuted",
    "C104_add_refuted"
   ],
   "note": "Exactly once in order for visitors that make no calls or only calls about other frames; sound and complete for all visitors when the visit returns; defined for visitors that keep the frame and the list in turn and bring no new type. False otherwise: removing the visited item or adding one of its type is undefined, for every frame with an item."
  },
  {
   "property": "C105",
   "status": "partial",
   "theorems": [
    "C105_copy",
    "C105_clone",
    "C105_assign",
    "C105_move",
    "C105_move_assign",
    "C105_reachable",
    "C105_frame",
    "C105_assigned_refuted",
    "C105_moved_refuted"
   ],
   "note": "Each operation exactly; every program leaves a reachable graph; frame names stay right if stored items are neither assigned to nor moved from. Otherwise false: such an item stays in its frame and its removal throws."
  },
  {
   "property": "C106",
   "status": "partial",
   "theorems": [
    "C106_bfs_detached",
    "C106_dfs_detached",
    "C106_unknown",
    "C106_bfs_still",
    "C106_dfs_still",
    "C106_bfs_growing",
    "C106_bfs_removed_refuted",
    "C106_dfs_removed_refuted",
    "C106_bfs_queued_refuted"
   ],
   "note": "Holds for views that are not subscribed, whatever the function does to the graph; for subscribed views whose tree the function leaves alone; and, for visitBfs, for subscribed views in step if the function only adds. False for functions that remove vertices from the view they visit: visitBfs puts the vertex back as a stray entry or throws, visitDfs is undefined."
  },
  {
   "property": "C107",
   "status": "partial",
   "theorems": [
    "C107_names",
    "C107_back",
    "C107_edges",
    "C107_paths",
    "C107_remove",
    "C107_copy",
    "C107_unknown_refuted",
    "C107_clash_refuted",
    "C107_edge_refuted"
   ],
   "note": "What a renamed frame does to every lookup, to paths, removal and copies, exactly; a copy knows the frame by the new name. The graph itself does not (false for every new name): the name it gives is unknown to it; a name that is taken leaves copies with a frame nobody can reach; adding an edge to a subscribed view throws half way."
  },
  {
   "property": "C108",
   "status": "proved",
   "theorems": [
    "C108_bfs",
    "C108_dfs",
    "C108_bfs_program",
    "C108_dfs_program"
   ],
   "note": "order of the calls of visitBfs and visitDfs; the last two for functions that use the graph, on a view that is not subscribed"
  },
  {
   "property": "C109",
   "status": "partial",
   "theorems": [
    "C109_pose",
    "C109_keeps",
    "C109_neutral",
    "C109_edge",
    "C109_path",
    "C109_time_refuted",
    "C109_covariance_refuted"
   ],
   "note": "The pose becomes the identity. The whole claim fails: the old time and covariance stay."
  },
  {
   "property": "C110",
   "status": "partial",
   "theorems": [
    "C110_associative",
    "C110_inverse",
    "C110_cancel",
    "C110_unit",
    "C110_undo_partial",
    "C110_undo_refuted"
   ],
   "note": "All parts but the last, which fails for the time when the other factor is older; what holds instead is proved."
  }
 ]
}