{
 "claims": [
  {
   "property": "C01",
   "status": "proved",
   "theorems": [
    "C01_parent_child_agreement"
   ],
   "note": "Invariant over all histories. Excluded call shapes (History.v, allowed) are each shown to break it elsewhere (C10, C11, C12, C15)."
  },
  {
   "property": "C02",
   "status": "proved",
   "theorems": [
    "C02_lookup_by_simple_name"
   ],
   "note": "For ConceptualItems, the classes that have the method. Excluded call shapes (History.v, allowed) are each shown to break it elsewhere (C10, C11, C12, C15)."
  },
  {
   "property": "C03",
   "status": "proved",
   "theorems": [
    "C03_cnt_subelements"
   ],
   "note": "Excluded call shapes (History.v, allowed) are each shown to break it elsewhere (C10, C11, C12, C15)."
  },
  {
   "property": "C04",
   "status": "proved",
   "theorems": [
    "C04_cids_increase",
    "C04_cids_never_reused"
   ],
   "note": "Excluded call shapes (History.v, allowed) are each shown to break it elsewhere (C10, C11, C12, C15)."
  },
  {
   "property": "C05",
   "status": "proved",
   "theorems": [
    "C05_add_refreshes_names",
    "C05_names_are_paths_without_removal"
   ],
   "note": ""
  },
  {
   "property": "C06",
   "status": "proved",
   "theorems": [
    "C06_stale_names_refuted"
   ],
   "note": "The expectation (names always are paths) is refuted in general: for every removal of an element with descendants."
  },
  {
   "property": "C07",
   "status": "proved",
   "theorems": [
    "C07_self_rejected",
    "C07_duplicate_rejected"
   ],
   "note": "In every state, reachable or not."
  },
  {
   "property": "C08",
   "status": "proved",
   "theorems": [
    "C08_move"
   ],
   "note": "Adding a hypergraph element to a relation also creates a port (see the hypotheses); that case is C17's."
  },
  {
   "property": "C09",
   "status": "proved",
   "theorems": [
    "C09_remove",
    "C09_nothing_to_remove",
    "C09_no_argument"
   ],
   "note": "KeyError is raised iff the name table has no entry for the name."
  },
  {
   "property": "C10",
   "status": "proved",
   "theorems": [
    "C10_ancestor_not_rejected_refuted"
   ],
   "note": "Refuted in general: for every ancestor/descendant pair with a new uuid the cycle is created."
  },
  {
   "property": "C11",
   "status": "proved",
   "theorems": [
    "C11_mismatched_name_not_atomic"
   ],
   "note": ""
  },
  {
   "property": "C12",
   "status": "proved",
   "theorems": [
    "C12_lazy",
    "C12_abandoned_removal"
   ],
   "note": "Every stopping point j of the generator."
  },
  {
   "property": "C13",
   "status": "proved",
   "theorems": [
    "C13_depth_leaf_growth",
    "C13_depth_after_move_refuted"
   ],
   "note": "The positive half over all leaf-growing histories, the negative half for every move of a subtree."
  },
  {
   "property": "C14",
   "status": "proved",
   "theorems": [
    "C14_path_lookup",
    "C14_children_known",
    "C14_known_forever"
   ],
   "note": ""
  },
  {
   "property": "C15",
   "status": "proved",
   "theorems": [
    "C15_edge_removal_never_yields",
    "C15_edge_removal_raises",
    "C15_move_out_of_edge_raises"
   ],
   "note": ""
  },
  {
   "property": "C16",
   "status": "proved",
   "theorems": [
    "C16_disconnect_keeps_structure",
    "C16_port_stays_refuted"
   ],
   "note": ""
  },
  {
   "property": "C17",
   "status": "proved",
   "theorems": [
    "C17_unary_connect"
   ],
   "note": ""
  },
  {
   "property": "C18",
   "status": "proved",
   "theorems": [
    "C18_failed_unary_connect",
    "C18_same_name_never_again"
   ],
   "note": ""
  },
  {
   "property": "C19",
   "status": "proved",
   "theorems": [
    "C19_incoming_outgoing",
    "C19_incidence"
   ],
   "note": ""
  },
  {
   "property": "C20",
   "status": "proved",
   "theorems": [
    "C20_timestamps",
    "C20_no_clock"
   ],
   "note": ""
  },
  {
   "property": "C21",
   "status": "proved",
   "theorems": [
    "C21_uid_injective",
    "C21_node_uuids",
    "C21_across_factories_refuted"
   ],
   "note": "The hash is an arbitrary function; injectivity is a hypothesis where needed. The expectation across factories is refuted for all names."
  },
  {
   "property": "C22",
   "status": "proved",
   "theorems": [
    "C22_list_nodes",
    "C22_repeated_name"
   ],
   "note": "For parents that are not relations (a relation also makes ports). Collision-freeness is only needed on the texts hashed by the call."
  },
  {
   "property": "C23",
   "status": "proved",
   "theorems": [
    "C23_connect_nodes",
    "C23_insufficient_values",
    "C23_connect_nodes_succeeds"
   ],
   "note": ""
  },
  {
   "property": "C24",
   "status": "proved",
   "theorems": [
    "C24_second_direction_ignored_refuted",
    "C24_dir_edges_no_outgoing_refuted"
   ],
   "note": "Refuted in general: for every successful call."
  },
  {
   "property": "C25",
   "status": "proved",
   "theorems": [
    "C25_uuid",
    "C25_containers_differ_refuted",
    "C25_second_call_raises"
   ],
   "note": "Refuted in general."
  },
  {
   "property": "C26",
   "status": "proved",
   "theorems": [
    "C26_breadth_first"
   ],
   "note": "For every recursion limit that the number of visited elements respects (see C55). Visitors do not modify the graph."
  },
  {
   "property": "C27",
   "status": "proved",
   "theorems": [
    "C27_depth_first"
   ],
   "note": "As C26."
  },
  {
   "property": "C28",
   "status": "proved",
   "theorems": [
    "C28_depth_limited"
   ],
   "note": "As C26; the last clause relates the limited to the unlimited order."
  },
  {
   "property": "C29",
   "status": "proved",
   "theorems": [
    "C29_completed",
    "C29_sessions",
    "C29_leftover",
    "C29_isolation_refuted",
    "C29_next_order"
   ],
   "note": "Isolation is refuted in general; the left-over queue is given exactly."
  },
  {
   "property": "C55",
   "status": "proved",
   "theorems": [
    "C55_recursion_limit"
   ],
   "note": "The limit is a parameter of the model; the error is raised at the nested call of _traverse."
  },
  {
   "property": "C30",
   "status": "proved",
   "theorems": [
    "C30_indices_follow_order",
    "C30_bijective",
    "C30_direct_children",
    "C30_equal_uuids_refuted",
    "C30_deep_refuted"
   ],
   "note": "Refuted for depth > 1: C30_deep_refuted exhibits a reachable state, C30_equal_uuids_refuted is general."
  },
  {
   "property": "C31",
   "status": "proved",
   "theorems": [
    "C31_forgets_the_past",
    "C31_run_after_run",
    "C31_from_pairs"
   ],
   "note": "A run that raised RecursionError before can leak through the shared queue (C55)."
  },
  {
   "property": "C32",
   "status": "proved",
   "theorems": [
    "C32_succeeds",
    "C32_indices",
    "C32_entries_adjacency",
    "C32_and_expectation_refuted"
   ],
   "note": "For every recursion limit that the number of visited elements respects. The 'AND' expectation is refuted for every edge with an inward endpoint and another one."
  },
  {
   "property": "C33",
   "status": "proved",
   "theorems": [
    "C33_diagonal_and_trace"
   ],
   "note": ""
  },
  {
   "property": "C34",
   "status": "proved",
   "theorems": [
    "C34_undirected"
   ],
   "note": ""
  },
  {
   "property": "C35",
   "status": "proved",
   "theorems": [
    "C35_difference",
    "C35_uniform"
   ],
   "note": "C35_difference gives the exact difference for every undirected graph; C35_uniform: equality for 3-uniform graphs, inequality for every other m-uniform graph with m >= 2."
  },
  {
   "property": "C36",
   "status": "proved",
   "theorems": [
    "C36_last_relation_wins"
   ],
   "note": ""
  },
  {
   "property": "C37",
   "status": "proved",
   "theorems": [
    "C37_one_edge",
    "C37_two_edges"
   ],
   "note": "Square root and logarithm are arbitrary functions."
  },
  {
   "property": "C40",
   "status": "proved",
   "theorems": [
    "C40_first_in_level_order"
   ],
   "note": "For every recursion limit that the search respects."
  },
  {
   "property": "C41",
   "status": "proved",
   "theorems": [
    "C41_leftover",
    "C41_isolation_refuted",
    "C41_stale_cache_refuted"
   ],
   "note": "Isolation refuted in general: the left-over queue is given exactly."
  },
  {
   "property": "C42",
   "status": "proved",
   "theorems": [
    "C42_whole_tree",
    "C42_equal_uuids_refuted"
   ],
   "note": "C42_equal_uuids_refuted exhibits a reachable state."
  },
  {
   "property": "C38",
   "status": "proved",
   "theorems": [
    "C38_admissible_pairs"
   ],
   "note": "The selection is a list."
  },
  {
   "property": "C39",
   "status": "proved",
   "theorems": [
    "C39_relation_pairs",
    "C39_orphan_relation"
   ],
   "note": ""
  },
  {
   "property": "C56",
   "status": "proved",
   "theorems": [
    "C56_factorisation_walk"
   ],
   "note": "For all recursion limits; the walk is finite iff no cycle is reachable."
  },
  {
   "property": "C43",
   "status": "proved",
   "theorems": [
    "C43_any_schedule"
   ],
   "note": "Schedules are permutations of the set of tasks; prepositions may raise (the exception stays in the task). Traversal statements do not raise (simplification). Iterates: the queries are idle again afterwards."
  },
  {
   "property": "C57",
   "status": "proved",
   "theorems": [
    "C57_several_names"
   ],
   "note": ""
  },
  {
   "property": "C44",
   "status": "proved",
   "theorems": [
    "C44_context_updatable",
    "C44_round_trip",
    "C44_contents"
   ],
   "note": "CBOR is the identity on the structures of a message. Any recursion limit for which update_context succeeds; it succeeds for all large enough ones."
  },
  {
   "property": "C45",
   "status": "proved",
   "theorems": [
    "C45_decoded_relations",
    "C45_directions_refuted"
   ],
   "note": "Expectation refuted for every relation that is not BIDIRECTIONAL."
  },
  {
   "property": "C46",
   "status": "proved",
   "theorems": [
    "C46_non_root"
   ],
   "note": ""
  },
  {
   "property": "C47",
   "status": "proved",
   "theorems": [
    "C47_accumulates"
   ],
   "note": "For the n-th message, any n."
  },
  {
   "property": "C48",
   "status": "proved",
   "theorems": [
    "C48_value_updates"
   ],
   "note": "Source and decoder may be in any reachable states with the same uuids of the value nodes."
  },
  {
   "property": "C49",
   "status": "proved",
   "theorems": [
    "C49_reading",
    "C49_writing",
    "C49_only_writes",
    "C49_iteration"
   ],
   "note": ""
  },
  {
   "property": "C50",
   "status": "proved",
   "theorems": [
    "C50_known_type",
    "C50_unknown_type",
    "C50_no_attributes"
   ],
   "note": "ASCII text only (lower, strip). An unknown type name reads the clock once before the error; nothing else changes."
  },
  {
   "property": "C52",
   "status": "proved",
   "theorems": [
    "C52_directions"
   ],
   "note": ""
  },
  {
   "property": "C51",
   "status": "proved",
   "theorems": [
    "C51_cylinder_refuted",
    "C51_sphere",
    "C51_any_link",
    "C51_ellipsoid"
   ],
   "note": "The expectation about cylinders is refuted: radius and length are swapped in the moments, exactly for the masses and sizes where this matters. Exact rationals; XML text kept as value tokens."
  },
  {
   "property": "C53",
   "status": "proved",
   "theorems": [
    "C53_nearest_graph"
   ],
   "note": ""
  },
  {
   "property": "C54",
   "status": "proved",
   "theorems": [
    "C54_material_refuted",
    "C54_one_visual_node"
   ],
   "note": "With two visual nodes that have geometry the materials of the earlier ones are lost (KeyError); with one the export is as expected."
  },
  {
   "property": "C58",
   "status": "proved",
   "theorems": [
    "C58_shapes",
    "C58_drawn",
    "C58_referenced"
   ],
   "note": "Geometry values are lists."
  },
  {
   "property": "C59",
   "status": "proved",
   "theorems": [
    "C59_joint"
   ],
   "note": "np.pi/180 is the parameter rad."
  },
  {
   "property": "C60",
   "status": "proved",
   "theorems": [
    "C60_frame"
   ],
   "note": ""
  },
  {
   "property": "C61",
   "status": "proved",
   "theorems": [
    "C61_link"
   ],
   "note": ""
  },
  {
   "property": "C62",
   "status": "proved",
   "theorems": [
    "C62_flat_export"
   ],
   "note": "For every number of links, joints and cognitive entities, every recursion limit. The run is deterministic."
  },
  {
   "property": "C63",
   "status": "proved",
   "theorems": [
    "C63_canonical_links",
    "C63_sub_graph"
   ],
   "note": "set.pop picks an arbitrary canonical link; all choices are covered."
  },
  {
   "property": "C64",
   "status": "proved",
   "theorems": [
    "C64_dangling_refuted"
   ],
   "note": ""
  },
  {
   "property": "C65",
   "status": "proved",
   "theorems": [
    "C65_load_builds_meaning"
   ],
   "note": "The input is the parse tree (the ANTLR parser is not part of the repository); float() and pi/180 are parameters. The meaning is a function of the parse tree alone (SpecCogni.v)."
  },
  {
   "property": "C66",
   "status": "proved",
   "theorems": [
    "C66_meaningless_rejected",
    "C66_unreadable_rejected"
   ],
   "note": ""
  },
  {
   "property": "C67",
   "status": "proved",
   "theorems": [
    "C67_not_read"
   ],
   "note": "Equality of the whole result and state, in every state."
  },
  {
   "property": "C68",
   "status": "proved",
   "theorems": [
    "C68_first_reference_refuted"
   ],
   "note": ""
  },
  {
   "property": "C69",
   "status": "proved",
   "theorems": [
    "C69_any_depth",
    "C69_visitor_fails"
   ],
   "note": "Relations must end at elements that are neither edges nor relations, and their weights must have a norm. Depth 0 behaves like depth 1. With a homomorphism and depth 1: C32."
  },
  {
   "property": "C70",
   "status": "proved",
   "theorems": [
    "C70_cycle_fails"
   ],
   "note": ""
  },
  {
   "property": "C71",
   "status": "proved",
   "theorems": [
    "C71_links_exported",
    "C71_two_visuals_fail"
   ],
   "note": "the frame of the pose, and the geometries a referencing part shows in addition to its own, are those of C53, C58 and C60"
  },
  {
   "property": "C72",
   "status": "proved",
   "theorems": [
    "C72_joints_exported",
    "C72_unbalanced_fails"
   ],
   "note": "what follows the connecting joint of a nested kinematic graph is the export of that graph (C63)"
  },
  {
   "property": "C73",
   "status": "proved",
   "theorems": [
    "C73_resolvable_accepted"
   ],
   "note": "resolvable is a predicate on the parse tree alone (SpecScope.v)"
  },
  {
   "property": "C74",
   "status": "proved",
   "theorems": [
    "C74_graph_built",
    "C74_only_duplicates"
   ],
   "note": ""
  },
  {
   "property": "C75",
   "status": "proved",
   "theorems": [
    "C75_fano_plane",
    "C75_never_asserts"
   ],
   "note": ""
  },
  {
   "property": "C76",
   "status": "proved",
   "theorems": [
    "C76_exportable_converted"
   ],
   "note": "exportable is a predicate on the parse tree alone (SpecExport.v, SpecScope.v); what the files contain: C71, C72"
  },
  {
   "property": "C77",
   "status": "proved",
   "theorems": [
    "C77_other_trees",
    "C77_generators",
    "C77_tuples",
    "C77_histories"
   ],
   "note": ""
  },
  {
   "property": "C78",
   "status": "proved",
   "theorems": [
    "C78_load",
    "C78_convert",
    "C78_decode",
    "C78_updates"
   ],
   "note": ""
  },
  {
   "property": "C79",
   "status": "proved",
   "theorems": [
    "C79_print",
    "C79_endpoints",
    "C79_loose_edge_refuted"
   ],
   "note": "the text of a weight (a memory address) is kept symbolic"
  },
  {
   "property": "C80",
   "status": "proved",
   "theorems": [
    "C80_add_awaited",
    "C80_add_all",
    "C80_add_refused",
    "C80_add_run_refuted",
    "C80_interleaved",
    "C80_remove_refuted",
    "C80_remove_name_refuted"
   ],
   "note": "under the reading of asyncio.gather for CPython 3.10 stated in DESIGN.md section 5; the *_refuted theorems prove what the code does instead of what its name promises"
  },
  {
   "property": "C81",
   "status": "proved",
   "theorems": [
    "C81_connect_tuples",
    "C81_succeeds",
    "C81_semantic_value",
    "C81_semantic_tuples"
   ],
   "note": ""
  },
  {
   "property": "C82",
   "status": "proved",
   "theorems": [
    "C82_accu_fuzzy"
   ],
   "note": "the printed representation of the relations (memory addresses) is not modelled: the relations printed are"
  },
  {
   "property": "C83",
   "status": "proved",
   "theorems": [
    "C83_retry_doubles",
    "C83_isolation_refuted"
   ],
   "note": ""
  },
  {
   "property": "C84",
   "status": "proved",
   "theorems": [
    "C84_every_order"
   ],
   "note": ""
  },
  {
   "property": "C85",
   "status": "proved",
   "theorems": [
    "C85_contents",
    "C85_without_context",
    "C85_message",
    "C85_replacement_refuted",
    "C85_dense",
    "C85_closed",
    "C85_nested_refuted"
   ],
   "note": "the nested case assumes that no edge of a connected node has the uuid of an indexed edge"
  },
  {
   "property": "C86",
   "status": "proved",
   "theorems": [
    "C86_flat",
    "C86_deeper_refuted"
   ],
   "note": "the failing case assumes that no edge of a connected node has the uuid of an edge of the graph"
  },
  {
   "property": "C87",
   "status": "proved",
   "theorems": [
    "C87_independence_refuted",
    "C87_recovers",
    "C87_after_failure"
   ],
   "note": "same graph in all later calls; relations left in the queue belong to edges whose uuids differ from those of the graph"
  },
  {
   "property": "C88",
   "status": "proved",
   "theorems": [
    "C88_accepted_bound",
    "C88_dangling_rejected",
    "C88_exactly_resolvable"
   ],
   "note": "bound is a predicate on the parse tree alone (SpecBound.v), the same walk as resolvable in C73; where a reference with a slash leads is not restricted by bound"
  },
  {
   "property": "C89",
   "status": "proved",
   "theorems": [
    "C89_accepted",
    "C89_built",
    "C89_tables",
    "C89_errors"
   ],
   "note": "acceptable, built and last_root are stated over the list of items of the message (SpecDecode.v); that decoding an encoded graph gives the graph back is C44, C45"
  },
  {
   "property": "C90",
   "status": "proved",
   "theorems": [
    "C90_any_number",
    "C90_possible",
    "C90_unchanged"
   ],
   "note": "each program uses a new icon (no update_coo, so no tensor entries); sendable as in C44"
  },
  {
   "property": "C91",
   "status": "proved",
   "theorems": [
    "C91_context_fixed",
    "C91_elsewhere"
   ],
   "note": ""
  },
  {
   "property": "C92",
   "status": "proved",
   "theorems": [
    "C92_graph",
    "C92_entries",
    "C92_possible",
    "C92_same",
    "C92_differs"
   ],
   "note": ""
  },
  {
   "property": "C93",
   "status": "proved",
   "theorems": [
    "C93_new",
    "C93_reused",
    "C93_right_iff",
    "C93_again",
    "C93_last_nonzero"
   ],
   "note": "no code in the repository reuses a representation; rep_run is a program that does what execute does with an object that it keeps"
  },
  {
   "property": "C94",
   "status": "proved",
   "theorems": [
    "C94_row_sums",
    "C94_semidefinite_iff",
    "C94_kernel",
    "C94_tensor_refuted"
   ],
   "note": "over exact rationals (vectors with rational entries)"
  },
  {
   "property": "C95",
   "status": "proved",
   "theorems": [
    "C95_nan",
    "C95_refused",
    "C95_isolated",
    "C95_graph",
    "C95_hyperedge",
    "C95_acyclic",
    "C95_shannon"
   ],
   "note": "over exact numbers; numpy.linalg.eig is a parameter of which only the stated property is assumed; in floating point a computed eigenvalue may be tiny instead of 0; the expectation that ordinary graphs have a projected entropy is refuted"
  },
  {
   "property": "C96",
   "status": "proved",
   "theorems": [
    "C96_degree",
    "C96_laplacian",
    "C96_entropy",
    "C96_undirected",
    "C96_isomorphic"
   ],
   "note": "over exact numbers; square root, log2 and the eigenvalues are parameters; with weights the numbers do depend on the order of the relations (C36)"
  },
  {
   "property": "C97",
   "status": "proved",
   "theorems": [
    "C97_entries",
    "C97_degree",
    "C97_graph"
   ],
   "note": "over exact rationals; the expectation that a weighted degree is the row sum of the adjacency is refuted for edges with three endpoints (degrees34 in Ex34: degrees 7, 7, 7, row sum of the first node 12)"
  },
  {
   "property": "C98",
   "status": "proved",
   "theorems": [
    "C98_same",
    "C98_projected"
   ],
   "note": "over exact numbers; square root, log2 and the eigenvalues are parameters"
  },
  {
   "property": "C99",
   "status": "proved",
   "theorems": [
    "C99_undirected",
    "C99_directed"
   ],
   "note": "over exact numbers"
  },
  {
   "property": "C100",
   "status": "proved",
   "theorems": [
    "C100_fails",
    "C100_clean_refuted"
   ],
   "note": "the states of the earlier calls differ from that of the last one in the contents of value nodes only; refuted expectation: the theorem states what happens instead"
  },
  {
   "property": "C101",
   "status": "proved",
   "theorems": [
    "C101_balanced",
    "C101_unbalanced",
    "C101_agree",
    "C101_differ"
   ],
   "note": "The selection is a list; selected edges have different uuids (relations are grouped by the uuid of their parent)."
  },
  {
   "property": "C102",
   "status": "proved",
   "theorems": [
    "C102_pairs",
    "C102_pairs_have_entries",
    "C102_agree",
    "C102_entries_refuted"
   ],
   "note": ""
  }
 ]
}
