#!/usr/bin/env python3
"""Writes /verif/MANIFEST.json."""
import json, os
C=[]
def c(i,status,theorems,note): C.append(dict(property=i,status=status,theorems=theorems.split(),note=note))
EX="Excluded call shapes (History.v, allowed) are each shown to break it elsewhere (C10, C11, C12, C15)."
c("C01","proved","C01_parent_child_agreement","Invariant over all histories. "+EX)
c("C02","proved","C02_lookup_by_simple_name","For ConceptualItems, the classes that have the method. "+EX)
c("C03","proved","C03_cnt_subelements",EX)
c("C04","proved","C04_cids_increase C04_cids_never_reused",EX)
c("C05","proved","C05_add_refreshes_names C05_names_are_paths_without_removal","")
c("C06","proved","C06_stale_names_refuted","The expectation (names always are paths) is refuted in general: for every removal of an element with descendants.")
c("C07","proved","C07_self_rejected C07_duplicate_rejected","In every state, reachable or not.")
c("C08","proved","C08_move","Adding a hypergraph element to a relation also creates a port (see the hypotheses); that case is C17's.")
c("C09","proved","C09_remove C09_nothing_to_remove C09_no_argument","KeyError is raised iff the name table has no entry for the name.")
c("C10","proved","C10_ancestor_not_rejected_refuted","Refuted in general: for every ancestor/descendant pair with a new uuid the cycle is created.")
c("C11","proved","C11_mismatched_name_not_atomic","")
c("C12","proved","C12_lazy C12_abandoned_removal","Every stopping point j of the generator.")
c("C13","proved","C13_depth_leaf_growth C13_depth_after_move_refuted","The positive half over all leaf-growing histories, the negative half for every move of a subtree.")
c("C14","proved","C14_path_lookup C14_children_known C14_known_forever","")
c("C15","proved","C15_edge_removal_never_yields C15_edge_removal_raises C15_move_out_of_edge_raises","")
c("C16","proved","C16_disconnect_keeps_structure C16_port_stays_refuted","")
c("C17","proved","C17_unary_connect","")
c("C18","proved","C18_failed_unary_connect C18_same_name_never_again","")
c("C19","proved","C19_incoming_outgoing C19_incidence","")
c("C20","proved","C20_timestamps C20_no_clock","")
c("C21","proved","C21_uid_injective C21_node_uuids C21_across_factories_refuted","The hash is an arbitrary function; injectivity is a hypothesis where needed. The expectation across factories is refuted for all names.")
c("C22","proved","C22_list_nodes C22_repeated_name","For parents that are not relations (a relation also makes ports). Collision-freeness is only needed on the texts hashed by the call.")
c("C23","proved","C23_connect_nodes C23_insufficient_values C23_connect_nodes_succeeds","")
c("C24","proved","C24_second_direction_ignored_refuted C24_dir_edges_no_outgoing_refuted","Refuted in general: for every successful call.")
c("C25","proved","C25_uuid C25_containers_differ_refuted C25_second_call_raises","Refuted in general.")
c("C26","proved","C26_breadth_first","For every recursion limit that the number of visited elements respects (see C55). Visitors do not modify the graph.")
c("C27","proved","C27_depth_first","As C26.")
c("C28","proved","C28_depth_limited","As C26; the last clause relates the limited to the unlimited order.")
c("C29","proved","C29_completed C29_sessions C29_leftover C29_isolation_refuted C29_next_order","Isolation is refuted in general; the left-over queue is given exactly.")
c("C55","proved","C55_recursion_limit","The limit is a parameter of the model; the error is raised at the nested call of _traverse.")
c("C30","proved","C30_indices_follow_order C30_bijective C30_direct_children C30_equal_uuids_refuted C30_deep_refuted","Refuted for depth > 1: C30_deep_refuted exhibits a reachable state, C30_equal_uuids_refuted is general.")
c("C31","proved","C31_forgets_the_past C31_run_after_run C31_from_pairs","A run that raised RecursionError before can leak through the shared queue (C55).")
c("C32","proved","C32_succeeds C32_indices C32_entries_adjacency C32_and_expectation_refuted","For every recursion limit that the number of visited elements respects. The 'AND' expectation is refuted for every edge with an inward endpoint and another one.")
c("C33","proved","C33_diagonal_and_trace","")
c("C34","proved","C34_undirected","")
c("C35","proved","C35_difference C35_uniform","C35_difference gives the exact difference for every undirected graph; C35_uniform: equality for 3-uniform graphs, inequality for every other m-uniform graph with m >= 2.")
c("C36","proved","C36_last_relation_wins","")
c("C37","proved","C37_one_edge C37_two_edges","Square root and logarithm are arbitrary functions.")
c("C40","proved","C40_first_in_level_order","For every recursion limit that the search respects.")
c("C41","proved","C41_leftover C41_isolation_refuted C41_stale_cache_refuted","Isolation refuted in general: the left-over queue is given exactly.")
c("C42","proved","C42_whole_tree C42_equal_uuids_refuted","C42_equal_uuids_refuted exhibits a reachable state.")
c("C38","proved","C38_admissible_pairs","The selection is a list.")
c("C39","proved","C39_relation_pairs C39_orphan_relation","")
c("C56","proved","C56_factorisation_walk","For all recursion limits; the walk is finite iff no cycle is reachable.")
c("C43","proved","C43_any_schedule","Schedules are permutations of the set of tasks; prepositions may raise (the exception stays in the task). Traversal statements do not raise (simplification). Iterates: the queries are idle again afterwards.")
c("C57","proved","C57_several_names","")
c("C44","proved","C44_context_updatable C44_round_trip C44_contents","CBOR is the identity on the structures of a message. Any recursion limit for which update_context succeeds; it succeeds for all large enough ones.")
c("C45","proved","C45_decoded_relations C45_directions_refuted","Expectation refuted for every relation that is not BIDIRECTIONAL.")
c("C46","proved","C46_non_root","")
c("C47","proved","C47_accumulates","For the n-th message, any n.")
c("C48","proved","C48_value_updates","Source and decoder may be in any reachable states with the same uuids of the value nodes.")
c("C49","proved","C49_reading C49_writing C49_only_writes C49_iteration","")
c("C50","proved","C50_known_type C50_unknown_type C50_no_attributes","ASCII text only (lower, strip). An unknown type name reads the clock once before the error; nothing else changes.")
c("C52","proved","C52_directions","")
c("C51","proved","C51_cylinder_refuted C51_sphere C51_any_link C51_ellipsoid","The expectation about cylinders is refuted: radius and length are swapped in the moments, exactly for the masses and sizes where this matters. Exact rationals; XML text kept as value tokens.")
c("C53","proved","C53_nearest_graph","")
c("C54","proved","C54_material_refuted C54_one_visual_node","With two visual nodes that have geometry the materials of the earlier ones are lost (KeyError); with one the export is as expected.")
c("C58","proved","C58_shapes C58_drawn C58_referenced","Geometry values are lists.")
c("C59","proved","C59_joint","np.pi/180 is the parameter rad.")
c("C60","proved","C60_frame","")
c("C61","proved","C61_link","")
c("C62","proved","C62_flat_export","For every number of links, joints and cognitive entities, every recursion limit. The run is deterministic.")
c("C63","proved","C63_canonical_links C63_sub_graph","set.pop picks an arbitrary canonical link; all choices are covered.")
c("C64","proved","C64_dangling_refuted","")
c("C65","proved","C65_load_builds_meaning","The input is the parse tree (the ANTLR parser is not part of the repository); float() and pi/180 are parameters. The meaning is a function of the parse tree alone (SpecCogni.v).")
c("C66","proved","C66_meaningless_rejected C66_unreadable_rejected","")
c("C67","proved","C67_not_read","Equality of the whole result and state, in every state.")
c("C68","proved","C68_first_reference_refuted","")
c("C69","proved","C69_any_depth C69_visitor_fails","Relations must end at elements that are neither edges nor relations, and their weights must have a norm. Depth 0 behaves like depth 1. With a homomorphism and depth 1: C32.")
c("C70","proved","C70_cycle_fails","")
c("C71","proved","C71_links_exported C71_two_visuals_fail","the frame of the pose, and the geometries a referencing part shows in addition to its own, are those of C53, C58 and C60")
c("C72","proved","C72_joints_exported C72_unbalanced_fails","what follows the connecting joint of a nested kinematic graph is the export of that graph (C63)")
c("C73","proved","C73_resolvable_accepted","resolvable is a predicate on the parse tree alone (SpecScope.v)")
c("C74","proved","C74_graph_built C74_only_duplicates","")
c("C75","proved","C75_fano_plane C75_never_asserts","")
c("C76","proved","C76_exportable_converted","exportable is a predicate on the parse tree alone (SpecExport.v, SpecScope.v); what the files contain: C71, C72")
c("C77","proved","C77_other_trees C77_generators C77_tuples C77_histories","")
c("C78","proved","C78_load C78_convert C78_decode C78_updates","")
c("C79","proved","C79_print C79_endpoints C79_loose_edge_refuted","the text of a weight (a memory address) is kept symbolic")
c("C80","proved","C80_add_awaited C80_add_all C80_add_refused C80_add_run_refuted C80_interleaved C80_remove_refuted C80_remove_name_refuted","under the reading of asyncio.gather for CPython 3.10 stated in DESIGN.md section 5; the *_refuted theorems prove what the code does instead of what its name promises")
c("C81","proved","C81_connect_tuples C81_succeeds C81_semantic_value C81_semantic_tuples","")
c("C82","proved","C82_accu_fuzzy","the printed representation of the relations (memory addresses) is not modelled: the relations printed are")
c("C83","proved","C83_retry_doubles C83_isolation_refuted","")
c("C84","proved","C84_every_order","")
c("C85","proved","C85_contents C85_without_context C85_message C85_replacement_refuted C85_dense C85_closed C85_nested_refuted","the nested case assumes that no edge of a connected node has the uuid of an indexed edge")
c("C86","proved","C86_flat C86_deeper_refuted","the failing case assumes that no edge of a connected node has the uuid of an edge of the graph")
c("C87","proved","C87_independence_refuted C87_recovers C87_after_failure","same graph in all later calls; relations left in the queue belong to edges whose uuids differ from those of the graph")
c("C88","proved","C88_accepted_bound C88_dangling_rejected C88_exactly_resolvable","bound is a predicate on the parse tree alone (SpecBound.v), the same walk as resolvable in C73; where a reference with a slash leads is not restricted by bound")
c("C89","proved","C89_accepted C89_built C89_tables C89_errors","acceptable, built and last_root are stated over the list of items of the message (SpecDecode.v); that decoding an encoded graph gives the graph back is C44, C45")
c("C90","proved","C90_any_number C90_possible C90_unchanged","each program uses a new icon (no update_coo, so no tensor entries); sendable as in C44")
c("C91","proved","C91_context_fixed C91_elsewhere","")
c("C92","proved","C92_graph C92_entries C92_possible C92_same C92_differs","")
c("C93","proved","C93_new C93_reused C93_right_iff C93_again C93_last_nonzero","no code in the repository reuses a representation; rep_run is a program that does what execute does with an object that it keeps")
c("C94","proved","C94_row_sums C94_semidefinite_iff C94_kernel C94_tensor_refuted","over exact rationals (vectors with rational entries)")
c("C95","proved","C95_nan C95_refused C95_isolated C95_graph C95_hyperedge C95_acyclic C95_shannon","over exact numbers; numpy.linalg.eig is a parameter of which only the stated property is assumed; in floating point a computed eigenvalue may be tiny instead of 0; the expectation that ordinary graphs have a projected entropy is refuted")
c("C96","proved","C96_degree C96_laplacian C96_entropy C96_undirected C96_isomorphic","over exact numbers; square root, log2 and the eigenvalues are parameters; with weights the numbers do depend on the order of the relations (C36)")
c("C97","proved","C97_entries C97_degree C97_graph","over exact rationals; the expectation that a weighted degree is the row sum of the adjacency is refuted for edges with three endpoints (degrees34 in Ex34: degrees 7, 7, 7, row sum of the first node 12)")
c("C98","proved","C98_same C98_projected","over exact numbers; square root, log2 and the eigenvalues are parameters")
c("C99","proved","C99_undirected C99_directed","over exact numbers")
c("C100","proved","C100_fails C100_clean_refuted","the states of the earlier calls differ from that of the last one in the contents of value nodes only; refuted expectation: the theorem states what happens instead")
c("C101","proved","C101_balanced C101_unbalanced C101_agree C101_differ","The selection is a list; selected edges have different uuids (relations are grouped by the uuid of their parent).")
c("C102","proved","C102_pairs C102_pairs_have_entries C102_agree C102_entries_refuted","")
#END
if __name__=="__main__":
    with open(os.path.join(os.path.dirname(__file__),"..","MANIFEST.json"),"w") as f:
        json.dump({"claims":C},f,indent=1); f.write("\n")
    print(len(C))
