#!/usr/bin/env python3
"""Writes /verif/properties.jsonl (one JSON object per line)."""
import json, os
CI="framework_python/rei/foundations/conceptual_item.py"
BE="framework_python/rei/hypergraph/base_elements.py"
VN="framework_python/rei/hypergraph/value_node.py"
FF="framework_python/rei/factories/foundation_factory.py"
AF="framework_python/rei/factories/abstract_factory.py"
IG="framework_python/rei/foundations/identification/identity_generator.py"
HT="framework_python/rei/foundations/hierarchical_traversal_strategies.py"
GT="framework_python/rei/foundations/hypergraph_traversal_strategies.py"
SE="framework_python/rei/foundations/query/search_elements.py"
HO="framework_python/rei/hypergraph/homomorphism_functions.py"
FO="framework_python/rei/hypergraph/factorization_operations.py"
TE="framework_python/rei/tensor/tensor_representation.py"
CO="framework_python/rei/hypergraph/encoding/graph_tensor_icon.py"
CB="framework_python/rei/hypergraph/encoding/graph_tensor_icon_cbor.py"
QE="framework_python/rei/query/query_engine.py"
SF="framework_python/rei/format/semantics/cognitive_entity_semantic_factory.py"
IN="framework_python/rei/format/phys/inertia_context.py"
GE="framework_python/rei/format/phys/solid_geometry_context.py"
KI="framework_python/rei/format/phys/kinematics/kinematic_semantic_context.py"
SD="framework_python/rei/format/mapping/cognilang_sdf_icon.py"
MU="framework_python/rei/format/mapping/cognilang_map_utility.py"
HIST="every finite history of API calls (constructors, add_element, remove_element in its three argument forms, register, deregister, connect, disconnect, unary_connect) with arbitrary arguments, clocks and hash functions, except the call shapes named in the statement"
P=[]
def p(title, statement, quantifier, why, anchors):
    P.append(dict(id="C%02d"%(len(P)+1), title=title, statement=statement, quantifier=quantifier, why_tests_cant=why, anchors=anchors))

# ---------------- hierarchy
p("Parent/child agreement",
  "After any history of calls, x is yielded by p.get_subelements(lambda _: True) exactly when x.parent is p, every sub-element is yielded once, and no element has two containers. Excluded call shapes (each shown separately to break it): moving an element out of a hyperedge or relation, adding an ancestor to its own descendant, remove_element with a name that does not belong to the given uuid, abandoning remove_element(name) half-way, removing from an edge or relation.",
  HIST, "The invariant ranges over unboundedly many interleavings of adds, moves and removes on arbitrarily shaped forests; unit tests sample a few trees.",
  [CI+": HierarchicalElement.add_element/remove_element/get_subelements/parent", BE+": HypergraphElement.connect/disconnect/register/deregister, HypergraphEdge.unary_connect"])
p("Look-up by simple name is exact",
  "In every state reached by such a history, p.get_element_by_id_name(n), for n without '/', yields exactly the sub-elements of p whose id_name is n, in the order they were added, and yields nothing (no exception) when there is none.",
  HIST+"; every container and every name", "The name index is a second copy of the children maintained by separate code on each path of add/move/remove; agreement must hold for every history.",
  [CI+": ConceptualItem.get_element_by_id_name, _index_elements_by_name"])
p("cnt_subelements counts the sub-elements",
  "In every state reached by such a history, p.cnt_subelements equals the number of elements yielded by p.get_subelements.",
  HIST, "The counter is incremented and decremented by hand on six code paths; only an invariant over all histories shows that it never drifts.",
  [CI+": ConceptualItem.cnt_subelements, add_element, remove_element"])
p("Context ids are unique and never reused",
  "In every state reached by such a history, the cids of the sub-elements of one container are pairwise distinct, increase in insertion order, and a newly added element receives a cid strictly larger than any cid ever handed out by that container, even after removals.",
  HIST, "Non-reuse is a statement about the whole past of a container.",
  [CI+": HierarchicalElement.cid, _cnt_subelements_historical, add_element"])
p("Qualified names are refreshed by add_element",
  "When add_element(p, c) returns normally, the qualified_name of c and of every element below c is the '/'-join of the id_names from its root down to it; the qualified names of all other elements that stay where they are do not change. Hence, in histories without removals, every element that is not a bare, never-attached root has qualified_name equal to that path, and a root has its own id_name.",
  "all reachable states, all p, c, all subtree shapes and depths", "Subtrees of any depth and width have to be updated; tests use depth two.",
  [CI+": HierarchicalElement.update_qualified_name/update/__update_element"])
p("Stale qualified names after removal",
  "Expected: qualified_name always is the path from the root. Actual: remove_element renames only the removed element; every proper descendant keeps the qualified name that contains the former ancestors (refuted for each removal of an element that has sub-elements, until the next add_element of it).",
  "all reachable states, all containers p, all removed elements c with at least one sub-element", "It is a statement about all trees below the removed element.",
  [CI+": remove_element, update"])
p("Rejected additions change nothing",
  "p.add_element(p) raises ErrorRecursiveHierarchy, and adding an element whose uuid is already among the sub-elements of p raises ErrorDuplicateElement; in both cases every attribute of every element is unchanged.",
  "every state (reachable or not), every container and element", "'Nothing changed' quantifies over the whole object graph.",
  [CI+": add_element; common_errors.ErrorDuplicateElement/ErrorRecursiveHierarchy"])
p("Moving an element",
  "If c is not an ancestor of p, its uuid is new in p, its current parent (if any) is not an edge or relation, and p itself is neither a relation receiving a hypergraph element nor an edge whose constructor has not finished, then p.add_element(c) succeeds; afterwards c.parent is p, c is the last sub-element of p, the old parent's sub-elements are the former ones without c in the same order, and parents and sub-elements of all other elements, all names, uuids, values, endpoints and attributes are unchanged.",
  "all reachable states, all p and c", "Frame conditions range over all other objects; old and new parent may be in any relation to each other.",
  [CI+": add_element; "+BE+": HypergraphElement.register"])
p("Removing elements",
  "Draining p.remove_element(name) / remove_element(uuid=u) / remove_element(name,u) on a container that is neither edge nor relation yields exactly the sub-elements that match, in insertion order, leaves each of them with parent None and qualified_name equal to its id_name, leaves the remaining sub-elements of p in order, and changes no parent or sub-element list elsewhere; a name that no sub-element of p ever had, or an unknown uuid, raises KeyError and changes nothing; no argument at all raises ErrorInvalidQuery.",
  "all reachable states, all containers, names and uuids", "Any number of equal names may be present; frame conditions quantify over all objects.",
  [CI+": remove_element"])
p("Ancestors are not rejected",
  "Expected: the hierarchy is acyclic, adding an ancestor to a descendant is refused without effect. Actual: only p.add_element(p) is refused; for every proper ancestor a of p whose uuid is new in p, p.add_element(a) raises RecursionError and leaves a parent cycle behind, so the acyclicity property is refuted for every such pair.",
  "all reachable states and all pairs (ancestor, proper descendant) with a fresh uuid", "The failure must be shown for cycles of any length.",
  [CI+": add_element (only `element is self` is checked), update_qualified_name"])
p("remove_element with mismatching name is not atomic",
  "For every container p and sub-element c with id_name different from n (n non-empty, c.uuid not filed under n): draining p.remove_element(n, c.uuid) raises KeyError, but c is no longer yielded by get_subelements although c.parent is still p, cnt_subelements is unchanged and get_element_by_id_name still finds it.",
  "all reachable states, containers, sub-elements and wrong names", "Crash-point property: the state after an exception in the middle of the operation.",
  [CI+": remove_element lines 117-127"])
p("remove_element is lazy; abandoning it corrupts the name index",
  "Calling remove_element without iterating has no effect. If k elements are filed under name n and only the first j are drawn from p.remove_element(n), then exactly those j are removed from the sub-elements, and when j >= 1 none of the remaining k-j is any longer found by get_element_by_id_name(n), although they are still sub-elements (refutes index agreement whenever 1 <= j < k).",
  "all reachable states, all containers, names, and all stopping points j", "The statement quantifies over all crash points of the generator.",
  [CI+": remove_element lines 128-141; "+BE+": HypergraphElement.disconnect"])
p("depth equals the number of ancestors only when trees are grown at the leaves",
  "If every add_element in the history adds an element that has no sub-elements, and nothing is removed, then depth equals the number of ancestors for all elements. Without the leaf restriction this is refuted: moving an element that has sub-elements leaves the depth of every proper descendant unchanged.",
  "all histories of add_element/constructors", "Depth is not recomputed for subtrees; the positive half needs induction over histories.",
  [CI+": depth, add_element line 108"])
p("Path look-up follows all name chains",
  "get_element_by_id_name('a/b/c'), when it returns, yields exactly the elements reached from p through sub-elements named a, then b, then c, in depth-first insertion order. It raises KeyError exactly when some element reached by a proper prefix does not know the next (non-final) name - names of present sub-elements are always known and a known name stays known for ever, whatever is added, moved or removed later - whereas a missing final name yields nothing - and AttributeError when a chain passes through an element that is not a ConceptualItem.",
  "all reachable states, all start elements, all paths of any length", "Paths and fan-out are unbounded and the error behaviour depends on the position of the missing name.",
  [CI+": ConceptualItem.get_element_by_id_name"])
p("Removing anything from a hyperedge raises",
  "For every hyperedge e and all arguments: draining e.remove_element(...) never yields an element; if at least one sub-element matches, it raises KeyError or TypeError although the first match has already been detached. Consequently moving a relation (or any sub-element) from an edge to another container always raises and leaves it listed under the new container with parent None.",
  "all reachable states, all edges, all arguments", "Universal statement over states and arguments; also a crash-point statement about the state left behind.",
  [BE+": HypergraphEdge.remove_element"])
p("disconnect does not remove the port",
  "x.disconnect(r) after x.connect(r) leaves the sub-elements of x unchanged (the port stays), and a following x.connect(r) raises ErrorDuplicateElement. Expected behaviour (port removed) is refuted for every x and r.",
  "all reachable states, all hypergraph elements x and all r connected to it", "Universal over states.",
  [BE+": HypergraphElement.connect/disconnect"])
p("unary_connect creates exactly one relation and one port",
  "If n is not e, the relation uid is new in the edge and the port uid is new in the endpoint, e.unary_connect(n, w, d) (without a semantic value) succeeds, appends exactly one relation r to e's sub_relations with r.endpoint is n, r.direction == d, r.weight is w, r.parent is e, appends exactly one port to n whose endpoint is r, and changes no other element's children; induced_subset of e becomes the former one followed by n.",
  "all reachable states, edges, endpoints, weights and directions", "Frame conditions over all objects, any state of the edge.",
  [BE+": HypergraphEdge.unary_connect/sub_relations/induced_subset, HypergraphElement.connect"])
p("A failed unary_connect leaves a dangling port",
  "If the edge already has a relation to an endpoint with the same id_name, e.unary_connect(n, ...) raises ErrorDuplicateElement; when the clock has advanced (so that the port uid is new) the endpoint nevertheless keeps a new port whose relation has no parent. In particular, over every later history an edge can never connect two endpoints that carry the same id_name.",
  "all reachable states, edges and endpoints", "Crash-point statement about a composite operation.",
  [BE+": HypergraphEdge.unary_connect lines 137-144, identification_generation"])
p("Incoming and outgoing relations cover the edge",
  "For every edge, every relation is incoming or outgoing, it is both exactly when it is BIDIRECTIONAL, both generators preserve insertion order, and the incidence value of a relation is (1,1), (1,0), (0,1) for BIDIRECTIONAL, INWARDS, OUTWARDS.",
  "all states and all edges", "Ranges over all relation lists.",
  [BE+": get_incoming_relations/get_outgoing_relations/relation_incidence_value", "framework_python/rei/hypergraph/common_definitions.py: EnumRelationDirection"])
p("update time stamps follow the clock",
  "If the clocks in use share one source that never goes backwards, the timestamp of an element never decreases along any history, and it never exceeds the latest clock reading. An element cannot be constructed without a clock (ErrorClockNotSet).",
  HIST+"; every monotone clock", "Ranges over all clocks and histories.",
  [CI+": ConceptualItem._update_timestamp/update"])
# ---------------- identity and factories
p("Factory identifiers are injective in (name, time)",
  "For one factory, generate_uid hashes different strings for different (qualified name, time) pairs; hence with a collision-free hash two elements get the same uuid only if they have the same name and the same clock reading. Across factories this is refuted: factory 'a/b' with name 'c' and factory 'a' with name 'b/c' produce the same uuid at equal times; so do a root node 'p/c' and a node 'c' below a root 'p'.",
  "all factory names, element names and clock readings", "Ranges over all strings and integers.",
  [IG+": Sha3UniqueIdentifierGenerator.generate_uid", AF+": AbstractElementFactory.get_qualified_name", FF+": generate_node"])
p("generate_list_nodes creates all nodes in order or reports a duplicate",
  "With a collision-free hash, generate_list_nodes(names, parent) with pairwise different new names succeeds and appends one fresh node per name, in order, to the sub_nodes of parent; with a constant clock a repeated name raises ErrorDuplicateElement.",
  "all name lists, parents, clocks", "Lists of arbitrary length.",
  [FF+": generate_node/generate_list_nodes"])
p("connect_nodes connects every node, with its own value, in the given direction",
  "If it succeeds, connect_nodes(container, name, nodes, d, values) adds one edge to the container whose relations correspond one-to-one, in order, to nodes, all with direction d and with weight values[i] (None when values is None). If len(values) != len(nodes), ErrorInsufficientValues is raised, but the empty edge has already been added to the container.",
  "all node lists, values and directions", "Lists of arbitrary length; crash point inside a composite operation.",
  [FF+": connect_nodes, connect_tuple_nodes"])
p("connect_2factor_edges ignores the second direction",
  "Expected: in_dir_nodes are connected with direction[0] and out_dir_nodes with direction[1]. Actual: all relations get direction[0]; in particular an edge made by connect_dir_edges has no outgoing relation at all (refuted for every non-empty out list).",
  "all node lists and direction pairs", "Ranges over all lists.",
  [FF+": connect_2factor_edges line 70, connect_dir_edges"])
p("Edge, value and semantic uuids do not depend on the container",
  "Expected: elements in different containers have different uuids. Actual: create_hyperedge, connect_*, create_value and generate_semantic_element derive the uuid from the name and the time only; two calls with one name at one time yield the same uuid in any two containers, and in one container the second call raises ErrorDuplicateElement, even for different kinds of element.",
  "all factories, containers and names", "Ranges over all containers and names.",
  [FF+": create_hyperedge/connect_nodes/create_value", SF+": generate_semantic_element"])
# ---------------- traversals
p("Breadth-first traversal visits the filtered hierarchy level by level",
  "If the recursion limit allows one nested call per visited element (C55), BreadthFirstHierarchicalTraversal(v, f).execute(s) calls v on s (iff f(s) and the root is not ignored) and then on exactly the elements reachable from s through elements satisfying f, in level order, siblings in insertion order, each once.",
  "all reachable states, all start elements, all filters", "All tree shapes and all filter functions.",
  [HT+": BreadthFirstHierarchicalTraversal, HierarchicalTraversal._fill_visit_fringe/_traverse"])
p("Depth-first traversal visits the filtered hierarchy in reverse pre-order",
  "DepthFirstHierarchicalTraversal visits the same elements, each once, a parent before its sub-elements, the sub-elements of one element from last to first, and the whole subtree of one before the next.",
  "all reachable states, all start elements, all filters", "All tree shapes and all filter functions.",
  [HT+": DepthFirstHierarchicalTraversal"])
p("Depth-limited traversals stop at max_depth",
  "DepthLimitedBreadthVisitChildren / DepthLimitedDepthVisitChildren with max_depth m visit exactly those elements of the unlimited traversal that are at distance at most m from the start, in the same relative order.",
  "all reachable states, starts, filters and limits m", "All shapes and limits.",
  [HT+": DepthLimitedBreadthVisitChildren, DepthLimitedDepthVisitChildren"])
p("Traversals leave the shared fringe empty only if they complete",
  "All breadth-first traversals share one queue (a default argument that is only shallow-copied). Every traversal that completes on an empty fringe leaves it empty, so in histories without failing visitors every traversal depends on the graph only. Refuted in general: if a visitor raises, the elements still queued are visited by the next breadth-first traversal, whatever its start.",
  "all sequences of traversals, visitors that may fail at any call", "History property: the effect of an exception at any point on any later traversal.",
  [HT+": _setup_visit_algorithm (default argument asyncio.Queue(), copy.copy)"])
# ---------------- homomorphism
p("Index homomorphism is a bijection onto 0..n-1",
  "After execute(start), if the visited elements have pairwise different uuids, node/dim, edge/depth and val/ival are mutually inverse, their index ranges are exactly 0..cnt-1, and the i-th index belongs to the i-th element of the breadth-first order. For ignore_root and depth 1 the uuid condition always holds. With larger depth it is refuted: equal uuids in different containers leave holes in the forward map.",
  "all reachable states, starts, depths", "Ranges over all graphs.",
  [HO+": IndexHomomorphismGraphTensor.execute/node/dim/edge/depth/val/ival/cnt_node/cnt_edges"])
p("Re-running the homomorphism forgets the past",
  "execute(start) gives the same maps whatever was executed before on the same object (successfully), i.e. it depends on the current graph only; reset_from_bijection(nodes, edges, values) reproduces exactly the given pairs.",
  "all sequences of runs", "History independence.",
  [HO+": reset_homology/reset_from_bijection/execute"])
# ---------------- tensors
p("Tensor entries reflect adjacency",
  "For a container whose edges only connect its direct sub-nodes, with unweighted relations: W[e][i][j] is 1 exactly when i and j are different endpoints of e and i is connected INWARDS or BIDIRECTIONAL, or j is connected OUTWARDS or BIDIRECTIONAL, and 0 otherwise; Io[e][i] is 1 iff row i of W[e] is non-zero and Ii[e][j] is 1 iff column j is non-zero. (Expected 'i incoming AND j outgoing' is refuted.)",
  "all graphs of that form, all numbers of nodes and edges", "All graphs of all sizes.",
  [TE+": NumpyTensorRepresentation.fill_tensors, NumpyHypergraphTensorTransformer.execute", GT+": HypergraphTraversal"])
p("No self loops in the weight tensor",
  "Every diagonal entry W[e][i][i] is 0 and trace(Lp) equals total_deg.",
  "all graphs (weighted or not)", "All graphs of all sizes.",
  [TE+": calc_projected_laplacian/degree_matrix/calc_total_deg"])
p("Undirected graphs give symmetric tensors and their incidence degrees",
  "If all relations are BIDIRECTIONAL and unweighted, every W[e] is symmetric, Io equals Ii, and deg[i] is the number of edges with at least two endpoints that connect node i.",
  "all such graphs", "All graphs of all sizes.",
  [TE+": degree_matrix"])
p("Edge-wise Laplacians add up to the projected Laplacian only for 3-uniform graphs",
  "For undirected unweighted graphs in which every edge has exactly three endpoints, the sum over edges of L equals Lp. The unrestricted statement is refuted (e.g. one edge with two endpoints).",
  "all 3-uniform undirected graphs", "All graphs of all sizes.",
  [TE+": calc_laplacian/diag_degree_tensor/calc_projected_laplacian"])
p("Weighted relations: the last relation of the edge wins",
  "With value nodes as weights, W[e][i][j] is the sum of the values of j's relation if that relation writes the entry and comes later, else of i's relation if it writes the entry, else 0; relations whose values add up to 0 write nothing.",
  "all graphs with weights", "All graphs, weights and relation orders.",
  [GT+": __fill_relations, SumNorm", TE+": fill_tensors"])
p("Normalised Laplacian needs two edges",
  "calc_normalized_laplacian, entropy_vector and entropy raise ZeroDivisionError for every graph with exactly one edge.",
  "all graphs with one edge", "All graphs of one edge.",
  [TE+": calc_normalized_laplacian"])
# ---------------- factorisation
p("Subset factorisation returns exactly the admissible pairs",
  "Factorization2SubsetOperation(self_loop).execute(selection) returns, per selected edge in order, exactly the pairs (incoming relation, outgoing relation) of that edge whose endpoints both are selected nodes and, unless self_loop, have different uuids.",
  "all selections over all graphs", "All selections and graphs.",
  [FO+": Factorization2SubsetOperation"])
p("Relation factorisation pairs each incoming with each OUTWARDS relation",
  "RelationFactorization2SubsetOperation.execute(selection) succeeds iff every edge with a selected INWARDS or BIDIRECTIONAL relation also has a selected OUTWARDS one (otherwise KeyError) and then returns exactly the pairs of selected relations with the same parent uuid, first INWARDS or BIDIRECTIONAL, second OUTWARDS, endpoints different unless self_loop. Bidirectional relations never appear as the second component.",
  "all selections over all graphs", "All selections and graphs.",
  [FO+": RelationFactorization2SubsetOperation"])
# ---------------- search
p("Sub-element search finds the first match in level order",
  "A fresh QuerySearchSubElement executed when the shared queue is empty returns [x] for the first element x in level order below (or at) start whose qualified_name equals the query, and [] if there is none.",
  "all reachable states, starts and query strings", "All graphs.",
  [SE+": GraphQuery.execute, QuerySearchSubElement._traverse"])
p("Searches leak into each other",
  "Expected: the result of a search depends on its start and query only. Refuted: a successful search leaves the rest of its frontier in a queue shared by all GraphQuery objects, so a later search started in a different graph can return an element of the first graph; and a repeated query returns the cached element even after that element was moved, renamed or removed.",
  "all sequences of searches and modifications", "History property.",
  [SE+": GraphQuery._setup_query (default argument), _element_cache"])
p("Whole-tree search",
  "QuerySearchElement terminates on every finite hierarchy and returns an element with the queried qualified name whenever one exists in the tree that contains start, provided uuids are pairwise different in that tree; with equal uuids in different containers it can miss elements.",
  "all reachable states, starts, queries", "Termination and completeness over all trees.",
  [SE+": QuerySearchElement"])
# ---------------- query engine
p("Query results do not depend on the task schedule",
  "HypergraphQueryEngine.execute returns, for every order in which the event loop runs the collected tasks, per query (in insertion order) exactly the nodes, edges, relations and semantic values that satisfy the proposition and are the start or reachable through such elements accepted by the traversal statement - as a multiset; the order within one query follows the schedule. With no visited element at all, asyncio.wait raises ValueError.",
  "all graphs, query lists and schedules (permutations of the task list)", "All schedules.",
  [QE+": HierarchicalPrepositionQuery, HypergraphQueryEngine.execute"])
# ---------------- encoding
p("Full CBOR message round trip",
  "For a root node context whose edges connect the context, its direct sub-nodes or its direct sub-edges (no direct sub-node or sub-edge sharing the uuid of the context, values that CBOR can encode), after update_context the first full message lists exactly these elements (uuid, id_name, qualified name, parent; relations with endpoint uuid and direction number 0/1/2; values with their contents) and can be decoded by every decoder in every state; decoding changes nothing that existed and yields a new root with the same uuid and id_name, whose sub_nodes, sub_edges and sub_values have the same uuids, id_names and values in the same order, whose edges have the same relations (uuid, name, endpoint uuid) in order, and a homomorphism with the same indices.",
  "all such graphs", "All graphs of all sizes.",
  [CB+": GraphTensorCbor.full_msg/create_graph", CO+": CoordinateObjectTransformer"])
p("Directions and weights do not survive the round trip",
  "Expected: decoded relations have the encoded direction. Actual: every decoded relation is BIDIRECTIONAL with weight None, so the expectation is refuted for every graph with an INWARDS or OUTWARDS relation.",
  "all graphs", "All graphs.",
  [CB+": create_graph line 73"])
p("A context that is not a root cannot be decoded",
  "If the context has a parent, create_graph(full_msg()) raises KeyError (ErrorRecursiveHierarchy if the parent has the same uuid as the context) for every decoder in every state.",
  "all non-root contexts", "All graphs.",
  [CB+": create_graph line 63", CO+": __msg_node_tuple"])
p("full_msg is not idempotent",
  "Expected: two full messages of one unchanged graph are equal. Refuted: the relation list accumulates, and decoding the second message of any graph with at least one relation raises ErrorDuplicateElement.",
  "all graphs with at least one relation", "All graphs; history property.",
  [CO+": msg_relation_index_list"])
p("Value updates synchronise the decoded graph",
  "After create_graph and any changes that leave the uuids of the value nodes on both sides the same, in particular any changes of the values of the source's value nodes, from_msg_update_values(msg_value_update()) makes every decoded value node hold exactly the current values of its source, and changes nothing else.",
  "all graphs with any number of value nodes and any new values", "All graphs and updates.",
  [CB+": msg_value_update/from_msg_update_values"])
p("Iteration over a value node uses the dimension at construction",
  "Reading and writing by index follow list semantics; list(v) equals get_values() as long as the length is unchanged; after update_values with a shorter list iteration raises IndexError, with a longer list it is truncated to the original dimension.",
  "all value nodes, all sequences of updates", "All lists and update sequences.",
  [VN+": ValueNode"])
# ---------------- semantics / SDF
p("Semantic factory maps type names to classes",
  "generate_semantic_element accepts exactly the ten known type names, up to case, surrounding whitespace and underscores, creates an element of the corresponding class below parent with all given attributes (and values under 'values'), and raises ErrorInsufficientValues for empty attributes or InvalidSemanticType otherwise without changing anything.",
  "all strings, parents, attribute dictionaries", "All strings.",
  [SF+": CognitiveEntitySemanticFactory.generate_semantic_element"])
p("Cylinder inertia uses radius and length the wrong way round",
  "Expected: for the radius and length written into the SDF geometry (values[0], values[1]) the inertia is that of a solid cylinder of this radius and length. Actual: the two are swapped; the emitted inertia is correct iff radius and length coincide (or coincide in the formula). For spheres the emitted inertia is 2/5 m r^2.",
  "all masses and dimensions", "All numbers.",
  [IN+": calc_cylinder_inertia/calc_ellipsoid_inertia", GE+": encode_typegeometry_element"])
p("Directions survive text conversion",
  "dir_enum_relation(direction_to_text(d)) == d for all directions, and every other string raises ErrorInvalidDirection.",
  "all directions and all strings", "All strings.",
  [MU+": dir_enum_relation", HT+": direction_to_text"])
p("Nearest kinematic graph",
  "get_parent_kinematic_graph(node) returns the nearest element on the path from node to its root that contains a KinematicGraphDefinition, together with the first such definition, and (None, None) iff there is none.",
  "all reachable states and nodes", "All depths.",
  [KI+": get_parent_kinematic_graph"])
p("Several visual nodes with material in one link",
  "Expected: every visual geometry is emitted with its own material. Actual: the material map is overwritten for every visual node, so encoding a link with visual geometries under two different nodes with materials raises KeyError (refuted for every such link).",
  "all links", "All numbers of visual nodes.",
  [GE+": encode_geometry_element line 108"])
# ---------------- appended later
p("Traversals of more elements than the recursion limit fail and leak",
  "The breadth-first traversals call themselves once per visited element. If more elements are accepted below the start than nested calls are possible, the traversal visits as many elements as there are calls, raises RecursionError, and leaves the elements that were queued in the shared queue, where (C29) the next traversal finds them.",
  "all reachable states, starts, filters and recursion limits", "All graph sizes around an interpreter-dependent limit.",
  [HT+": HierarchicalTraversal._traverse"])
p("Factorisation walks end iff no cycle is reachable",
  "Factorization2Operation.execute(start) walks from nodes to their edges and from edges to the endpoints of their outgoing relations. If no cycle of this walk is reachable from start and the recursion limit exceeds the number of visits, the result lists, visit by visit in level order, every incoming relation of the visited edge with all outgoing relations of that edge (an edge reached on several ways is listed several times). If the number of visits is not below the limit, and always if a cycle is reachable (e.g. an edge leading back to its own container), RecursionError is raised.",
  "all reachable states, starts and recursion limits", "Termination over all graphs.",
  ["framework_python/rei/hypergraph/factorization_operations.py: Factorization2Operation"])
p("A query registered under several names multiplies its results",
  "If one query object is registered in a HypergraphQueryEngine under n names (and nothing else is), every element that it visits and that satisfies its preposition occurs exactly n times in the result of execute, for every schedule.",
  "all graphs, queries, numbers of names and schedules", "All schedules and graphs.",
  ["framework_python/rei/query/query_engine.py: HierarchicalPrepositionQuery.prefilter, HypergraphQueryEngine.execute"])
SDF="framework_python/rei/format/mapping/cognilang_sdf_icon.py"
KS="framework_python/rei/format/phys/kinematics/kinematic_semantic_context.py"
p("Geometry elements of a node",
  "extract_geometry_element(node) yields one <geometry> per own geometry, in order, then one per geometry of the sub-nodes of the endpoints of the outgoing relations of the edges its ports lead to. Cylinders show values[0], values[1] as radius and length, one-value ellipsoids are spheres, other ellipsoids list all values, boxes repeat a single value or show three, a box with two values has an empty size. A box without values or with more than three leaves an empty <geometry> if it is the node's own and raises TypeError if it is referenced; a cylinder with fewer than two values raises IndexError.",
  "all graphs, nodes and lists of values", "All lists of values and reference structures.",
  [GE+": encode_typegeometry_element, extract_geometry_element"])
p("Joint elements",
  "joint_base_element(j0, j1, prefix) produces a <joint> named after the first joint definition of j1, with the endpoint of j0 as parent and the endpoint of j1 as child, type 'revolute' iff joint_type is 'rev' and 'fixed' otherwise, the given axis or 0 0 1, and one pose per rigid transformation of the definition, relative to the parent, with degrees converted to radians. All names carry the prefix. Without a joint definition IndexError is raised.",
  "all graphs, relations, prefixes and attribute values", "All attribute values.",
  [KS+": joint_base_element, joint_base_element_endpoint, extract_rigid_transformation_element"])
p("Frame of a link",
  "The pose of a link is relative to the joint of the first port of its node that belongs to an OUTWARDS relation of an edge with an incoming relation from a node not named 'world'; otherwise, if the node is connected by a relation that is not OUTWARDS and its kinematic graph is nested in another one, to 'connect.' followed by the node's name; otherwise to nothing. Before a frame is found, a port whose relation has no joint definition raises StopIteration, and a port with a non-OUTWARDS relation raises AttributeError if the node's kinematic graph has no parent (or there is none).",
  "all reachable states and nodes", "All port configurations and nesting depths.",
  [KS+": __obtain_relative_frame_name"])
p("Link elements",
  "encode_link_element(link, prefix) produces a <link> with the prefixed name of the link, the pose of its first rigid transformation (or zeros) with the frame of its node, the visuals and the collisions of its node.",
  "all reachable states, links and prefixes", "All graphs.",
  [KS+": encode_link_element"])
p("Export of a list of elements without sub-graphs",
  "If no joint leads to a kinematic graph, encode(elements, prefix) opens one model per cognitive entity in order (the first one takes over the elements that waited in the cache), then appends to the last model - or to the cache if there is none - the links in order, each with its inertia, then the joints, one per pair of an incoming and an OUTWARDS joint relation of the same edge with different endpoints. The outcome is the same in every run.",
  "all reachable states, element lists, prefixes and icon states", "All graphs and sequences of exports.",
  [SDF+": CognilangSdfIcon.encode, encode_element"])
p("Canonical links of a sub-graph",
  "For every schedule of the queries, get_canonical_link(graph) returns exactly the links in the subtree of graph that do not belong to the endpoint of an outgoing relation of an edge with a joint in the subtree. A joint to a sub-graph without canonical link raises KeyError; with several, any of them may be chosen. A successful export of such a joint appends a joint named edge.connect.link and then exports the links and joints of the sub-graph, in any order of links and of joints.",
  "all reachable states, graphs and schedules", "All schedules and set orders.",
  [SDF+": CognilangSdfIcon.get_canonical_link, encode_sub_graph, encode"])
p("Names of nested sub-graphs dangle",
  "Expected: the child named by the joint to a sub-graph is the name of the exported canonical link. Actual: the joint joins prefix, edge and link by dots while the link's prefix is the plain concatenation of prefix and edge, so the names agree iff the prefix is empty and the edge's name is not; for every sub-graph of a sub-graph the reference dangles.",
  "all prefixes, edges and links", "All strings.",
  [SDF+": CognilangSdfIcon.encode, encode_sub_graph"])
CG="framework_python/rei/format/mapping/cognilang_file_icon.py"
p("Reading a description",
  "If CognilangParserFileIcon accepts a CogniLang description, a new root element shows exactly the hierarchy the description stands for: nodes, links with poses, inertias, visuals, collisions, materials, geometries, joints with directed relations to the named elements, sensors, actuators and kinematic graphs, in the order of the text, with all numbers, parameters replaced by the text of their first declaration; a second new root element holds the parameters. No element that existed before loses anything, is moved or gets a sub-element (ports apart), and all qualified names are paths again.",
  "all parse trees, all states in which names are paths, all clocks and hashes", "All descriptions.",
  [CG+": CognilangParserFileIcon and its visit methods", "framework/cognitive/speclanguage/src/main/antlr4"])
p("Unreadable descriptions are rejected",
  "A description with a number that is no number, with a parameter that is not declared before the item that uses it, with an unreadable mass, with a mesh or with a geometry vector given by reference is never accepted: reading it raises an exception.",
  "all parse trees and states", "All positions in all descriptions.",
  [CG+": __extract_float_vector_values, __extract_vector_field_values, __collect_geometries, visitInertia_body"])
p("Parts of a description that are ignored",
  "Inertia vectors, the root mark of a link, ambience edges, ports, templates, operations, template instantiations, graph nodes and graph edges have no effect: reading the description without them gives the same result, the same exceptions and the same elements.",
  "all parse trees and states", "All descriptions.",
  [CG+": CognilangParserFileIcon and its visit methods"])
p("References between geometries",
  "Expected: every geometry given by reference is connected to its target. Actual: only the first reference to a target produces an edge; later geometries that refer to the same target stay unconnected.",
  "all accepted descriptions", "All descriptions.",
  [CG+": __add_reference, __search_for_reference"])
HT="framework_python/rei/foundations/hypergraph_traversal_strategies.py"
p("Hypergraph traversal of any depth",
  "Without a homomorphism, HypergraphTraversal(v, f, norm, depth=m).execute(start) on a node follows the relations of the edges stored in a node to their endpoints, m levels deep (all levels for the default depth, if there is an end), whatever norm is used: level by level, nodes in the order met, a node as often as it is met, its edges and their relations in insertion order. For each relation v gets one call for each of its two weights that is not 0, with one tuple (first element, second element, edge, weight, norm) for every other endpoint of the edge. The graph and the shared queue are left as before. If v raises, that exception ends the traversal. The filter f has no effect.",
  "all reachable states, start nodes, depths, norms and visitors", "All graphs and depths, failures of the visitor at any call.",
  [HT+": HypergraphTraversal", "framework_python/rei/hypergraph/norm/norm_functions.py"])
p("Unlimited traversal of a cyclic hypergraph fails",
  "If a node that can be reached from start leads back to itself, execute(start) with the default depth raises RecursionError whatever the recursion limit, and leaves elements in the queue that all traversals share.",
  "all reachable states with a cycle, recursion limits and visitors", "All graphs and limits.",
  [HT+": HypergraphTraversal._traverse, _setup"])
CV="framework_python/apps/simulation/convert_cognilang_sdf.py"
p("Converting a description to SDF: links",
  "If the converter succeeds on a CogniLang description of an entity <name>, it writes two files: <name>.sdf with one model <name>, and <name>.load.sh with the spawn command. The model starts with exactly one <link> for every link described directly in a kinematic graph of the entity (in some order): with the link's name, the described translation and rotation (degrees converted, zeros if none is described), one <visual> per visual, one <collision> per collision, each with the shape and the numbers described (parameters replaced) and the described material, and, if it has an inertia, one <inertial> with the described mass and the moments of its first described shape. A description with a link that has two visuals is never converted: the converter raises.",
  "all descriptions, clocks, hashes, task schedules, recursion limits and states in which names are paths", "All descriptions and schedules.",
  [CV+": main", CG+": CognilangParserFileIcon", "framework_python/rei/format/phys/sdf"])
p("Converting a description to SDF: joints",
  "If the converter succeeds, the model contains after the links, for every joint described directly in the entity or in one of its kinematic graphs and for every pair of one of its incoming or undirected references and one of its outgoing references, exactly one block (in some order), and nothing else: a <joint> named <joint>.<outgoing reference> from the element that the one names to the element that the other names, of type revolute if the outgoing reference is 'rev' and fixed otherwise, with the described axis (z if none), and with the described pose relative to the parent if there is one. If the outgoing reference names a kinematic graph, the <joint> is <joint>.connect.<link> for a link of that graph, and what the graph contains follows it. A description with a joint that has an incoming or undirected reference but no outgoing one is never converted: the converter raises.",
  "all descriptions, task schedules, recursion limits and states in which names are paths; clocks that never repeat and hashes without collisions", "All descriptions and schedules.",
  [CV+": main", CG+": visitJoint", "framework_python/rei/format/phys/sdf"])
p("Resolvable descriptions are accepted",
  "Reading a CogniLang description succeeds, and a new root element shows its meaning, if every number and direction in it can be read and every reference can be resolved in the order of the text: a joint refers (by name, each at most once) to the world or to earlier elements of its own container the first of which with that name is a node, and a geometry given by reference refers to a node that appears before it, or to a target that has been referred to before. This holds whatever has been built before.",
  "all parse trees and all states in which names are paths; clocks that never repeat and hashes without collisions", "All descriptions and earlier histories.",
  [CG+": CognilangParserFileIcon and its visit methods", "framework_python/rei/hypergraph/common_structural_elements.py"])
p("A described graph is built as described",
  "With a fresh root node, sub-nodes with different names, and one connect_nodes call per edge, where the edges have different names without '/' and each joins different sub-nodes: all calls succeed whatever has been built before and whatever the clock does (even if it stands still), the root contains exactly these nodes and then these edges in order, and each edge has exactly one bidirectional relation to each of its nodes, in order; nothing that existed before is changed. For arbitrary names, hashes and clocks the only exception that can occur is ErrorDuplicateElement.",
  "all histories, names, incidence lists and clocks; hashes without collisions for the first part", "All graphs and histories.",
  ["framework_python/rei/factories/foundation_factory.py: HypergraphFactory.generate_node, generate_list_nodes, connect_nodes"])
p("The sample graph is the Fano plane",
  "create_fano_graph(name, clock) succeeds whatever has been built before and whatever the clock does, and returns a fresh graph with seven nodes and seven edges of three nodes each in which any two different nodes are joined by exactly one edge and any two different edges meet in exactly one node. Its assertion that the identifiers of the nodes differ never fails, even for a hash with collisions: then ErrorDuplicateElement is raised before.",
  "all histories, names and clocks; hashes without collisions for the first part", "All histories, clocks and hashes.",
  ["framework_python/rei/hypergraph/sample_graphs/fano_graph.py: create_fano_graph"])
p("Exportable descriptions are converted",
  "The converter succeeds, whatever the task schedule and whatever has been built before, on every description that C73 accepts and whose links, joints and graphs can be written: every described pose has three numbers for the translation and for the rotation (if there is one); a link has at most one visual; a cylinder has a radius and a length, a box one to three edges; the first own shape of a link is not an ellipsoid with several radii; no geometry reference names a link; a joint with an incoming or undirected reference has an outgoing one; an axis has three numbers; and a kinematic graph that a joint leads to contains a link that no joint of that graph leads to.",
  "all descriptions, task schedules, and states in which names are paths; clocks that never repeat, hashes without collisions, recursion limits above the number of elements", "All descriptions, schedules and earlier histories.",
  [CV+": main", CG+": CognilangParserFileIcon", "framework_python/rei/format/phys/sdf"])
p("Operations change only the trees they are applied to",
  "A call changes nothing in a tree that contains none of the elements it is applied to: if l is not connected by parent and sub-element steps with the receiver or with an argument that is put somewhere or connected, every attribute of l is the same after the call as before, whether the call succeeds or raises, and even if relations of one tree end in the other. The endpoint of a new relation or port and the element that connect and disconnect name are not changed either. The same holds for removal generators that are not exhausted, for connect_tuple_nodes, and for sequences of calls that stay within some trees and what they create.",
  "all states (not only reachable ones), operations, arguments, clocks, hashes and histories", "All states and operations.",
  [CI+": HierarchicalElement", BE, FF])
p("Reading a description or a message leaves existing elements alone",
  "Reading any CogniLang description, converting it, and decoding any CBOR message leave every element that existed before exactly as it was, whether they succeed or raise. A value message changes at most direct sub-elements of the graph decoded last.",
  "all descriptions, messages (also malformed ones), states, clocks, hashes, schedules", "All inputs and states.",
  [CG+": CognilangParserFileIcon", CV+": main", CB+": create_graph, from_msg_update_values"])
p("Printing a hierarchy",
  "print_graph_hierarchy(start) prints each element in the tree below start exactly once, level by level with siblings in order: nodes and edges with qualified name, name, number of sub-elements (edges) and the name of the container, relations with qualified name, arrow of the direction, name of the endpoint and weight, nothing for other elements; it succeeds and changes nothing. The one exception: started at an edge that is in no element it raises AttributeError and prints nothing. Every relation has an existing endpoint at any time.",
  "all reachable states, start elements and contents of the output so far; recursion limits above the number of elements", "All histories and trees.",
  ["framework_python/rei/foundations/hierarchical_traversal_strategies.py: print_element, print_graph_hierarchy"])
p("Bulk addition and removal",
  "What add_elements and remove_elements do. Awaiting the future that p.add_elements(xs) returns adds one element after the other until one is refused; if all can join p, they are appended to p in order, leave the elements they were in, and nothing else changes; at a duplicate the future raises ErrorDuplicateElement, with the elements before it added and those after it not. Other tasks may run between the additions; all invariants are kept. Refuted: asyncio.run(p.add_elements(xs)) adds only the first element and hides its failure; p.remove_elements removes the given elements, and nothing else, but awaiting it raises RuntimeError; given a name shared by several sub-elements it removes only the first one, and the others are no longer found by name.",
  "all reachable states, argument lists, and interleavings with operations of other tasks", "All states, lists and schedules.",
  [CI+": add_elements, remove_elements"])
p("Edges from tuples",
  "connect_tuple_nodes(container, name, tuples) makes a new edge called name in the container and joins each node of the tuples by a relation of its own, in order, with the direction and the weight of the tuple and with a new port in the node; the edge lists exactly these nodes; its incoming relations lead to the nodes of the tuples that are not outwards, its outgoing ones to those that are not inwards; nothing else changes. It succeeds if the nodes have different names and no identifier collides. A semantic value given with a relation ends up inside that relation and leaves the element it was in.",
  "all reachable states, containers, names, tuple lists, clocks and hashes", "All states and lists.",
  [FF+": connect_tuple_nodes", BE+": HypergraphEdge.unary_connect, get_incoming_relations, get_outgoing_relations"])
p("The fuzzy application",
  "Whatever has been built before, whatever the clock shows and for every hash without collisions, the application runs without error: it builds the node fuzzy_sys_cogni with battery_node inside, in which battery_dynamic_node and battery_static_node have the values 'values' and 'membership', the node battery_result with an empty value, the edge battery_infer inside fuzzy_sys_cogni with two inward relations from the battery nodes and an outward one to the result, and the node external_effects; it prints exactly the two inward relations, in order; existing elements stay as they were.",
  "all reachable states, clocks (also one that stands still) and injective hashes", "All earlier histories and clocks.",
  ["framework_python/apps/fuzzy/accu_fuzzy.py: main", FF])
p("A failed query execution spoils the next one",
  "If an execution of the query engine is aborted by RecursionError (more elements below the start than the interpreter has calls), the graph is unchanged, but the next execution of the same query with a sufficient limit returns every match exactly twice, whatever the schedule; the one after that is right again. The next execution of another query also returns elements that the failed query had queued and not visited, and what is below them, although they may lie outside of its start element and its traversal statement may reject them.",
  "all reachable states, queries, limits and schedules", "All states, limits and schedules; both executions interact through queues shared by the process.",
  [QE+": HierarchicalPrepositionQuery.prefilter, HypergraphQueryEngine.execute, execute_all_queries", HT+": HierarchicalTraversal._setup_visit_algorithm (shared fringe)"])
p("Query results come in no particular order",
  "For every way to order the matches within each query there is a schedule under which an execution of the engine returns them in this order (queries one after the other in the order of their names' first insertion); so a caller can rely on nothing but the grouping by query.",
  "all reachable states, engines with distinct idle queries, and orders", "All states and all orders; a test sees one order.",
  [QE+": HypergraphQueryEngine.execute, execute_all_queries"])
p("The sparse tensors of a message",
  "Let the edges of the context connect nodes below it that have no edges with relations of their own. After update_context, update_coo appends one entry (edge, first node, second node, weight) for every relation with a non-zero inward weight and every other endpoint of its edge, from the relation's node to the other, and for a non-zero outward weight the other way, in the order of edges and relations and under the indices of the homomorphism; and the pairs (edge, first node, weight) and (edge, second node, weight) to the two incidence lists. full_msg sends these lists as they are. Without update_context the entries carry uuids. At every position the dense tensors of the same graph hold the last of the sparse entries. Refuted: calling update_coo again does not replace the entries, n calls leave n copies; and if a connected node has edges of its own, update_coo raises KeyError and leaves the traversal queue of the process filled.",
  "all reachable states, contexts, weights and numbers of calls", "All graphs; the relation between the sparse and the dense form cannot be sampled.",
  [CO+": CoordinateObjectTransformer.execute, fill_tensors, reset", CB+": update_context, update_coo, full_msg", TE+": fill_tensors"])
p("The depth of a tensor representation",
  "If the edges of a node connect only its direct sub-nodes, and these have no edges with relations of their own, NumpyHypergraphTensorTransformer(repr_depth) gives the same tensors for every repr_depth, also an unlimited one. Refuted: a larger depth does not include the edges of the connected nodes; as soon as one of them has an edge with relations, execute raises KeyError for every depth of at least 2 (unless uuids collide), because only the direct sub-elements have indices.",
  "all reachable states, graphs and depths", "All graphs and depths.",
  [TE+": NumpyHypergraphTensorTransformer.execute", GT+": HypergraphTraversal._traverse, _setup"])
p("Tensor computations after a failed one",
  "Tensor computations should be independent of each other. Refuted: all traversals share one queue, and a computation that raised leaves relations in it. If n relations of edges of other graphs are left, each of the next n computations on a graph fails with KeyError, although the graph itself is fine; the computation after these succeeds, gives the arrays that an undisturbed program computes, and empties the queue. For example, after a failed computation with depth 2 on a nested graph with m relations in its inner edges, m-1 computations on any other graph fail.",
  "all reachable states, graphs, queue contents and numbers of calls", "All histories of calls; a unit test starts in a fresh process.",
  [TE+": NumpyHypergraphTensorTransformer.execute", GT+": HypergraphTraversal._setup (default argument), execute"])
p("Nothing dangling is accepted",
  "A description that is accepted has all its references bound, whatever exists already and whatever the clocks and hashes are: every reference of a joint is \"world\", or leads further down (it has a slash), or is the name of an element that comes before the joint in the same container, and the first such element is a node or an edge; no two references of one joint lead to elements with the same name; every reference of a geometry leads to a node that has been entered before it (not a semantic value such as a material or a transformation, and not a namesake of the geometry's own node), or to a target that has been referred to before. Every other description is rejected with an exception. If moreover all references of joints are plain (\"world\", or a name without '/' and '.' that is not the name of an edge), different texts have different hashes and no two clock readings are equal, exactly the descriptions of C73 are accepted.",
  "all descriptions, reachable states, clocks and hash functions", "Converse of C73 over all parse trees: the set of rejected descriptions is infinite.",
  [CG+": visitJoint, __lookup_reference, __extract_joint_relation, __add_reference, __search_for_reference", FF+": HypergraphFactory.connect_tuple_nodes"])
p("Decoding any message",
  "create_graph(msg) succeeds exactly on the acceptable messages: reading nodes, edges, relations and value nodes in this order, every uuid given for a parent or an endpoint is that of a node or edge which comes before, no node is its own parent, and items with the same parent have different uuids. It does not matter what exists already and what the icon decoded before. The result is exactly what the message describes: one new element for every item and nothing else, with its uuid, name, kind and values, attached to the parent and the endpoint the message gives (the last node or edge before it with this uuid, if there are several), sub-elements in message order, qualified names those of the new hierarchy; nothing that existed is changed. Directions and weights are not decoded: every relation is BIDIRECTIONAL without a weight. The root returned, and the context of the icon, is the last node without a parent. The index tables are those of the message, the last entry for each uuid and each index. Every other message raises KeyError, ErrorDuplicateElement or ErrorRecursiveHierarchy and leaves the icon as it was.",
  "all messages, reachable states and icons", "All messages, also those no encoder produces; the set of refused messages is infinite.",
  [CB+": create_graph, decode_nodes, decode_edges, decode_relations, decode_values"])
p("Sending a graph on",
  "Let a new icon for a root node c send a message m, and let any number n >= 1 of programs, each in any state, decode what they get and send the result on with a new icon. Whatever they are and however many, the message that arrives is the same: the standard message about c and its direct sub-elements, with positions as indices, qualified names made of the names, every direction BIDIRECTIONAL, and the uuids, names, parents, endpoints, values and order of the original. So everything that gets lost is lost in the first step, and indices agree between all programs after it. Any number of programs can do so. If all relations of c are BIDIRECTIONAL, the qualified names are up to date and nodes, edges and value nodes below c have different uuids each, m is the standard message itself.",
  "all reachable states, sendable graphs, programs and numbers of steps", "All chains of programs, by induction over their number.",
  [CB+": create_graph, update_context, full_msg", CO+": reset, node_index_list, edge_index_list, msg_relation_index_list, msg_value_nodes"])
p("update_context does not change the context",
  "An icon always sends the graph of the node it was constructed for. Let c be this node, a root. After update_context(a), for any element a, full_msg sends what it would send about c, if the uuids of c and of everything to be sent are met in the traversals from a; otherwise it raises KeyError. So if no node from a downwards has the uuid of c, full_msg raises KeyError until update_context(c) is called.",
  "all reachable states, icons and elements", "All pairs of nodes; expectation (that the context is switched) refuted in general.",
  [CB+": update_context, full_msg", CO+": __init__, reset, node_index_list"])
p("What a receiver computes",
  "Let c be a root node whose edges connect its direct sub-nodes. After sending it, and any number of programs that send it on, the receiver has such a graph again, with every relation BIDIRECTIONAL and without weights, so C32 to C37 apply to it; and the tensors it computes (in any state, with whatever else it holds) are the plain adjacency of the original: entry (k,i,j) is 1 if edge k connects the different nodes i and j, by their positions in the original graph, else 0; both incidence arrays have 1 where a node of an edge has a partner. If the original is undirected and without weights these are exactly the arrays the sender computes; otherwise an entry differs exactly if the edge connects the two nodes and the sender's entry is not 1 (weights and directions are lost).",
  "all reachable states of sender and receivers, all closed graphs, all numbers of programs in between", "Two programs with unbounded graphs and histories; composition of encoding, decoding and tensor computation.",
  [CB+": create_graph, update_context, full_msg", TE+": NumpyHypergraphTensorTransformer.execute"])
p("One tensor representation for several graphs",
  "A NumpyTensorRepresentation that is kept and filled again (synchronize_structure_dimensions and fill_weights, as NumpyHypergraphTensorTransformer.execute does with a new one) should give the arrays of the graph it was filled from last. It does if the number of sub-nodes or of sub-edges differs from the last use, whatever the object was used for before, failed uses included. Refuted for equal numbers: the old arrays are kept, and where the relations of the graph give 0 the entry of the old graph stays. So the result is right exactly if the old arrays are 0 wherever the graph gives 0, e.g. if nothing has changed; after any sequence of graphs of the same size every entry is the last non-zero one of the sequence.",
  "all reachable states, closed graphs and histories of uses of the object, failed ones included", "All sequences of uses of one object; a test uses a new object for every graph.",
  [TE+": NumpyTensorRepresentation.synchronize_structure_dimensions, fill_weights, fill_tensors"])
p("The Laplacians of undirected graphs",
  "For undirected graphs without weights calc_projected_laplacian is symmetric, and the row of a node sums up to 2 minus the number of endpoints, summed over the edges that connect the node to others. A Laplacian should be positive semidefinite with zero row sums: this is so exactly if no edge has more than two different endpoints, and then x^T Lp x = 0 exactly for the vectors that are constant along the edges. For edges with three endpoints or more it is refuted. The matrices of calc_laplacian are never semidefinite for edges with two endpoints or more: the row of an endpoint sums up to -(m-1)/2, where m is the number of endpoints.",
  "all reachable states, closed undirected unweighted graphs, and vectors", "All graphs and all vectors; spectral statement over matrices of unbounded size.",
  [TE+": NumpyTensorRepresentation.calc_projected_laplacian, calc_laplacian, degree_matrix, diag_degree_tensor"])
p("The projected entropy",
  "entropy_projected raises LinAlgError if there are nodes and all degrees add up to 0 (without weights: if no edge leads anywhere), and it is nan exactly if the projected Laplacian is singular (0 * log2(0), which entropy avoids with nan_to_num). So it is no number as soon as one node is isolated, and for every undirected graph without weights whose edges have at most two endpoints; for one undirected edge with three endpoints or more it is a number. For directed graphs without weights and cycles it is a number exactly if every node is touched by an edge, and then it is the entropy of the degree distribution: the sum of -p log2(p) for p = degree / total degree.",
  "all reachable states, closed graphs, eigenvalue functions that find the eigenvalue 0 (and, for the last claim, the diagonal of triangular matrices), and logarithm functions", "All graphs; in floating point the eigenvalue 0 is often a tiny number, so an example does not show the case.",
  [TE+": NumpyTensorRepresentation.entropy_projected_vector, entropy_projected, total_deg"])
p("Entropy is a property of the graph",
  "For graphs without weights degree_matrix, calc_laplacian and entropy are given by counting: a degree is the number of edges that leave or enter the node (halved if the same edges do both), the diagonal of an edge's Laplacian counts the nodes from which the edge leads to the node (halved if it leads to as many), the other entries are -1 where the edge leads from one node to the other, and entropy is the sum of -d log2(d) over these numbers, scaled. So isomorphic graphs - the same edges between renamed nodes, created in any order, in any hierarchy - have the same total degree, entropy and projected entropy. For undirected graphs only the numbers of endpoints and of edges of each node count.",
  "all reachable states, closed graphs without weights, pairs of isomorphic graphs, square root, logarithm and (order-independent) eigenvalue functions", "All graphs, all isomorphisms and all orders of creation.",
  [TE+": NumpyTensorRepresentation.degree_matrix, calc_laplacian, diag_degree_tensor, entropy, entropy_projected, calc_total_deg"])
p("Weighted undirected graphs",
  "In an undirected graph with weights the entry (k,i,j) is the last non-zero amount given for one of the two nodes in edge k (0 if there is none or the edge does not connect them), an incidence is the last non-zero amount of the edge, and all matrices are symmetric. A weighted degree should be the sum of the entries of the node: it is the sum of the last amounts of its edges instead, which differs for edges with three endpoints or more (refuted by an example). If every edge has at most two endpoints, the projected Laplacian is the usual weighted one: zero row sums for all weights, positive semidefinite for non-negative weights, and for positive weights x^T Lp x = 0 exactly for the vectors that are constant along the edges; so the projected entropy is never a number.",
  "all reachable states, closed undirected graphs with any weights, and vectors", "All graphs, weights and vectors; unbounded matrices.",
  [TE+": NumpyTensorRepresentation.fill_tensors, degree_matrix, calc_projected_laplacian, entropy_projected"])
p("Nodes without edges do not count",
  "Let a graph without weights be a copy of another one, in any order and any hierarchy, with additional nodes that no edge touches. The additional nodes have degree 0; all other degrees, the total degree and the entropy are the same. But the projected entropy is lost: as soon as one node is touched by no edge, entropy_projected raises LinAlgError if the total degree is 0 and is nan otherwise.",
  "all reachable states, closed graphs without weights, pairs of a graph and a larger copy, square root, logarithm and eigenvalue functions", "All graphs and any number of additional nodes, at any position.",
  [TE+": NumpyTensorRepresentation.degree_matrix, calc_total_deg, entropy, entropy_projected"])
p("The total degree is a sum over edges",
  "calc_total_deg adds up the degrees of the nodes. In an undirected graph this is the sum over the edges with two different endpoints or more of the number of endpoints times the last non-zero amount of the edge; without weights it is the sum of the numbers of endpoints (for ordinary graphs: twice the number of edges). In a directed graph without weights in which no edge both leaves and enters the same node, a degree is the out-degree plus the in-degree, and the total degree is the sum over the edges of the number of nodes left plus the number of nodes entered.",
  "all reachable states, closed graphs (undirected with any weights, or directed without), any number of nodes and edges", "Sums over graphs of any size, exchanged by induction; a test adds up one graph.",
  [TE+": NumpyTensorRepresentation.calc_total_deg, degree_matrix"])
p("A failed message spoils the next one",
  "full_msg raises TypeError exactly if a value of the graph cannot be encoded (for a sendable graph after update_context, whatever was called before). A call that fails should leave nothing behind, so that the message can be sent once the value is corrected. Refuted: every call of full_msg, failed or not, adds the relations of the graph to the encoder's list once more; after n calls the next message has every relation n + 1 times, and if there is a relation and n > 0 every decoder in every state raises ErrorDuplicateElement.",
  "all reachable sendable graphs, all sequences of earlier calls in states that differ in the contents of value nodes, all receivers", "All histories of successful and failed calls on unbounded graphs, and all states of the receiver.",
  [CB+": full_msg, create_graph", CO+": msg_relation_index_list"])
p("The two factorisations",
  "Give both factorisations the same selection: nodes, edges with different uuids, and the relations of these edges that lead to these nodes. A user expects the same pairs. Factorization2SubsetOperation always succeeds. RelationFactorization2SubsetOperation raises KeyError exactly if a selected INWARDS or BIDIRECTIONAL relation belongs to an edge without a selected OUTWARDS one; otherwise it returns exactly the pairs of the other whose second relation is not BIDIRECTIONAL. So they agree, up to the order, if no selected relation is BIDIRECTIONAL; with self loops they differ as soon as one is.",
  "all reachable graphs, all such selections in any order, with and without self loops",
  "relates the results of two algorithms on every graph and selection; examples without BIDIRECTIONAL relations agree",
  [FO+": Factorization2SubsetOperation", FO+": RelationFactorization2SubsetOperation"])
p("Factor pairs and tensor entries",
  "Take a root whose edges only connect its direct sub-nodes, without weights. Factorization2SubsetOperation(self_loop=False), given all sub-nodes and sub-edges in any order, returns pairs (r, r') whose relations lead from a node a to a node b through an edge e, and there is such a pair exactly if a and b are different, a relation leads from a into e and one leads from e to b. Both are representations of the same graph, so a user expects such a pair exactly where the weight tensor has an entry for (e, a, b). Every pair has its entry, with value 1. The converse holds if all relations are BIDIRECTIONAL, and for every edge with one INWARDS and one OUTWARDS relation. In general it is refuted: between any two nodes of an edge with only INWARDS relations there are entries both ways, and no pair.",
  "all reachable closed graphs without weights, all edges and pairs of nodes, all orders of the selection",
  "relates two algorithms on every graph; on ordinary directed and undirected graphs they agree",
  [FO+": Factorization2SubsetOperation", TE])
#END
if __name__=="__main__":
    with open(os.path.join(os.path.dirname(__file__),"..","properties.jsonl"),"w") as f:
        for x in P: f.write(json.dumps(x)+"\n")
    print(len(P))
