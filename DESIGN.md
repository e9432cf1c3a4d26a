# Formal model of kyberszittya/rei_hypergraph (Python framework) in Coq

Scope: `/repo/framework_python/rei` (plus `apps/simulation` where it only composes it).
Everything below lives in `rocq/theories`, logical name `Verif`.
Property texts: `properties.jsonl`.  Status per property: `MANIFEST.json`.  Wrong-program tests: `seeded/LOG.jsonl`.

## 1. How the code is modelled

* **Shallow, function by function.** Each Python function becomes a Gallina function in the monad
  `M A := st -> res A * st`, `res A = Ok a | Exn e`.  A raised exception keeps the partially updated
  state, exactly as in Python (this is what C11, C15, C18, C23, C29 are about).
* **Heap.** Python objects are numbered (`loc = nat`); `st` holds a list of objects, the number of clock readings so far and the
  shared default-argument queues.  Object identity (`is`) is equality of `loc`.
* **Dictionaries** are insertion-ordered association lists (`dget`, `dset`, `ddel`): CPython semantics
  (assignment to an existing key keeps its position).
* **Oracles.** The clock (`clk : clock id -> number of readings so far -> Z`) and the hash (`sha : string -> string`) are part of the
  state and never change; theorems hold for all of them.  Collision-freeness / monotonicity are explicit
  hypotheses of the theorems that need them.
* **Generators** (`remove_element`) are explicit state machines (`gen`, `gen_next`), because their laziness is observable.
* **Loops** over finite Python iterables are structural recursion; `while` loops over queues and unbounded
  recursion take fuel.  Fuel exhaustion is a visible error (`RecursionError` where CPython would overflow the
  stack, `Diverges` where it would loop), and theorems prove that it does not occur (or, C10, that it does).
* **Numbers**: Python floats / numpy doubles are exact rationals (`Qc`); rounding is not modelled.

## 2. Files

| file | content |
|---|---|
| `Py.v` | exceptions, monad, ordered dictionaries, strings |
| `Heap.v` | objects, state, field access |
| `Hierarchy.v` | `foundations/conceptual_item.py`, `abstract_items.py`, and the class dispatch of `base_elements.py` |
| `Elements.v` | constructors, `unary_connect`, generators of `base_elements.py`, `value_node.py` |
| `Factory.v` | `factories/*.py`, `identity_generator.py`, `cognitive_entity_semantic_factory.py` |
| `Traverse.v`, `HTraverse.v` | `hierarchical_traversal_strategies.py`, `hypergraph_traversal_strategies.py` |
| `Homomorphism.v`, `Tensor.v`, `Entropy.v`, `Reuse.v`, `Factorization.v` | `hypergraph/homomorphism_functions.py`, `tensor/*.py`, `representation/abstract_representations.py`, `factorization_operations.py` |
| `Search.v`, `QueryEngine.v` | `foundations/query/*.py`, `query/query_engine.py` |
| `Encode.v` | `hypergraph/encoding/*.py` |
| `Mapping.v` | `format/mapping` (directions), `value_node.py` readings |
| `Phys.v` | `format/phys`: geometry, inertia, joints, frames, links (pure functions of the heap) |
| `Sdf.v` | `format/phys/sdf`: the icon, `encode_element`, joints, sub-graphs (relational where `set.pop` chooses) |
| `CogniLang.v` | `format/mapping/cognilang_file_icon.py` over parse trees |
| `Convert.v` | `apps/simulation/convert_cognilang_sdf.py` |
| `Print.v` | `hierarchical_traversal_strategies.py`: `print_element`, `print_graph_hierarchy` |
| `Bulk.v` | `conceptual_item.py`: `add_elements`, `remove_elements` as tasks advanced by an event loop |
| `Apps.v` | `apps/fuzzy/accu_fuzzy.py`: `main` |
| `Samples.v` | `hypergraph/sample_graphs/fano_graph.py` |
| `Spec*.v` | the vocabulary of the theorem statements (ancestors, levels, paths, ...), independent of the model's helpers |
| `P*.v`, `Q*.v` | proofs (`P*`: invariant of all histories; `Q*`: one group of properties each) |
| `Props*.v` | the property theorems only, each closed by `exact lemma`, followed by `Print Assumptions` |
| `Ex*.v` | concrete runs: replays of the repository's unit tests and non-vacuity witnesses |

## 3. Per-property plan

| id | model | proof |
|---|---|---|
| C01-C04 | `Hierarchy`, `Elements`; histories = lists of API operations | invariant `WF`, one-step preservation for every operation, induction over histories |
| C05, C06 | `update`, `update_subtree` | functional characterisation of the BFS refresh; refutation is a general theorem on every removal of a non-leaf |
| C07 | `add_element` | case analysis, for every state |
| C08, C09, C12 | `add_element`, `gen_next` | explicit post-states under `WF` |
| C10 | `add_element` | the name chain on a cycle exhausts any fuel; general theorem |
| C11, C15, C16, C18 | `gen_next`, `disconnect`, `unary_connect` | explicit post-states |
| C13 | `add_element` | separate invariant over grow-at-leaf histories; refutation for moves of non-leaves |
| C14 | `get_by_name` | induction over the path tokens |
| C17, C23, C24 | `unary_connect`, `connect_nodes`, ... | explicit post-states, induction over node lists |
| C19 | direct | lists filters |
| C20 | timestamps | invariant over histories |
| C21, C25 | strings hashed | injectivity of decimal printing and of separators; witnesses |
| C22 | `generate_list_nodes` | induction over names |
| C26-C29 | `Traverse` | queue = two adjacent levels; NoDup bound by the number of objects gives termination |
| C30, C31 | `Homomorphism` | corollaries of C26/C28 |
| C32-C37 | `HTraverse`, `Tensor` | batch list characterised, then pointwise fold; sums over index ranges |
| C38, C39 | `Factorization` | `In`-characterisation |
| C40-C42 | `Search` | queue invariant; termination of C42 by visited-set measure |
| C43 | `QueryEngine` | all permutations of the task list |
| C44-C48 | `Encode` | decode . encode on explicit graph shape |
| C49, C50, C52 | direct | induction on lists / strings |
| C51, C54 | `Phys` | rational algebra; explicit raise |
| C53 | `Phys` | induction over the ancestor path |
| C55 | `Factory` | explicit post-states of the tuple / batch connection |
| C56 | `Factorization` | finite iff no cycle is reachable; induction on the recursion limit and on reachability |
| C57 | `QueryEngine` | composition of the per-name results, induction over the names |
| C58 | `Phys` | case analysis over the geometry classes; lists of own and referenced geometries |
| C59, C60 | `Phys` | specification relations `joint_xml`, `framed`; function computes the relation |
| C61 | `Phys` | `link_xml` assembled from pose, geometry, frame |
| C62 | `Sdf` | `encode_run` characterised for balanced joint relations; determinism |
| C63 | `Sdf` | set of canonical links for every recursion limit and every `set.pop`; both directions of the recursive case |
| C64 | `Sdf` | string algebra on prefixes |
| C65, C66 | `CogniLang` | denotation of a parse tree as an abstract tree (`SpecCogni.v`); each visit method adds exactly its denotation; induction over parse trees |
| C67 | `CogniLang` | equality of the two programs, by induction over parse trees |
| C68 | `CogniLang` | induction over the denotation |
| C69, C70 | `HTraverse` | the queue runs through blocks of nodes, edges and relations of one level; induction over levels |
| C71 | `Convert` | composition of C65, C43 and C61: the elements of the loaded tree that the three queries select, then the text of each link read off the tree |
| C72 | `Convert` | as C71; the uuids of loaded edges differ (clock readings and hashes are injective, an invariant of every loader step), so relations are paired exactly within their own joint (C39) |
| C73 | `CogniLang` | progress: every loader step succeeds while the new elements carry uuids of distinct earlier clock readings; the cache of the loader agrees with the entries that the parse tree prescribes; composition with C65 |
| C74 | `Factory` | induction over the edges: which texts have been hashed in the root and in each node so far |
| C75 | `Samples` | C74; the plane axioms for the indices are decided by computation and transported along the two injective enumerations |
| C76 | `CogniLang`, `Convert`, `Sdf`, `SpecExport` | C73 gives the load; a record `laid` (QExp2) relates the loaded heap to the parse tree, from which every exporter call is shown to return (QExp3 links, QExp4 joints, QExp5–6 nested graphs, by induction on the height of the graph) |
| C77, C78 | all operations, `CogniLang`, `Convert`, `Encode` | a predicate on monadic programs (`iso`, QFrame): a set of locations closed under parent and sub-elements stays closed and nothing outside is written; compositional, one lemma per model function |
| C79 | `Print` | from C26 (levels) with `print_element` as visitor; the invariant of all histories has a clause that relations have endpoints |
| C80 | `Bulk` | rounds of the event loop = additions one by one, then induction on the list with C08/C07 for each; removals with C09/C12; interleavings are histories |
| C81 | `Factory`, `Elements` | from C16/C17 with the relations filtered by direction; with a semantic value from the move of C08 |
| C82 | `Apps` | a table of the elements made so far is an invariant; one lemma per kind of creation, names without slashes keep identifiers apart; then C81 |
| C83 | `QueryEngine` | the breadth-first order splits at the interruption into the visited prefix and the order below the left-over queue; hence the second run has every visited element waiting twice |
| C84 | `QueryEngine` | a schedule is constructed from the wanted order: tasks with one result each can be permuted into any order of their results |
| C85 | `Encode`, `HTraverse` | the traversal with indices simulates the one with uuids (C69) as long as everything met has an index; the entries are compared with the dense ones relation by relation; in the nested case the queue is followed up to the first relation of an edge without index |
| C86 | `Tensor`, `HTraverse` | flat graphs have no second level, so all depths visit the same relations (simulation of C85); nested graphs as in C85 |
| C87 | `Tensor`, `HTraverse` | the hierarchical traversals and the other state do not depend on the shared queue; induction on the number of calls; the last call visits the start node n+1 times, and repeating the writes does not change the arrays |
| C88 | `CogniLang`, `SpecBound` | inversion of a successful load: the cache of the loader never holds more than the entries the parse tree prescribes; a second relation of an edge to a namesake has the uuid of the first, so add_element raises; induction over the items of the description |
| C89 | `Encode`, `SpecDecode` | invariant over the items read so far: the memory is the old one and the first n items, the table of elements holds the latest place of each uuid; each step succeeds iff its references are bound and add_element accepts the element; induction over the four lists of the message |
| C90 | `Encode`, `SpecRelay` | C44 and C89 give the shape, names and directions of the decoded graph; its level order is the context and its direct sub-elements, so indices are positions; `standard` depends only on what `decoded` keeps; induction over the number of steps |
| C91 | `Encode`, `SpecCtx` | the message is computed from look-ups that all succeed, or the first that fails raises KeyError; what is found is what the level orders contain (C26, C30) |
| C92 | `Encode`, `Tensor`, `SpecRecv` | composition of C44/C45/C90 with C32: endpoints of the copy are identified by uuid among the sub-elements of one parent, so edge/node positions and `connects` carry over; induction over the programs in between |
| C93 | `Reuse` (over `Tensor`), `SpecReuse` | `fill_all` over arbitrary old arrays (the last write to an entry, else the old entry) and no write is 0; invariant: the arrays of a used object have the recorded sizes; induction over the uses |
| C94 | `Tensor`, `SpecLap` | 2 x^T M x = 2 sum of (row sum) x_i^2 + sum A_ij (x_i - x_j)^2 for M = -A off the diagonal, A symmetric; the row sums by C34; sums of non-negative numbers |
| C95 | `Entropy` (over `Tensor`), `SpecEntropy` | 0 is an eigenvalue iff the matrix is singular (a hypothesis on the parameter); witnesses: the unit vector of an isolated node, the vector of ones; regular: triangular by induction on the rank, or 2I - J with row sums 2 - m |
| C96 | `Tensor`, `Entropy`, `SpecIso` | each entry by C32; sums over positions as sums over lists of nodes and edges; counts and sums are invariant under permutations of these lists; the positions of the images give the permutation of the indices |
| C97 | `Tensor`, `Entropy`, `SpecWeight` | the loops over relations leave the last non-zero amount at each entry (lists of writes reduced with a last-of-filter lemma); degree by C33; with two endpoints the Laplacian is a sum of edge forms w(x_a-x_b)^2 |
| C98 | `Tensor`, `Entropy`, `SpecPad` | the counting formulas of C96: an untouched node adds nothing to any count and 0 to every sum; its column of the projected Laplacian is 0, so the matrix is singular |
| C99 | `Tensor`, `SpecHand` | degrees by C34, C96 and C97, then the double sum over nodes and edges is exchanged by induction; the nodes of an edge are its different endpoints (closed graph) |
| C100 | `Encode`, `SpecFail` | the parts of the message other than the values do not read the values (congruence over heaps that agree up to values), so a failed call changes the encoder as a successful one; then C47 |
| C101 | `Factorization`, `SpecFact2` | membership in the results of C38 and C39; a relation has one parent, so equal parent uuids mean the same selected edge; both lists have no duplicates, so equal membership is a permutation |
| C102 | `Factorization`, `Tensor`, `SpecFact3` | membership by C38, where different sub-nodes have different uuids; entries by C32; in and out of an edge implies adjacency, the converse by cases on the directions |

## 4. Trusted base

* Coq 8.16.1 kernel (`coqc`; `vm_compute` is used in examples and finite-domain steps).
* `Print Assumptions` of every theorem in `Props*.v`: see section 6 (target: "Closed under the global context").
* Libraries: Coq standard library and std++ (definitions and lemmas only; no axioms of theirs are used).
* The reading of the Python code.  Known simplifications are listed at each definition and in section 5.

## 5. Not modelled

* The stack depth limit of CPython, except where it is the point: the recursive walks of `Traverse`, `HTraverse`, `Factorization`,
  `Encode` and `Sdf` take the limit `lim` as a parameter (theorems hold for every `lim`, or for every large enough one).  Nested coroutines
  do not count against it.  Computing a qualified name recurses over the depth without limit in the model.
* IEEE rounding, numpy dtype conversions, `numpy.linalg.eig` and transcendental functions (parameters), the byte-level CBOR codec (`cbor2`), SHA3, the ANTLR parser, file I/O and logging.
* The asyncio event loop, except where its schedule is observable: C43, where it is an arbitrary permutation, and C80.  `Bulk.v` reads
  `asyncio.gather` as CPython 3.10 implements it (the code uses `match`, new in 3.10, and `asyncio.coroutine`, removed in 3.11): generators
  are accepted as coroutines; a task advances its generator once per round of the loop, a yielded `None` suspends it until the next round,
  and any other yielded object that is not a future makes the task throw `RuntimeError` into the generator.
* Multi-threading (the code has none).
* Text functions `lower`, `strip`, `capitalize`: ASCII only.  CBOR is the identity on the structures of a message.
* XML: an element is a tree with attribute texts and value tokens; the rendering of a number as text, escaping and pretty printing are not
  modelled.  `np.pi / 180` is the parameter `rad`.
* `set` iteration and `set.pop` order: arbitrary (relations or permutations).  A `StopIteration` leaving a coroutine becomes `RuntimeError`.
* `cognilang_file_icon.py`: the ANTLR lexer and parser (not part of the repository); `CogniLang.v` starts from the parse tree, whose shape is that of the grammar files.
  `float()` is the parameter `fl` (infinities and NaN count as errors).
* The Java / C++ parts of the repository.

## 6. Assumptions of the theorems

`Print Assumptions` answers "Closed under the global context" for every theorem named in `MANIFEST.json`: no axiom of Coq's standard
library or of any other library is used.  (Checkers that list the axioms of all *loaded* libraries mention `Coq.ssr.ssrunder.Under_rel.*`:
parameters of a sealed module of the standard library which std++ loads; no theorem depends on them.)
