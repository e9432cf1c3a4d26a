(** * Property theorems C32 - C37: tensor representation *)
From Verif Require Import Spec SpecTrav Hierarchy Elements Factory History Traverse Homomorphism SpecHom HTraverse Tensor SpecTensor QTensor3.
Local Open Scope nat_scope.

(** The transformer succeeds and does not change the graph; no arrays only for an empty graph. *)
Theorem C32_succeeds s c lim : reach s -> closed_graph (heap s) c -> work (heap s) c < lim ->
  exists tasks x T, transform lim (Some 1) c s = (Ok tasks, s, Some (x, T)) /\
    (T = None <-> nodes_of (heap s) c = [] /\ edges_of (heap s) c = []).
Proof. exact (q_C32_succeeds s c lim). Qed.
Print Assumptions C32_succeeds.
(** Its indices are the positions among the direct sub-nodes and sub-edges. *)
Theorem C32_indices s c lim x T : reach s -> closed_graph (heap s) c -> work (heap s) c < lim -> computes lim c s x T ->
  te_E T = length (edges_of (heap s) c) /\ te_n T = length (nodes_of (heap s) c) /\
  (forall i p, nodes_of (heap s) c !! i = Some p <-> p ∈ nodes_of (heap s) c /\ hom_node x (uuid_of (heap s) p) = Ok i) /\
  (forall k e, edges_of (heap s) c !! k = Some e <-> e ∈ edges_of (heap s) c /\ hom_edge x (uuid_of (heap s) e) = Ok k).
Proof. exact (q_C32_indices s c lim x T). Qed.
Print Assumptions C32_indices.
(** C32 *)
Theorem C32_entries_adjacency s c lim x T : reach s -> closed_graph (heap s) c -> work (heap s) c < lim -> computes lim c s x T -> unweighted (heap s) c ->
  (forall k e i a j b, edges_of (heap s) c !! k = Some e -> nodes_of (heap s) c !! i = Some a -> nodes_of (heap s) c !! j = Some b ->
     (adjacent (heap s) e a b -> te_W T k i j = 1%Qc) /\ (~ adjacent (heap s) e a b -> te_W T k i j = 0%Qc)) /\
  (forall k i, k < te_E T -> i < te_n T ->
     ((exists j, j < te_n T /\ te_W T k i j <> 0%Qc) -> te_Io T k i = 1%Qc) /\
     ((forall j, j < te_n T -> te_W T k i j = 0%Qc) -> te_Io T k i = 0%Qc)) /\
  (forall k j, k < te_E T -> j < te_n T ->
     ((exists i, i < te_n T /\ te_W T k i j <> 0%Qc) -> te_Ii T k j = 1%Qc) /\
     ((forall i, i < te_n T -> te_W T k i j = 0%Qc) -> te_Ii T k j = 0%Qc)).
Proof. exact (q_C32_full s c lim x T). Qed.
Print Assumptions C32_entries_adjacency.
(** The other endpoint need not be outgoing. *)
Theorem C32_and_expectation_refuted s c lim x T e k a i b j r : reach s -> closed_graph (heap s) c -> work (heap s) c < lim -> computes lim c s x T -> unweighted (heap s) c ->
  edges_of (heap s) c !! k = Some e -> nodes_of (heap s) c !! i = Some a -> nodes_of (heap s) c !! j = Some b -> a <> b ->
  r ∈ rels_of (heap s) e -> ep_of (heap s) r = Some a -> inward (heap s) r -> b ∈ endpoints (heap s) e ->
  te_W T k i j = 1%Qc.
Proof. exact (q_C32_conj s c lim x T e k a i b j r). Qed.
Print Assumptions C32_and_expectation_refuted.
(** C33 *)
Theorem C33_diagonal_and_trace s c lim x T : reach s -> closed_graph (heap s) c -> work (heap s) c < lim -> computes lim c s x T ->
  (forall k i, k < te_E T -> i < te_n T -> te_W T k i i = 0%Qc) /\
  qsum (te_n T) (fun i => projected_laplacian T i i) = total_deg T.
Proof. exact (q_C33_full s c lim x T). Qed.
Print Assumptions C33_diagonal_and_trace.
(** C34 *)
Theorem C34_undirected s c lim x T : reach s -> closed_graph (heap s) c -> work (heap s) c < lim -> computes lim c s x T ->
  unweighted (heap s) c -> undirected (heap s) c ->
  (forall k i j, k < te_E T -> i < te_n T -> j < te_n T -> te_W T k i j = te_W T k j i) /\
  (forall k i, k < te_E T -> i < te_n T -> te_Io T k i = te_Ii T k i) /\
  (forall i a, nodes_of (heap s) c !! i = Some a -> degree_matrix T i = qnat (length (proper_edges (heap s) c a))).
Proof. exact (q_C34_full s c lim x T). Qed.
Print Assumptions C34_undirected.
(** C35: how the two Laplacians differ, for every undirected graph *)
Theorem C35_difference s c lim x T : reach s -> closed_graph (heap s) c -> work (heap s) c < lim -> computes lim c s x T ->
  unweighted (heap s) c -> undirected (heap s) c -> edges_of (heap s) c <> [] ->
  exists L, laplacian T = Ok L /\
    forall i a j, nodes_of (heap s) c !! i = Some a -> j < te_n T ->
      qsum (te_E T) (fun k => L k i j) = (projected_laplacian T i j + (if decide (i = j) then excess (heap s) c a else 0))%Qc.
Proof. exact (q_C35_full s c lim x T). Qed.
Print Assumptions C35_difference.
(** 3-uniform graphs: equal; other uniform graphs: never equal *)
Theorem C35_uniform s c lim x T m : reach s -> closed_graph (heap s) c -> work (heap s) c < lim -> computes lim c s x T ->
  unweighted (heap s) c -> undirected (heap s) c ->
  edges_of (heap s) c <> [] -> (forall e, e ∈ edges_of (heap s) c -> arity (heap s) e = m) ->
  exists L, laplacian T = Ok L /\
    (m = 3 -> forall i j, i < te_n T -> j < te_n T -> qsum (te_E T) (fun k => L k i j) = projected_laplacian T i j) /\
    (2 <= m -> m <> 3 -> exists i, i < te_n T /\ qsum (te_E T) (fun k => L k i i) <> projected_laplacian T i i).
Proof. exact (q_C35_unif s c lim x T m). Qed.
Print Assumptions C35_uniform.
(** C36 *)
Theorem C36_last_relation_wins s c lim x T k e i a j b : reach s -> closed_graph (heap s) c -> work (heap s) c < lim -> computes lim c s x T ->
  edges_of (heap s) c !! k = Some e -> nodes_of (heap s) c !! i = Some a -> nodes_of (heap s) c !! j = Some b ->
  (a <> b -> a ∈ endpoints (heap s) e -> b ∈ endpoints (heap s) e ->
    (forall l1 r l2 w, rels_of (heap s) e = l1 ++ r :: l2 -> writes_entry (heap s) a b r w ->
       (forall r' w', r' ∈ l2 -> ~ writes_entry (heap s) a b r' w') -> te_W T k i j = w) /\
    ((forall r w, r ∈ rels_of (heap s) e -> ~ writes_entry (heap s) a b r w) -> te_W T k i j = 0%Qc)) /\
  (~ (a <> b /\ a ∈ endpoints (heap s) e /\ b ∈ endpoints (heap s) e) -> te_W T k i j = 0%Qc).
Proof. exact (q_C36_full s c lim x T k e i a j b). Qed.
Print Assumptions C36_last_relation_wins.
(** C37, for arbitrary square root and logarithm functions *)
Theorem C37_one_edge s c lim e sq lg : reach s -> closed_graph (heap s) c -> work (heap s) c < lim -> edges_of (heap s) c = [e] ->
  exists x T, computes lim c s x T /\ normalized_laplacian sq T = Exn ZeroDivisionError /\
    entropy_vector sq lg T = Exn ZeroDivisionError /\ entropy sq lg T = Exn ZeroDivisionError.
Proof. exact (q_C37_edge s c lim e sq lg). Qed.
Print Assumptions C37_one_edge.
(** C37: two edges are enough *)
Theorem C37_two_edges s c lim x T sq lg : reach s -> closed_graph (heap s) c -> work (heap s) c < lim -> computes lim c s x T ->
  2 <= length (edges_of (heap s) c) -> (exists N, normalized_laplacian sq T = Ok N) /\ (exists v, entropy_vector sq lg T = Ok v) /\ exists y, entropy sq lg T = Ok y.
Proof. exact (q_C37_several s c lim x T sq lg). Qed.
Print Assumptions C37_two_edges.
