(** * Property theorems C97: undirected graphs with weights *)
From Verif Require Import Spec SpecTrav Hierarchy Elements Factory History Traverse Homomorphism HTraverse Tensor SpecTensor SpecWeight QWeight.
Local Open Scope nat_scope.

(** The entry of two nodes is the last amount given for one of them, an incidence the last amount
    of the edge; everything is symmetric, whatever the weights. *)
Theorem C97_entries s c lim x T : reach s -> closed_graph (heap s) c -> work (heap s) c < lim -> computes lim c s x T -> undirected (heap s) c ->
  (forall k e i a j b, edges_of (heap s) c !! k = Some e -> nodes_of (heap s) c !! i = Some a -> nodes_of (heap s) c !! j = Some b ->
     te_W T k i j = if decide (connects (heap s) e a b) then pair_amount (heap s) e a b else 0%Qc) /\
  (forall k e i a, edges_of (heap s) c !! k = Some e -> nodes_of (heap s) c !! i = Some a ->
     te_Io T k i = (if decide (a ∈ endpoints (heap s) e /\ 2 <= arity (heap s) e) then edge_amount (heap s) e else 0%Qc) /\ te_Ii T k i = te_Io T k i) /\
  (forall k i j, k < te_E T -> i < te_n T -> j < te_n T -> te_W T k i j = te_W T k j i) /\
  (forall i j, i < te_n T -> j < te_n T -> projected_laplacian T i j = projected_laplacian T j i).
Proof. exact (full_wt_entries s c lim x T). Qed.
Print Assumptions C97_entries.
(** So a degree is the sum of the last amounts of the edges of the node, not the sum of its entries. *)
Theorem C97_degree s c lim x T i a : reach s -> closed_graph (heap s) c -> work (heap s) c < lim -> computes lim c s x T -> undirected (heap s) c ->
  nodes_of (heap s) c !! i = Some a -> degree_matrix T i = qsum_list (map (edge_amount (heap s)) (proper_edges (heap s) c a)).
Proof. intros R G Hl HC V. exact (full_wt_degree s c lim x T R G Hl HC V i a). Qed.
Print Assumptions C97_degree.
(** With at most two endpoints per edge the projected Laplacian is one: zero row sums, and
    for non-negative amounts semidefinite; for positive ones its kernel is what is constant along
    the edges; so the projected entropy is never a number. *)
Theorem C97_graph s c lim x T : reach s -> closed_graph (heap s) c -> work (heap s) c < lim -> computes lim c s x T -> undirected (heap s) c ->
  (forall e, e ∈ edges_of (heap s) c -> arity (heap s) e <= 2) ->
  (forall i, i < te_n T -> qsum (te_n T) (projected_laplacian T i) = 0%Qc) /\
  ((forall e, e ∈ edges_of (heap s) c -> (0 <= edge_amount (heap s) e)%Qc) -> semidefinite (te_n T) (projected_laplacian T)) /\
  ((forall e, e ∈ edges_of (heap s) c -> (0 < edge_amount (heap s) e)%Qc) ->
    forall v, qform (te_n T) (projected_laplacian T) v = 0%Qc <-> constant_on_edges (heap s) c v) /\
  (nodes_of (heap s) c <> [] -> forall eigs lg q, finds_zero eigs -> entropy_projected eigs lg T <> Value (Some q)).
Proof. exact (full_two s c lim x T). Qed.
Print Assumptions C97_graph.
