(** * Property theorems C96: degrees, Laplacians and entropy of graphs without weights *)
From Verif Require Import Spec SpecTrav Hierarchy Elements Factory History Traverse Homomorphism HTraverse Tensor SpecTensor SpecIso QIso.
Local Open Scope nat_scope.

(** degree_matrix: the edges that leave and enter a node *)
Theorem C96_degree s c lim x T i a : reach s -> closed_graph (heap s) c -> work (heap s) c < lim -> computes lim c s x T -> unweighted (heap s) c ->
  nodes_of (heap s) c !! i = Some a -> degree_matrix T i = node_degree (heap s) c a.
Proof. intros R G Hl HC U. exact (full_degree s c lim x T R G Hl HC U i a). Qed.
Print Assumptions C96_degree.
(** calc_laplacian, entry by entry *)
Theorem C96_laplacian s c lim x T : reach s -> closed_graph (heap s) c -> work (heap s) c < lim -> computes lim c s x T -> unweighted (heap s) c ->
  edges_of (heap s) c <> [] -> exists L, laplacian T = Ok L /\
    forall k e i a j b, edges_of (heap s) c !! k = Some e -> nodes_of (heap s) c !! i = Some a -> nodes_of (heap s) c !! j = Some b ->
      L k i j = (if decide (a = b) then edge_degree (heap s) c e a else if decide (adjacent (heap s) e a b) then - (1) else 0)%Qc.
Proof. exact (full_laplacian s c lim x T). Qed.
Print Assumptions C96_laplacian.
(** entropy *)
Theorem C96_entropy s c lim x T sq lg : reach s -> closed_graph (heap s) c -> work (heap s) c < lim -> computes lim c s x T -> unweighted (heap s) c ->
  2 <= length (edges_of (heap s) c) -> entropy sq lg T = Ok (graph_entropy sq lg (heap s) c).
Proof. intros R G Hl HC U. exact (full_entropy s c lim x T R G Hl HC U sq lg). Qed.
Print Assumptions C96_entropy.
(** For undirected graphs the numbers of endpoints and of edges of a node are all that counts. *)
Theorem C96_undirected s c lim x T e a : reach s -> closed_graph (heap s) c -> work (heap s) c < lim -> computes lim c s x T ->
  unweighted (heap s) c -> undirected (heap s) c -> e ∈ edges_of (heap s) c -> a ∈ nodes_of (heap s) c ->
  node_degree (heap s) c a = qnat (length (proper_edges (heap s) c a)) /\
  edge_degree (heap s) c e a = (if decide (a ∈ endpoints (heap s) e) then (qnat (arity (heap s) e) - 1) * (1 / (1 + 1)) else 0)%Qc.
Proof. exact (full_undirected s c lim x T e a). Qed.
Print Assumptions C96_undirected.
(** Isomorphic graphs, in any states, have the same total degree and the same entropies. *)
Theorem C96_isomorphic s c lim x T s' c' lim' x' T' f g sq lg :
  reach s -> closed_graph (heap s) c -> work (heap s) c < lim -> computes lim c s x T -> unweighted (heap s) c ->
  reach s' -> closed_graph (heap s') c' -> work (heap s') c' < lim' -> computes lim' c' s' x' T' -> unweighted (heap s') c' ->
  isomorphic (heap s) c (heap s') c' f g ->
  total_deg T' = total_deg T /\ entropy sq lg T' = entropy sq lg T /\
  forall eigs, orderless eigs -> entropy_projected eigs lg T' = entropy_projected eigs lg T.
Proof.
  intros R G L HC U R' G' L' HC' U' I. split; [exact (full_total s c lim x T R G L HC U s' c' lim' x' T' R' G' L' HC' U' f g I)|].
  split; [exact (full_iso_entropy s c lim x T R G L HC U s' c' lim' x' T' R' G' L' HC' U' f g I sq lg)|].
  intros eigs. exact (full_iso_projected s c lim x T R G L HC U s' c' lim' x' T' R' G' L' HC' U' f g I eigs lg).
Qed.
Print Assumptions C96_isomorphic.
