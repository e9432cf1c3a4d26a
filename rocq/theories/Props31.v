(** * Property theorems C94: the Laplacians of undirected graphs without weights *)
From Verif Require Import Spec SpecTrav Hierarchy Elements Factory History Traverse Homomorphism HTraverse Tensor SpecTensor SpecLap QLap.
Local Open Scope nat_scope.

(** calc_projected_laplacian is symmetric; a row sums up to 2 minus the number of endpoints,
    summed over the edges that connect the node to others. *)
Theorem C94_row_sums s c lim x T : reach s -> closed_graph (heap s) c -> work (heap s) c < lim -> computes lim c s x T ->
  unweighted (heap s) c -> undirected (heap s) c ->
  (forall i j, i < te_n T -> j < te_n T -> projected_laplacian T i j = projected_laplacian T j i) /\
  (forall i a, nodes_of (heap s) c !! i = Some a ->
     qsum (te_n T) (projected_laplacian T i) = qsum_list (map (fun e => (1 + 1 - qnat (arity (heap s) e))%Qc) (proper_edges (heap s) c a))).
Proof. exact (full_row_sums s c lim x T). Qed.
Print Assumptions C94_row_sums.
(** It is positive semidefinite exactly if no edge has more than two endpoints ... *)
Theorem C94_semidefinite_iff s c lim x T : reach s -> closed_graph (heap s) c -> work (heap s) c < lim -> computes lim c s x T ->
  unweighted (heap s) c -> undirected (heap s) c ->
  semidefinite (te_n T) (projected_laplacian T) <-> forall e, e ∈ edges_of (heap s) c -> arity (heap s) e <= 2.
Proof. exact (full_semidefinite s c lim x T). Qed.
Print Assumptions C94_semidefinite_iff.
(** ... and then its form vanishes exactly for what is constant along the edges. *)
Theorem C94_kernel s c lim x T v : reach s -> closed_graph (heap s) c -> work (heap s) c < lim -> computes lim c s x T ->
  unweighted (heap s) c -> undirected (heap s) c -> (forall e, e ∈ edges_of (heap s) c -> arity (heap s) e <= 2) ->
  qform (te_n T) (projected_laplacian T) v = 0%Qc <-> constant_on_edges (heap s) c v.
Proof. intros R G Hl HC U V. exact (full_kernel s c lim x T R G Hl HC U V v). Qed.
Print Assumptions C94_kernel.
(** The matrices of calc_laplacian never are, for edges with two endpoints or more. *)
Theorem C94_tensor_refuted s c lim x T : reach s -> closed_graph (heap s) c -> work (heap s) c < lim -> computes lim c s x T ->
  unweighted (heap s) c -> undirected (heap s) c -> edges_of (heap s) c <> [] -> exists L, laplacian T = Ok L /\
    forall k e, edges_of (heap s) c !! k = Some e ->
      (forall i a, nodes_of (heap s) c !! i = Some a ->
         qsum (te_n T) (L k i) = (if decide (a ∈ endpoints (heap s) e) then - ((qnat (arity (heap s) e) - 1) * (1 / (1 + 1))) else 0)%Qc) /\
      (2 <= arity (heap s) e -> ~ semidefinite (te_n T) (L k)).
Proof. exact (full_tensor s c lim x T). Qed.
Print Assumptions C94_tensor_refuted.
