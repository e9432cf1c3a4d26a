(** * Property theorems C95: the projected entropy *)
From Verif Require Import Spec SpecTrav Hierarchy Elements Factory History Traverse Homomorphism HTraverse Tensor SpecTensor SpecEntropy QEntropy.
Local Open Scope nat_scope.

(** Refused if all degrees cancel out; nan if the projected Laplacian is singular. *)
Theorem C95_nan s c lim x T eigs lg : reach s -> closed_graph (heap s) c -> work (heap s) c < lim -> computes lim c s x T -> finds_zero eigs ->
  (entropy_projected eigs lg T = LinAlgError <-> te_n T <> 0 /\ total_deg T = 0%Qc) /\
  (entropy_projected eigs lg T = Value None <-> te_n T <> 0 /\ total_deg T <> 0%Qc /\ singular (te_n T) (projected_laplacian T)).
Proof. intros R G Hl HC F. exact (full_nan T eigs lg F). Qed.
Print Assumptions C95_nan.
(** Without weights it is refused exactly if no edge leads anywhere. *)
Theorem C95_refused s c lim x T eigs lg : reach s -> closed_graph (heap s) c -> work (heap s) c < lim -> computes lim c s x T ->
  unweighted (heap s) c -> nodes_of (heap s) c <> [] ->
  entropy_projected eigs lg T = LinAlgError <-> forall e a b, e ∈ edges_of (heap s) c -> ~ adjacent (heap s) e a b.
Proof. intros R G Hl HC. exact (full_refused s c lim x T R G Hl HC eigs lg). Qed.
Print Assumptions C95_refused.
(** An isolated node spoils it, with any directions and weights. *)
Theorem C95_isolated s c lim x T eigs lg a : reach s -> closed_graph (heap s) c -> work (heap s) c < lim -> computes lim c s x T -> finds_zero eigs ->
  a ∈ nodes_of (heap s) c -> isolated (heap s) c a -> forall q, entropy_projected eigs lg T <> Value (Some q).
Proof. intros R G Hl HC F. exact (full_isolated s c lim x T R G Hl HC eigs lg F a). Qed.
Print Assumptions C95_isolated.
(** An undirected graph without weights, with at most two endpoints per edge, never has one. *)
Theorem C95_graph s c lim x T eigs lg : reach s -> closed_graph (heap s) c -> work (heap s) c < lim -> computes lim c s x T -> finds_zero eigs ->
  unweighted (heap s) c -> undirected (heap s) c -> nodes_of (heap s) c <> [] -> (forall e, e ∈ edges_of (heap s) c -> arity (heap s) e <= 2) ->
  (forall q, entropy_projected eigs lg T <> Value (Some q)) /\
  (forall e a b, e ∈ edges_of (heap s) c -> connects (heap s) e a b -> entropy_projected eigs lg T = Value None).
Proof. intros R G Hl HC F. exact (full_graph s c lim x T R G Hl HC eigs lg F). Qed.
Print Assumptions C95_graph.
(** One undirected edge with three endpoints or more, and no other node: it is a number. *)
Theorem C95_hyperedge s c lim x T eigs lg e : reach s -> closed_graph (heap s) c -> work (heap s) c < lim -> computes lim c s x T -> finds_zero eigs ->
  unweighted (heap s) c -> undirected (heap s) c -> edges_of (heap s) c = [e] -> (forall a, a ∈ nodes_of (heap s) c -> a ∈ endpoints (heap s) e) ->
  3 <= arity (heap s) e -> exists q, entropy_projected eigs lg T = Value (Some q).
Proof. intros R G Hl HC F. exact (full_hyperedge s c lim x T R G Hl HC eigs lg F e). Qed.
Print Assumptions C95_hyperedge.
(** Directed graphs without weights and cycles: it is a number exactly if every node is touched by an edge ... *)
Theorem C95_acyclic s c lim x T eigs lg rank : reach s -> closed_graph (heap s) c -> work (heap s) c < lim -> computes lim c s x T -> finds_zero eigs ->
  unweighted (heap s) c -> acyclic (heap s) c rank -> nodes_of (heap s) c <> [] ->
  (exists q, entropy_projected eigs lg T = Value (Some q)) <-> forall a, a ∈ nodes_of (heap s) c -> ~ untouched (heap s) c a.
Proof. intros R G Hl HC F. exact (full_acyclic s c lim x T R G Hl HC eigs lg F rank). Qed.
Print Assumptions C95_acyclic.
(** ... and then it is the entropy of the distribution of the degrees. *)
Theorem C95_shannon s c lim x T eigs lg rank : reach s -> closed_graph (heap s) c -> work (heap s) c < lim -> computes lim c s x T ->
  finds_diagonal eigs -> unweighted (heap s) c -> acyclic (heap s) c rank -> nodes_of (heap s) c <> [] ->
  (forall a, a ∈ nodes_of (heap s) c -> ~ untouched (heap s) c a) ->
  entropy_projected eigs lg T = Value (Some (qsum (te_n T) (fun i => let p := (degree_matrix T i / total_deg T)%Qc in (- p * lg p)%Qc))).
Proof. exact (full_shannon s c lim x T eigs lg rank). Qed.
Print Assumptions C95_shannon.
