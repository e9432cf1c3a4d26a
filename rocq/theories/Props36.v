(** * Property theorems C99: the total degree is a sum over edges *)
From Verif Require Import Spec SpecTrav Hierarchy Elements Factory History Traverse Homomorphism HTraverse Tensor SpecTensor SpecWeight SpecIso SpecHand QHand.
Local Open Scope nat_scope.

(** Undirected: every edge with two endpoints or more counts once per endpoint, with its last amount. *)
Theorem C99_undirected s c lim x T : reach s -> closed_graph (heap s) c -> work (heap s) c < lim -> computes lim c s x T -> undirected (heap s) c ->
  total_deg T = qsum_list (map (fun e => (qnat (arity (heap s) e) * edge_amount (heap s) e)%Qc) (connecting (heap s) c)) /\
  (unweighted (heap s) c -> total_deg T = qnat (sum_list_with (arity (heap s)) (connecting (heap s) c))).
Proof. intros R G L HC V. split; [exact (full_handshake s c lim x T R G L HC V)|exact (full_handshake_plain s c lim x T R G L HC V)]. Qed.
Print Assumptions C99_undirected.
(** Directed, without weights, and no edge leaves and enters the same node: out-degree plus in-degree. *)
Theorem C99_directed s c lim x T : reach s -> closed_graph (heap s) c -> work (heap s) c < lim -> computes lim c s x T ->
  unweighted (heap s) c -> one_way (heap s) c ->
  (forall i a, nodes_of (heap s) c !! i = Some a -> degree_matrix T i = qnat (leaving (heap s) c a + entering (heap s) c a)) /\
  total_deg T = qnat (sum_list_with (fun e => length (sources (heap s) c e) + length (sinks (heap s) c e)) (edges_of (heap s) c)).
Proof. exact (full_one_way s c lim x T). Qed.
Print Assumptions C99_directed.
