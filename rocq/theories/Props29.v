(** * Property theorems C92: what a receiver computes *)
From Verif Require Import Spec SpecTrav Hierarchy Elements Factory History Traverse Homomorphism HTraverse Tensor SpecTensor Encode SpecEnc SpecRelay SpecRecv QRecv.
Local Open Scope nat_scope.

(** A graph whose edges connect its nodes is such a graph for the receiver, undirected and
    without weights (so C32 to C37 apply to what is received) ... *)
Theorem C92_graph s c lim m s0 s1 root : reach s -> sendable (heap s) c -> closed_graph (heap s) c -> sends lim s c m -> receives m s0 s1 root ->
  reach s1 /\ closed_graph (heap s1) root /\ unweighted (heap s1) root /\ undirected (heap s1) root.
Proof. exact (q_C92_graph s c lim m s0 s1 root). Qed.
Print Assumptions C92_graph.
(** ... and what the receiver computes, after any number of programs in between, is the
    plain adjacency of the original graph, by the positions in the original graph: ... *)
Theorem C92_entries s c lim m n m' s0 s1 root lim' x T : reach s -> sendable (heap s) c -> closed_graph (heap s) c -> sends lim s c m ->
  relayed_n n m m' -> receives m' s0 s1 root -> work (heap s1) root < lim' -> computes lim' root s1 x T -> plain_adjacency (heap s) c T.
Proof. exact (q_C92_entries s c lim m n m' s0 s1 root lim' x T). Qed.
Print Assumptions C92_entries.
(** (every program can receive and compute it) *)
Theorem C92_possible s c lim m n m' s0 : reach s -> sendable (heap s) c -> closed_graph (heap s) c -> sends lim s c m -> relayed_n n m m' -> reach s0 ->
  nodes_of (heap s) c <> [] ->
  exists s1 root, receives m' s0 s1 root /\ forall lim', work (heap s1) root < lim' -> exists x T, computes lim' root s1 x T.
Proof. exact (q_C92_possible s c lim m n m' s0). Qed.
Print Assumptions C92_possible.
(** ... the arrays of the sender if its graph is undirected and without weights ... *)
Theorem C92_same s c lim m n m' s0 s1 root lim' x T lim0 x0 T0 : reach s -> sendable (heap s) c -> closed_graph (heap s) c -> sends lim s c m ->
  relayed_n n m m' -> receives m' s0 s1 root -> work (heap s1) root < lim' -> computes lim' root s1 x T ->
  unweighted (heap s) c -> undirected (heap s) c -> work (heap s) c < lim0 -> computes lim0 c s x0 T0 -> same_arrays T0 T.
Proof. exact (q_C92_same s c lim m n m' s0 s1 root lim' x T lim0 x0 T0). Qed.
Print Assumptions C92_same.
(** ... and otherwise different wherever the sender has another number than 1 for two
    nodes that an edge connects. *)
Theorem C92_differs s c lim m n m' s0 s1 root lim' x T lim0 x0 T0 k e i a j b : reach s -> sendable (heap s) c -> closed_graph (heap s) c -> sends lim s c m ->
  relayed_n n m m' -> receives m' s0 s1 root -> work (heap s1) root < lim' -> computes lim' root s1 x T ->
  work (heap s) c < lim0 -> computes lim0 c s x0 T0 ->
  edges_of (heap s) c !! k = Some e -> nodes_of (heap s) c !! i = Some a -> nodes_of (heap s) c !! j = Some b ->
  te_W T k i j = te_W T0 k i j <-> (connects (heap s) e a b -> te_W T0 k i j = 1%Qc).
Proof. exact (q_C92_differs s c lim m n m' s0 s1 root lim' x T lim0 x0 T0 k e i a j b). Qed.
Print Assumptions C92_differs.
