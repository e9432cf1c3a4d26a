(** * Property theorems C98: nodes without edges do not count *)
From Verif Require Import Spec SpecTrav Hierarchy Elements Factory History Traverse Homomorphism HTraverse Tensor SpecTensor SpecEntropy SpecIso SpecPad QPad.
Local Open Scope nat_scope.

(** The same graph with additional nodes that no edge touches, in any states: their degree is 0,
    and all other degrees, the total degree and the entropy are the same. *)
Theorem C98_same s c lim x T s' c' lim' x' T' f g extra :
  reach s -> closed_graph (heap s) c -> work (heap s) c < lim -> computes lim c s x T -> unweighted (heap s) c ->
  reach s' -> closed_graph (heap s') c' -> work (heap s') c' < lim' -> computes lim' c' s' x' T' -> unweighted (heap s') c' ->
  padded (heap s) c (heap s') c' f g extra ->
  (forall i j a, nodes_of (heap s) c !! i = Some a -> nodes_of (heap s') c' !! j = Some (f a) -> degree_matrix T' j = degree_matrix T i) /\
  (forall j a, a ∈ extra -> nodes_of (heap s') c' !! j = Some a -> degree_matrix T' j = 0%Qc) /\
  total_deg T' = total_deg T /\ forall sq lg, entropy sq lg T' = entropy sq lg T.
Proof.
  intros R G L HC U R' G' L' HC' U' I. split; [exact (full_pad_degree s c lim x T R G L HC U s' c' lim' x' T' R' G' L' HC' U' f g extra I)|].
  split; [exact (full_pad_extra s c s' c' lim' x' T' R' G' L' HC' U' f g extra I)|].
  split; [exact (full_pad_total s c lim x T R G L HC U s' c' lim' x' T' R' G' L' HC' U' f g extra I)|].
  exact (full_pad_entropy s c lim x T R G L HC U s' c' lim' x' T' R' G' L' HC' U' f g extra I).
Qed.
Print Assumptions C98_same.
(** But the projected entropy is lost with the first such node. *)
Theorem C98_projected s c lim x T eigs lg a : reach s -> closed_graph (heap s) c -> work (heap s) c < lim -> computes lim c s x T -> unweighted (heap s) c ->
  finds_zero eigs -> a ∈ nodes_of (heap s) c -> untouched (heap s) c a ->
  (total_deg T = 0%Qc -> entropy_projected eigs lg T = LinAlgError) /\ (total_deg T <> 0%Qc -> entropy_projected eigs lg T = Value None).
Proof. intros R G L HC U F Ha Un. rewrite (full_untouched s c lim x T R G L HC U eigs lg a F Ha Un). destruct (decide _); tauto. Qed.
Print Assumptions C98_projected.
