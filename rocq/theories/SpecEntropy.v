(** * Vocabulary: projected entropy *)
From Verif Require Export SpecTensor SpecRecv Entropy.

(** The n x n matrix [M] maps a vector other than 0 to 0. *)
Definition singular (n : nat) (M : nat -> nat -> Qc) : Prop :=
  exists x, (exists i, i < n /\ x i <> 0%Qc) /\ forall i, i < n -> qsum n (fun j => (M i j * x j)%Qc) = 0%Qc.
(** What is needed of the eigenvalues: 0 is one exactly for singular matrices ... *)
Definition finds_zero (eigs : nat -> (nat -> nat -> Qc) -> list Qc) : Prop := forall n M, 0%Qc ∈ eigs n M <-> singular n M.
(** ... and those of a triangular matrix (with some order of its indices) without
    negative numbers on the diagonal are these numbers. *)
Definition finds_diagonal (eigs : nat -> (nat -> nat -> Qc) -> list Qc) : Prop := forall n M (rank : nat -> nat),
  (forall i j, i < n -> j < n -> i <> j -> M i j <> 0%Qc -> rank i < rank j) -> (forall i, i < n -> (0 <= M i i)%Qc) ->
  Permutation (eigs n M) (map (fun i => M i i) (seq 0 n)).
(** No edge connects [a] with another node. *)
Definition isolated (h : list obj) (c a : loc) : Prop := forall e b, e ∈ edges_of h c -> ~ connects h e a b.
(** No edge leads from [a] or to [a]. *)
Definition untouched (h : list obj) (c a : loc) : Prop := forall e b, e ∈ edges_of h c -> ~ adjacent h e a b /\ ~ adjacent h e b a.
(** All edges lead upwards. *)
Definition acyclic (h : list obj) (c : loc) (rank : loc -> nat) : Prop := forall e a b, e ∈ edges_of h c -> adjacent h e a b -> rank a < rank b.
