(** * Vocabulary: Laplacians *)
From Verif Require Export SpecTensor SpecRecv.

(** The quadratic form of an n x n matrix. *)
Definition qform (n : nat) (M : nat -> nat -> Qc) (x : nat -> Qc) : Qc := qsum n (fun i => qsum n (fun j => (x i * M i j * x j)%Qc)).
Definition semidefinite (n : nat) (M : nat -> nat -> Qc) : Prop := forall x, (0 <= qform n M x)%Qc.
(** [x] does not change along an edge. *)
Definition constant_on_edges (h : list obj) (c : loc) (x : nat -> Qc) : Prop :=
  forall k e i a j b, edges_of h c !! k = Some e -> nodes_of h c !! i = Some a -> nodes_of h c !! j = Some b -> connects h e a b -> x i = x j.
