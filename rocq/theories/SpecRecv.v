(** * Vocabulary: what a receiver computes *)
From Verif Require Export SpecTensor SpecRelay.

(** Edge [e] has the different endpoints [a] and [b]. *)
Definition connects (h : list obj) (e a b : loc) : Prop := a <> b /\ a ∈ endpoints h e /\ b ∈ endpoints h e.
Definition zero_one (P : Prop) (q : Qc) : Prop := (P /\ q = 1%Qc) \/ (~ P /\ q = 0%Qc).
(** [T] is the undirected adjacency of [c]: 1 where an edge connects two nodes, else 0. *)
Record plain_adjacency (h : list obj) (c : loc) (T : tensors) : Prop := {
  pa_E : te_E T = length (edges_of h c);
  pa_n : te_n T = length (nodes_of h c);
  pa_W : forall k e i a j b, edges_of h c !! k = Some e -> nodes_of h c !! i = Some a -> nodes_of h c !! j = Some b ->
    zero_one (connects h e a b) (te_W T k i j);
  pa_I : forall k e i a, edges_of h c !! k = Some e -> nodes_of h c !! i = Some a ->
    zero_one (exists b, connects h e a b) (te_Io T k i) /\ te_Ii T k i = te_Io T k i }.
(** The same arrays. *)
Definition same_arrays (T T' : tensors) : Prop :=
  te_E T' = te_E T /\ te_n T' = te_n T /\
  (forall k i j, k < te_E T -> i < te_n T -> j < te_n T -> te_W T' k i j = te_W T k i j) /\
  (forall k i, k < te_E T -> i < te_n T -> te_Io T' k i = te_Io T k i /\ te_Ii T' k i = te_Ii T k i).
(** A program in state [s0], with any icon, decodes [m] into [root] and ends up in [s1]. *)
Definition receives (m : message) (s0 s1 : st) (root : loc) : Prop :=
  reach s0 /\ exists g x g', create_graph m s0 g = (Ok (Some root, x), s1, g').
