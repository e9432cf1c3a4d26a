(** * Vocabulary: graphs with additional nodes *)
From Verif Require Export SpecTensor SpecEntropy SpecIso.

(** [c'] is a copy of [c] (by [f] and [g], in any order) with the additional nodes [extra],
    which no edge touches. *)
Record padded (h : list obj) (c : loc) (h' : list obj) (c' : loc) (f g : loc -> loc) (extra : list loc) : Prop := {
  pd_nodes : Permutation (map f (nodes_of h c) ++ extra) (nodes_of h' c');
  pd_edges : Permutation (map g (edges_of h c)) (edges_of h' c');
  pd_adj : forall e a b, e ∈ edges_of h c -> a ∈ nodes_of h c -> b ∈ nodes_of h c -> adjacent h e a b <-> adjacent h' (g e) (f a) (f b);
  pd_extra : forall a, a ∈ extra -> untouched h' c' a }.
