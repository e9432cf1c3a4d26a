(** * Vocabulary: sums over edges *)
From Verif Require Export SpecTensor SpecIso SpecWeight.

(** The edges with two different endpoints or more. *)
Definition connecting (h : list obj) (c : loc) : list loc := filter (fun e => 2 <= arity h e) (edges_of h c).
(** No edge both leaves and enters the same node. *)
Definition one_way (h : list obj) (c : loc) : Prop := forall e a b b', e ∈ edges_of h c -> adjacent h e a b -> ~ adjacent h e b' a.
(** The nodes that [e] leaves, and the nodes that it enters. *)
Definition sources (h : list obj) (c e : loc) : list loc := filter (fun a => leads_to h c e a <> []) (nodes_of h c).
Definition sinks (h : list obj) (c e : loc) : list loc := filter (fun a => comes_from h c e a <> []) (nodes_of h c).
