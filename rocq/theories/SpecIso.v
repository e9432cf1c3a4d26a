(** * Vocabulary: the numbers of a graph, and isomorphic graphs *)
From Verif Require Export SpecTensor SpecRecv SpecEntropy.

Global Instance adjacent_dec h e a b : Decision (adjacent h e a b).
Proof.
  unfold adjacent, inward, outward.
  destruct (decide (Exists (fun r => (ep_of h r = Some a /\ (dir_of h r = Some INWARDS \/ dir_of h r = Some BIDIRECTIONAL)) \/
                                     (ep_of h r = Some b /\ (dir_of h r = Some OUTWARDS \/ dir_of h r = Some BIDIRECTIONAL))) (rels_of h e))) as [H|H].
  - destruct (decide (a <> b /\ a ∈ endpoints h e /\ b ∈ endpoints h e)) as [K|K]; [left|right].
    + apply Exists_exists in H. tauto.
    + intros (H1 & H2 & H3 & _). by apply K.
  - right. intros (_ & _ & _ & X). apply H, Exists_exists. exact X.
Defined.
(** The nodes that edge [e] leads to from [a], and from which it leads to [a]. *)
Definition leads_to (h : list obj) (c e a : loc) : list loc := filter (fun b => adjacent h e a b) (nodes_of h c).
Definition comes_from (h : list obj) (c e a : loc) : list loc := filter (fun b => adjacent h e b a) (nodes_of h c).
(** How many edges leave and enter [a]. *)
Definition leaving (h : list obj) (c a : loc) : nat := length (filter (fun e => leads_to h c e a <> []) (edges_of h c)).
Definition entering (h : list obj) (c a : loc) : nat := length (filter (fun e => comes_from h c e a <> []) (edges_of h c)).
(** Their sum, halved if the same edges leave and enter. *)
Definition node_degree (h : list obj) (c a : loc) : Qc :=
  if decide (Forall (fun e => leads_to h c e a = [] <-> comes_from h c e a = []) (edges_of h c))
  then (qnat (leaving h c a + entering h c a) * (1 / (1 + 1)))%Qc else qnat (leaving h c a + entering h c a).
(** The number of nodes from which [e] leads to [a], halved if it leads to as many. *)
Definition edge_degree (h : list obj) (c e a : loc) : Qc :=
  if decide (length (comes_from h c e a) = length (leads_to h c e a))
  then (qnat (length (comes_from h c e a)) * (1 / (1 + 1)))%Qc else qnat (length (comes_from h c e a)).
(** What [a] contributes to the entropy of [e]: -d log d *)
Definition share (sq : Qc -> Qc) (h : list obj) (c e a : loc) : Qc :=
  (1 / qnat (length (edges_of h c) - 1) * edge_degree h c e a / sq (node_degree h c a + 1))%Qc.
Definition graph_entropy (sq lg : Qc -> Qc) (h : list obj) (c : loc) : Qc :=
  qsum_list (map (fun e => qsum_list (map (fun a => (- share sq h c e a * lg (share sq h c e a))%Qc) (nodes_of h c))) (edges_of h c)).

(** [f] and [g] map the nodes and edges of [c] to those of [c'], in some order, and keep the directions. *)
Record isomorphic (h : list obj) (c : loc) (h' : list obj) (c' : loc) (f g : loc -> loc) : Prop := {
  is_nodes : Permutation (map f (nodes_of h c)) (nodes_of h' c');
  is_edges : Permutation (map g (edges_of h c)) (edges_of h' c');
  is_adj : forall e a b, e ∈ edges_of h c -> a ∈ nodes_of h c -> b ∈ nodes_of h c -> adjacent h e a b <-> adjacent h' (g e) (f a) (f b) }.
(** The eigenvalues do not depend on the order of the indices. *)
Definition orderless (eigs : nat -> (nat -> nat -> Qc) -> list Qc) : Prop := forall n M M' (p : nat -> nat),
  (forall i, i < n -> p i < n) -> (forall i j, i < n -> j < n -> p i = p j -> i = j) ->
  (forall i j, i < n -> j < n -> M' (p i) (p j) = M i j) -> Permutation (eigs n M') (eigs n M).
