(** * Vocabulary: hypergraphs given by names and lists of indices *)
From Verif Require Export Spec Samples.

(** The relations of the edge [e] lead, in both directions and in this order, to [xs]. *)
Definition edge_joins (h : list obj) (e : loc) (xs : list loc) : Prop :=
  Forall2 (fun r n => kind_of h r = Some KRel /\ attr_of o_endpoint h r = Some (Some n) /\ attr_of o_dir h r = Some BIDIRECTIONAL) (children h e) xs.
(** [p] contains the nodes [ns] with the names [nms], then the edges [es]; an edge (name,
    indices) joins the nodes with these indices. *)
Record graph_is (h : list obj) (p : loc) (nms : list string) (lines : list (string * list nat)) (ns es : list loc) : Prop := {
  gi_kids : children h p = ns ++ es;
  gi_nodes : Forall2 (fun n nm => kind_of h n = Some KNode /\ name_of h n = nm) ns nms;
  gi_edges : Forall2 (fun e l => kind_of h e = Some KEdge /\ name_of h e = fst l /\ exists xs, edge_joins h e xs /\ map (fun i => ns !! i) (snd l) = map Some xs) es lines
}.

(** A client of the factory: a root node, its sub-nodes, and then one call of connect_nodes
    (with the default direction) for each edge (name, indices of sub-nodes). *)
Definition build_graph (f : factory) (root : string) (nms : list string) (lines : list (string * list nat)) : M (loc * list loc * list loc) :=
  let! p := generate_node f root None in
  let! ns := generate_list_nodes f nms (Some p) in
  let! es := map_m (fun l : string * list nat =>
      let! xs := map_m (fun i => of_opt IndexError (ns !! i)) (snd l) in connect_nodes f p (fst l) xs BIDIRECTIONAL None) lines in
  ret (p, ns, es).

(** ** Projective planes *)
(** The node [n] lies on the edge [e]. *)
Definition on (h : list obj) (e n : loc) : Prop := exists r, r ∈ children h e /\ attr_of o_endpoint h r = Some (Some n).
(** Two nodes are joined by exactly one edge, two edges meet in exactly one node. *)
Definition projective (h : list obj) (ns es : list loc) : Prop :=
  (forall n n', n ∈ ns -> n' ∈ ns -> n <> n' -> exists e, e ∈ es /\ on h e n /\ on h e n' /\ forall e', e' ∈ es -> on h e' n -> on h e' n' -> e' = e) /\
  (forall e e', e ∈ es -> e' ∈ es -> e <> e' -> exists n, n ∈ ns /\ on h e n /\ on h e' n /\ forall n', on h e n' -> on h e' n' -> n' = n).
