(** * Property theorem C85: the sparse tensors of a message *)
From Verif Require Import Spec SpecTrav Hierarchy Elements Factory History Homomorphism SpecHom HTraverse Tensor SpecTensor SpecHTrav Encode SpecEnc SpecCoo QCoo2 QCoo3 QCoo4.

(** C85.  After update_context, update_coo adds one entry for every relation with a non-zero weight
    and every other endpoint of its edge, in the order of edges and relations, by the indices of the homomorphism. *)
Theorem C85_contents s c lim lim2 g r s1 g1 : reach s -> inner_graph (heap s) c -> flat (heap s) c -> co_context (ic_coo g) = c ->
  update_context lim c s g = (Ok r, s1, g1) -> htrav_work (heap s) c 2 < lim2 ->
  exists x g2 ts, s1 = s /\ co_hom (ic_coo g1) = Some x /\ update_coo lim2 s g1 = (Ok tt, s, g2) /\ appended g1 g2 ts /\ Forall2 (by_index (heap s) x) (sparse (heap s) c) ts.
Proof. exact (q_C85_contents s c lim lim2 g r s1 g1). Qed.
Print Assumptions C85_contents.
(** Without update_context: the same entries by uuids. *)
Theorem C85_without_context s c lim g : reach s -> inner_graph (heap s) c -> flat (heap s) c -> co_context (ic_coo g) = c -> co_hom (ic_coo g) = None ->
  htrav_work (heap s) c 2 < lim ->
  exists g', update_coo lim s g = (Ok tt, s, g') /\ appended g g' (map (by_uuid (heap s)) (sparse (heap s) c)).
Proof. exact (coo_uuid s c lim g). Qed.
Print Assumptions C85_without_context.
(** The message contains the entries collected so far. *)
Theorem C85_message s g m g' : full_msg s g = (Ok m, g') -> m_tens m = co_tens (ic_coo g) /\ m_out m = co_out (ic_coo g) /\ m_in m = co_in (ic_coo g).
Proof. exact (q_C85_message s g m g'). Qed.
Print Assumptions C85_message.
(** Expected: a second call replaces the entries.  It does not: [n] calls leave [n] copies. *)
Theorem C85_replacement_refuted s c lim lim2 g r s1 g1 n : reach s -> inner_graph (heap s) c -> flat (heap s) c -> co_context (ic_coo g) = c ->
  update_context lim c s g = (Ok r, s1, g1) -> htrav_work (heap s) c 2 < lim2 ->
  exists x ts, co_hom (ic_coo g1) = Some x /\ Forall2 (by_index (heap s) x) (sparse (heap s) c) ts /\ appended g1 (after_coo n lim2 s g1) (concat (repeat ts n)).
Proof. exact (q_C85_accumulates s c lim lim2 g r s1 g1 n). Qed.
Print Assumptions C85_replacement_refuted.
(** The dense tensors hold the last of the sparse entries at every position. *)
Theorem C85_dense s c lim x T : reach s -> closed_graph (heap s) c -> work (heap s) c < lim -> computes lim c s x T ->
  (forall k e i a j b, edges_of (heap s) c !! k = Some e -> nodes_of (heap s) c !! i = Some a -> nodes_of (heap s) c !! j = Some b ->
     te_W T k i j = entry_of (sparse (heap s) c) e a b) /\
  (forall k e i a, edges_of (heap s) c !! k = Some e -> nodes_of (heap s) c !! i = Some a ->
     te_Io T k i = first_of (sparse (heap s) c) e a /\ te_Ii T k i = second_of (sparse (heap s) c) e a).
Proof. exact (q_C85_dense s c lim x T). Qed.
Print Assumptions C85_dense.
(** A graph of direct sub-nodes is a graph of nodes below it. *)
Theorem C85_closed s c : reach s -> closed_graph (heap s) c -> inner_graph (heap s) c.
Proof. exact (closed_inner s c). Qed.
Print Assumptions C85_closed.
(** Expected: nested graphs can be collected too.  If a connected node has an edge with relations of
    its own, whose uuid differs from those of the indexed edges, the call fails and leaves its queue filled. *)
Theorem C85_nested_refuted s c lim lim2 g r s1 g1 p e : reach s -> inner_graph (heap s) c -> co_context (ic_coo g) = c ->
  update_context lim c s g = (Ok r, s1, g1) -> p ∈ neighbours (heap s) c -> e ∈ edges_of (heap s) p -> rels_of (heap s) e <> [] ->
  (forall p' e' y, p' ∈ neighbours (heap s) c -> e' ∈ edges_of (heap s) p' -> through (is_kind k_edge) (heap s) c y -> uuid_of (heap s) y <> uuid_of (heap s) e') ->
  htrav_work (heap s) c 2 < lim2 ->
  exists q, update_coo lim2 s g1 = (Exn KeyError, set_fr_hyper q s, g1).
Proof. exact (q_C85_nested s c lim lim2 g r s1 g1 p e). Qed.
Print Assumptions C85_nested_refuted.
