(** * Property theorems C44 - C48: messages *)
From Verif Require Import Spec SpecTrav Hierarchy Elements Factory History Traverse Homomorphism SpecHom Encode SpecEnc QEnc5 QEnc6.

(** C44: [update_context] succeeds (with enough nested calls), the first message of a
    sendable graph can be decoded by every decoder in every state, and the result
    is a copy; the indices are those of the encoder. *)
Theorem C44_context_updatable s c g : reach s -> exists_in (heap s) c ->
  exists n, forall lim, n < lim -> exists r g1, update_context lim c s g = (Ok r, s, g1).
Proof. exact (context_updatable s c g). Qed.
Print Assumptions C44_context_updatable.
Theorem C44_round_trip s c lim g r s1 g1 : reach s -> sendable (heap s) c -> co_context (ic_coo g) = c -> co_rels (ic_coo g) = [] ->
  update_context lim c s g = (Ok r, s1, g1) ->
  exists x m g2, s1 = s /\ co_hom (ic_coo g1) = Some x /\ full_msg s1 g1 = (Ok m, g2) /\
  forall s2 g', reach s2 -> exists root x' s3 g3,
    create_graph m s2 g' = (Ok (Some root, x'), s3, g3) /\ reach s3 /\ ic_context g3 = Some root /\ ic_hom g3 = Some x' /\
    decoded (heap s) c (heap s2) (heap s3) root /\ decoded_indices (heap s) c x x'.
Proof. exact (q_C44 s c lim g r s1 g1). Qed.
Print Assumptions C44_round_trip.
(** What the message contains *)
Theorem C44_contents s c lim g r s1 g1 m g2 : reach s -> sendable (heap s) c -> co_context (ic_coo g) = c -> co_rels (ic_coo g) = [] ->
  update_context lim c s g = (Ok r, s1, g1) -> full_msg s1 g1 = (Ok m, g2) -> tells (heap s) c m.
Proof. exact (q_C44_tells s c lim g r s1 g1 m g2). Qed.
Print Assumptions C44_contents.

(** C45: whatever the message says *)
Theorem C45_decoded_relations m s g res s' g' : create_graph m s g = (res, s', g') ->
  forall l, ~ exists_in (heap s) l -> kind_of (heap s') l = Some KRel ->
  dir_of (heap s') l = Some BIDIRECTIONAL /\ weight_of (heap s') l = WNone.
Proof. exact (q_C45 m s g res s' g'). Qed.
Print Assumptions C45_decoded_relations.
Theorem C45_directions_refuted h c m s g res s' g' root e r d : reach s -> reach s' -> create_graph m s g = (res, s', g') ->
  decoded h c (heap s) (heap s') root ->
  e ∈ edges_of h c -> r ∈ rels_of h e -> dir_of h r = Some d -> d <> BIDIRECTIONAL ->
  exists e' r', e' ∈ edges_of (heap s') root /\ copy_of h (heap s') e e' /\ r' ∈ rels_of (heap s') e' /\ copy_of h (heap s') r r' /\
    dir_of (heap s') r' = Some BIDIRECTIONAL /\ dir_of (heap s') r' <> dir_of h r.
Proof. exact (q_C45_refuted h c m s g res s' g' root e r d). Qed.
Print Assumptions C45_directions_refuted.

(** C46: for every decoder in every state *)
Theorem C46_non_root s c p g m g2 : co_context (ic_coo g) = c -> parent_of (heap s) c = Some p -> full_msg s g = (Ok m, g2) ->
  forall s2 g', exists s3, create_graph m s2 g' =
    (Exn (if decide (uuid_of (heap s) p = uuid_of (heap s) c) then ErrorRecursiveHierarchy else KeyError), s3, g').
Proof. exact (q_C46 s c p g m g2). Qed.
Print Assumptions C46_non_root.

(** C47: the message after [n] others contains the relations [n + 1] times *)
Theorem C47_accumulates s c lim g r s1 g1 m1 g2 : reach s -> sendable (heap s) c -> co_context (ic_coo g) = c -> co_rels (ic_coo g) = [] ->
  update_context lim c s g = (Ok r, s1, g1) -> full_msg s g1 = (Ok m1, g2) ->
  (exists e, e ∈ edges_of (heap s) c /\ rels_of (heap s) e <> []) ->
  m_rels m1 <> [] /\
  forall n, exists m g3, full_msg s (after_msgs n s g1) = (Ok m, g3) /\
    m = mkMsg (m_nodes m1) (m_edges m1) (concat (repeat (m_rels m1) (S n))) (m_values m1) (m_tens m1) (m_out m1) (m_in m1) /\
    (0 < n -> m <> m1 /\ forall s2 g', reach s2 -> exists s3, create_graph m s2 g' = (Exn ErrorDuplicateElement, s3, g')).
Proof. exact (q_C47 s c lim g r s1 g1 m1 g2). Qed.
Print Assumptions C47_accumulates.

(** C48: [sA] is the source now, [s4] the decoder now; neither gained or lost a value node *)
Theorem C48_value_updates h c x x' sA gA g3 root s4 : decoded_indices h c x x' ->
  reach sA -> exists_in (heap sA) c -> co_context (ic_coo gA) = c -> co_hom (ic_coo gA) = Some x ->
  map (uuid_of (heap sA)) (values_of (heap sA) c) = map (uuid_of h) (values_of h c) ->
  (forall v, v ∈ values_of (heap sA) c -> forallb encodable (vals_of (heap sA) v) = true) ->
  reach s4 -> ic_context g3 = Some root -> ic_hom g3 = Some x' ->
  map (uuid_of (heap s4)) (values_of (heap s4) root) = map (uuid_of h) (values_of h c) ->
  exists us s5, msg_value_update sA gA = Ok us /\ apply_updates g3 us s4 = (Ok tt, s5) /\ reach s5 /\
    values_of (heap s5) root = values_of (heap s4) root /\
    Forall2 (fun v v' => uuid_of (heap s5) v' = uuid_of (heap sA) v /\ vals_of (heap s5) v' = vals_of (heap sA) v) (values_of (heap sA) c) (values_of (heap s5) root) /\
    (forall l, l ∉ values_of (heap s4) root -> heap s5 !! l = heap s4 !! l) /\
    (forall l, l ∈ values_of (heap s4) root -> exists o vs, heap s4 !! l = Some o /\ heap s5 !! l = Some (s_vals vs o)).
Proof. exact (q_C48 h c x x' sA gA g3 root s4). Qed.
Print Assumptions C48_value_updates.
