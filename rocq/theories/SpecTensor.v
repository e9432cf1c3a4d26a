(** * Vocabulary for the tensor properties *)
From Verif Require Export SpecHom Tensor.

(** Direct sub-nodes and sub-edges, relations of an edge, in insertion order. *)
Definition nodes_of (h : list obj) (c : loc) : list loc := fkids (is_kind k_node) h c.
Definition edges_of (h : list obj) (c : loc) : list loc := fkids (is_kind k_edge) h c.
Definition rels_of (h : list obj) (e : loc) : list loc := fkids (is_kind k_rel) h e.
(** Attributes of a relation. *)
Definition ep_of (h : list obj) (r : loc) : option loc := h !! r ≫= o_endpoint.
Definition dir_of (h : list obj) (r : loc) : option direction := o_dir <$> h !! r.
Definition weight_of (h : list obj) (r : loc) : weight := default WNone (o_weight <$> h !! r).
Definition endpoints (h : list obj) (e : loc) : list loc := omap (ep_of h) (rels_of h e).
Definition others (h : list obj) (e a : loc) : list loc := filter (fun p => p <> a) (endpoints h e).

(** 1 without a weight, else the sum of the values. *)
Definition amount (h : list obj) (r : loc) : Qc :=
  match weight_of h r with
  | WVal v => match h !! v with
              | Some ov => match numbers (o_vals ov) with Some qs => qsum_list qs | None => 0%Qc end
              | None => 0%Qc
              end
  | _ => 1%Qc
  end.
Definition w_in (h : list obj) (r : loc) : Qc :=
  if decide (dir_of h r = Some INWARDS \/ dir_of h r = Some BIDIRECTIONAL) then amount h r else 0%Qc.
Definition w_out (h : list obj) (r : loc) : Qc :=
  if decide (dir_of h r = Some OUTWARDS \/ dir_of h r = Some BIDIRECTIONAL) then amount h r else 0%Qc.

(** The relation has no weight, or a value node with numbers. *)
Definition weight_ok (h : list obj) (r : loc) : Prop :=
  match weight_of h r with
  | WNone => True
  | WVal v => exists ov qs, h !! v = Some ov /\ o_kind ov = KValue /\ numbers (o_vals ov) = Some qs
  | WOther _ => False
  end.
(** A node whose edges only connect its direct sub-nodes. *)
Record closed_graph (h : list obj) (c : loc) : Prop := {
  cg_node : kind_of h c = Some KNode;
  cg_ep : forall e r, e ∈ edges_of h c -> r ∈ rels_of h e -> exists p, ep_of h r = Some p /\ p ∈ nodes_of h c;
  cg_w : forall e r, e ∈ edges_of h c -> r ∈ rels_of h e -> weight_ok h r }.
(** No weights. *)
Definition unweighted (h : list obj) (c : loc) : Prop :=
  forall e r, e ∈ edges_of h c -> r ∈ rels_of h e -> weight_of h r = WNone.
(** Only BIDIRECTIONAL relations. *)
Definition undirected (h : list obj) (c : loc) : Prop :=
  forall e r, e ∈ edges_of h c -> r ∈ rels_of h e -> dir_of h r = Some BIDIRECTIONAL.

(** The values written to an entry, in order; the last one stays. *)
Definition final (l : list Qc) : Qc := default 0%Qc (last l).
Definition entry_W (h : list obj) (e a b : loc) : Qc :=
  if decide (a <> b /\ a ∈ endpoints h e /\ b ∈ endpoints h e) then
    final (flat_map (fun r => (if decide (ep_of h r = Some a /\ w_in h r <> 0%Qc) then [w_in h r] else []) ++
                              (if decide (ep_of h r = Some b /\ w_out h r <> 0%Qc) then [w_out h r] else [])) (rels_of h e))
  else 0%Qc.
Definition entry_Io (h : list obj) (e a : loc) : Qc :=
  if decide (a ∈ endpoints h e /\ others h e a <> []) then
    final (flat_map (fun r => (if decide (ep_of h r = Some a /\ w_in h r <> 0%Qc) then [w_in h r] else []) ++
                              (if decide (ep_of h r <> Some a /\ w_out h r <> 0%Qc) then [w_out h r] else [])) (rels_of h e))
  else 0%Qc.
Definition entry_Ii (h : list obj) (e b : loc) : Qc :=
  if decide (b ∈ endpoints h e /\ others h e b <> []) then
    final (flat_map (fun r => (if decide (ep_of h r <> Some b /\ w_in h r <> 0%Qc) then [w_in h r] else []) ++
                              (if decide (ep_of h r = Some b /\ w_out h r <> 0%Qc) then [w_out h r] else [])) (rels_of h e))
  else 0%Qc.

(** [T] has the shapes given by [c] and the entries given by its relations. *)
Definition describes (h : list obj) (c : loc) (T : tensors) : Prop :=
  te_E T = length (edges_of h c) /\ te_n T = length (nodes_of h c) /\
  (forall k e i a j b, edges_of h c !! k = Some e -> nodes_of h c !! i = Some a -> nodes_of h c !! j = Some b ->
     te_W T k i j = entry_W h e a b) /\
  (forall k e i a, edges_of h c !! k = Some e -> nodes_of h c !! i = Some a ->
     te_Io T k i = entry_Io h e a /\ te_Ii T k i = entry_Ii h e a).

(** The nested calls needed. *)
Definition work (h : list obj) (c : loc) : nat := S (length (children h c) + length (flat_map (rels_of h) (edges_of h c))).

(** [r] connects its endpoint inwards / outwards (or both ways). *)
Definition inward (h : list obj) (r : loc) : Prop := dir_of h r = Some INWARDS \/ dir_of h r = Some BIDIRECTIONAL.
Definition outward (h : list obj) (r : loc) : Prop := dir_of h r = Some OUTWARDS \/ dir_of h r = Some BIDIRECTIONAL.
(** Edge [e] leads from [a] to [b]. *)
Definition adjacent (h : list obj) (e a b : loc) : Prop :=
  a <> b /\ a ∈ endpoints h e /\ b ∈ endpoints h e /\
  exists r, r ∈ rels_of h e /\ ((ep_of h r = Some a /\ inward h r) \/ (ep_of h r = Some b /\ outward h r)).
(** Number of different endpoints. *)
Definition arity (h : list obj) (e : loc) : nat := length (remove_dups (endpoints h e)).
(** Natural numbers as rationals. *)
Definition qnat (n : nat) : Qc := Q2Qc (QArith_base.inject_Z (Z.of_nat n)).
(** The edges that connect [a] to something else. *)
Definition proper_edges (h : list obj) (c a : loc) : list loc :=
  filter (fun e => a ∈ endpoints h e /\ 2 <= arity h e) (edges_of h c).
(** Half the surplus of endpoints over three, summed over these edges. *)
Definition excess (h : list obj) (c a : loc) : Qc :=
  qsum_list (map (fun e => (qnat (arity h e) - (1 + 1 + 1)) * (1 / (1 + 1)))%Qc (proper_edges h c a)).
(** [r] contributes the non-zero weight [w] to the entry for [a] and [b]. *)
Definition writes_entry (h : list obj) (a b r : loc) (w : Qc) : Prop :=
  w <> 0%Qc /\ ((ep_of h r = Some a /\ w = w_in h r) \/ (ep_of h r = Some b /\ w = w_out h r)).
(** Running the transformer on [c] yields index tables [x] and arrays [T]. *)
Definition computes (lim : nat) (c : loc) (s : st) (x : hom) (T : tensors) : Prop :=
  exists tasks s', transform lim (Some 1) c s = (Ok tasks, s', Some (x, Some T)).
