(** * Vocabulary: the sparse tensors of a message *)
From Verif Require Export SpecEnc SpecHTrav.

(** The entries that a relation [r] of edge [e] contributes: edge, first and second element,
    weight; inwards from its endpoint to every other endpoint of the edge, outwards the other way. *)
Definition rel_entries (h : list obj) (e r : loc) : list (loc * loc * loc * Qc) :=
  match ep_of h r with
  | Some p => (if decide (w_in h r = 0%Qc) then [] else map (fun q => (e, p, q, w_in h r)) (others h e p)) ++
              (if decide (w_out h r = 0%Qc) then [] else map (fun q => (e, q, p, w_out h r)) (others h e p))
  | None => []
  end.
Definition sparse (h : list obj) (c : loc) : list (loc * loc * loc * Qc) :=
  flat_map (fun e => flat_map (rel_entries h e) (rels_of h e)) (edges_of h c).

(** An entry of the message: by the indices of the homomorphism, or by uuids. *)
Definition by_index (h : list obj) (x : hom) (n : loc * loc * loc * Qc) (t : msg_entry3) : Prop :=
  let '(e, a, b, w) := n in
  exists k i j, hom_edge x (uuid_of h e) = Ok k /\ hom_node x (uuid_of h a) = Ok i /\ hom_node x (uuid_of h b) = Ok j /\
    t = (MIndex k, MIndex i, MIndex j, w).
Definition by_uuid (h : list obj) (n : loc * loc * loc * Qc) : msg_entry3 :=
  let '(e, a, b, w) := n in (MUuid (uuid_of h e), MUuid (uuid_of h a), MUuid (uuid_of h b), w).
Definition first_part (t : msg_entry3) : msg_entry2 := let '(e, a, b, w) := t in (e, a, w).
Definition second_part (t : msg_entry3) : msg_entry2 := let '(e, a, b, w) := t in (e, b, w).
(** The icon [g'] is [g] with further entries [ts]. *)
Definition appended (g g' : icon) (ts : list msg_entry3) : Prop :=
  co_tens (ic_coo g') = co_tens (ic_coo g) ++ ts /\
  co_out (ic_coo g') = co_out (ic_coo g) ++ map first_part ts /\ co_in (ic_coo g') = co_in (ic_coo g) ++ map second_part ts /\
  co_context (ic_coo g') = co_context (ic_coo g) /\ co_hom (ic_coo g') = co_hom (ic_coo g) /\ co_rels (ic_coo g') = co_rels (ic_coo g) /\
  ic_clock g' = ic_clock g /\ ic_context g' = ic_context g /\ ic_hom g' = ic_hom g.

(** The relations of the edges of [c] end at nodes below [c]; no two endpoints of one edge share a uuid. *)
Record inner_graph (h : list obj) (c : loc) : Prop := {
  ig_node : kind_of h c = Some KNode;
  ig_ep : forall e r, e ∈ edges_of h c -> r ∈ rels_of h e -> exists p, ep_of h r = Some p /\ through (is_kind k_node) h c p;
  ig_w : forall e r, e ∈ edges_of h c -> r ∈ rels_of h e -> weight_ok h r;
  ig_uuid : forall e p q, e ∈ edges_of h c -> p ∈ endpoints h e -> q ∈ endpoints h e -> uuid_of h p = uuid_of h q -> p = q }.
(** These nodes have no relations in edges of their own. *)
Definition flat (h : list obj) (c : loc) : Prop := forall p, p ∈ neighbours h c -> out_rels h p = [].

(** The icon after [n] calls of update_coo. *)
Fixpoint after_coo (n lim : nat) (s : st) (g : icon) : icon :=
  match n with 0 => g | S n' => after_coo n' lim s (snd (update_coo lim s g)) end.
(** The weight that is in force for an edge and two elements (an element): that of the last entry. *)
Definition entry_of (l : list (loc * loc * loc * Qc)) (e a b : loc) : Qc := final (map snd (filter (fun n => n.1 = (e, a, b)) l)).
Definition first_of (l : list (loc * loc * loc * Qc)) (e a : loc) : Qc := final (map snd (filter (fun n => n.1.1 = (e, a)) l)).
Definition second_of (l : list (loc * loc * loc * Qc)) (e b : loc) : Qc := final (map snd (filter (fun n => n.1.1.1 = e /\ n.1.2 = b) l)).
