(** * Vocabulary for hypergraph traversals of any depth *)
From Verif Require Export SpecTensor.

(** An element as the visitor sees it without a homomorphism: the element and its uuid. *)
Definition ref_of (h : list obj) (l : loc) : loc * uid := (l, uuid_of h l).
(** The edges stored in a node. *)
Definition out_edges (h : list obj) (n : loc) : list loc :=
  if decide (kind_of h n = Some KNode) then edges_of h n else [].
(** The relations of these edges, and the elements they connect. *)
Definition out_rels (h : list obj) (n : loc) : list loc := flat_map (rels_of h) (out_edges h n).
Definition neighbours (h : list obj) (n : loc) : list loc := omap (ep_of h) (out_rels h n).

(** The norm of the weight of a relation. *)
Definition norm_of (nf : list pyval -> res Qc) (h : list obj) (r : loc) : option nweight :=
  match h !! r with
  | None => None
  | Some o =>
      match o_weight o with
      | WNone => Some (match o_dir o with
                       | INWARDS => NPair 1%Qc 0%Qc
                       | OUTWARDS => NPair 0%Qc 1%Qc
                       | BIDIRECTIONAL => NPair 1%Qc 1%Qc
                       end)
      | WVal v => match h !! v with
                  | Some ov => match k_value (o_kind ov), nf (o_vals ov) with true, Ok c => Some (NScalar c) | _, _ => None end
                  | None => None
                  end
      | WOther _ => None
      end
  end.
(** Its weight towards and from the endpoint. *)
Definition magnitude (n : nweight) : Qc := match n with NScalar c => c | NPair _ _ => 1%Qc end.
Definition weight_in (d : direction) (n : nweight) : Qc := match d with OUTWARDS => 0%Qc | _ => magnitude n end.
Definition weight_out (d : direction) (n : nweight) : Qc := match d with INWARDS => 0%Qc | _ => magnitude n end.

(** The visitor calls for one relation: one for each non-zero weight, with one
    tuple for every other endpoint of the edge. *)
Definition calls_in (h : list obj) (r e p : loc) (n : nweight) (w : Qc) : list (list (htuple (loc * uid))) :=
  if decide (w = 0%Qc) then [] else [map (fun q => mkTup (ref_of h p) (ref_of h q) (ref_of h e) w n) (others h e p)].
Definition calls_out (h : list obj) (r e p : loc) (n : nweight) (w : Qc) : list (list (htuple (loc * uid))) :=
  if decide (w = 0%Qc) then [] else [map (fun q => mkTup (ref_of h q) (ref_of h p) (ref_of h e) w n) (others h e p)].
Definition rel_calls (nf : list pyval -> res Qc) (h : list obj) (r : loc) : list (list (htuple (loc * uid))) :=
  match parent_of h r, ep_of h r, dir_of h r, norm_of nf h r with
  | Some e, Some p, Some d, Some n => calls_in h r e p n (weight_in d n) ++ calls_out h r e p n (weight_out d n)
  | _, _, _, _ => []
  end.
(** The relation can be followed: its weight has a norm and it ends at an element that is no edge and no relation. *)
Definition followable (nf : list pyval -> res Qc) (h : list obj) (r : loc) : Prop :=
  (exists n, norm_of nf h r = Some n) /\
  exists p k, ep_of h r = Some p /\ kind_of h p = Some k /\ k <> KEdge /\ k <> KRel.

(** The elements met within [m] levels, level by level, and the relations found there. *)
Definition met (h : list obj) (start : loc) (m : nat) : list loc := level_order (neighbours h) m [start].
Definition met_rels (h : list obj) (start : loc) (m : nat) : list loc := flat_map (out_rels h) (met h start m).
(** The nested calls needed: one per element, edge and relation. *)
Definition htrav_work (h : list obj) (start : loc) (m : nat) : nat :=
  length (met h start m) + length (flat_map (out_edges h) (met h start m)) + length (met_rels h start m).
(** The traversal covers [m] levels: by its depth, or because there are no more. *)
Definition covers (h : list obj) (start : loc) (mx : option nat) (m : nat) : Prop :=
  match mx with Some d => m = Nat.max 1 d | None => level (neighbours h) m [start] = [] end.

(** Calling a visitor on the lists of tuples one after the other. *)
Fixpoint feed {I X B} (v : hvisitor I X B) (cs : list (list (htuple I))) (x : X) : res (list B) * X :=
  match cs with
  | [] => (Ok [], x)
  | c :: cs' =>
      match v c x with
      | (Exn e, x') => (Exn e, x')
      | (Ok b, x') => match feed v cs' x' with
                      | (Ok bs, x'') => (Ok (b :: bs), x'')
                      | (Exn e, x'') => (Exn e, x'')
                      end
      end
  end.
(** A visitor that never raises. *)
Definition total {I X B} (v : hvisitor I X B) : Prop := forall c x, exists b x', v c x = (Ok b, x').
(** [b] can be reached from [a] in one or more steps. *)
Inductive leads (h : list obj) (a : loc) : loc -> Prop :=
| leads_one b : b ∈ neighbours h a -> leads h a b
| leads_more b c : leads h a b -> c ∈ neighbours h b -> leads h a c.
