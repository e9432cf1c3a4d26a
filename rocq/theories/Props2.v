(** * Property theorems C10 - C20 *)
From Verif Require Import Spec Hierarchy Elements Factory History QHier3 QHier4 QHier5 QHier6.

(** C10: adding an ancestor to one of its descendants is not refused; it raises
    RecursionError and leaves a cycle of parents. *)
Theorem C10_ancestor_not_rejected_refuted s p a : reach s -> ancestor (heap s) a p -> exists_in (heap s) p ->
  removable (heap s) a ->
  (forall x, x ∈ children (heap s) p -> uuid_of (heap s) x <> uuid_of (heap s) a) ->
  exists s', add_element p a s = (Exn RecursionError, s') /\ parent_of (heap s') a = Some p /\
    a ∈ children (heap s') p /\ ancestor (heap s') a a /\ ancestor (heap s') p p.
Proof. exact (q_C10 s p a). Qed.
Print Assumptions C10_ancestor_not_rejected_refuted.

(** C11 *)
Theorem C11_mismatched_name_not_atomic s p c n : reach s -> c ∈ children (heap s) p ->
  kind_of (heap s) p <> Some KEdge -> kind_of (heap s) p <> Some KRel -> n <> "" -> name_of (heap s) c <> n ->
  exists s', remove_all p n (Some (uuid_of (heap s) c)) s = (Exn KeyError, s') /\
    children (heap s') p = filter (fun x => x <> c) (children (heap s) p) /\
    parent_of (heap s') c = Some p /\
    attr_of o_cnt (heap s') p = attr_of o_cnt (heap s) p /\
    (forall o, heap s !! p = Some o -> is_conceptual (o_kind o) = true -> has_char slash (name_of (heap s) c) = false ->
       exists l, get_element_by_id_name p (name_of (heap s) c) s' = (Ok l, s') /\ c ∈ l) /\
    (forall l, l <> p -> heap s' !! l = heap s !! l).
Proof. exact (q_C11 s p c n). Qed.
Print Assumptions C11_mismatched_name_not_atomic.

(** C12 *)
Theorem C12_lazy s p nm u : gen_take 0 (GNew p nm u) s = (Ok [], s).
Proof. exact (q_C12_lazy s p nm u). Qed.
Print Assumptions C12_lazy.
Theorem C12_abandoned_removal s p op n j : reach s -> heap s !! p = Some op -> o_kind op <> KEdge -> o_kind op <> KRel -> n <> "" ->
  let ms := filter (fun c => name_of (heap s) c = n) (children (heap s) p) in
  ms <> [] -> 1 <= j ->
  exists s', gen_take j (GNew p n None) s = (Ok (take j ms), s') /\
    children (heap s') p = filter (fun c => c ∉ take j ms) (children (heap s) p) /\
    (forall c, c ∈ take j ms -> parent_of (heap s') c = None) /\
    (forall c, c ∈ drop j ms -> c ∈ children (heap s') p /\ parent_of (heap s') c = Some p) /\
    (is_conceptual (o_kind op) = true -> has_char slash n = false -> get_element_by_id_name p n s' = (Ok [], s')).
Proof. exact (q_C12 s p op n j). Qed.
Print Assumptions C12_abandoned_removal.

(** C13 *)
Theorem C13_depth_leaf_growth ck hf s l : history MLeaf (init_st ck hf) s -> exists_in (heap s) l -> right_depth (heap s) l.
Proof. exact (q_C13 ck hf s l). Qed.
Print Assumptions C13_depth_leaf_growth.
Theorem C13_depth_after_move_refuted s p c op oc s' d lc lp : reach s -> heap s !! p = Some op -> heap s !! c = Some oc ->
  add_ok (heap s) p c -> (o_kind op = KRel -> is_hyperelement (o_kind oc) = false) ->
  add_element p c s = (Ok tt, s') ->
  ancestor (heap s) c d -> path (heap s) c lc -> path (heap s) p lp ->
  attr_of o_depth (heap s') d = attr_of o_depth (heap s) d /\
  (right_depth (heap s) d -> length lc <> S (length lp) -> ~ right_depth (heap s') d).
Proof. exact (q_C13_move s p c op oc s' d lc lp). Qed.
Print Assumptions C13_depth_after_move_refuted.

(** C14 *)
Theorem C14_path_lookup s p nm : reach s -> exists_in (heap s) p ->
  let names := split_on slash nm in
  exists r, get_element_by_id_name p nm s = (r, s) /\
    match r with
    | Ok l => l = follow (heap s) names p
    | Exn e => exists pre t post x, names = pre ++ t :: post /\ x ∈ follow (heap s) pre p /\
        ((e = AttributeError /\ (forall o, heap s !! x = Some o -> is_conceptual (o_kind o) = false)) \/
         (e = KeyError /\ post <> [] /\ (forall o, heap s !! x = Some o -> is_conceptual (o_kind o) = true) /\ ~ known (heap s) x t))
    end /\
    ((exists l, r = Ok l) <-> forall pre t post x, names = pre ++ t :: post -> x ∈ follow (heap s) pre p ->
       (exists o, heap s !! x = Some o /\ is_conceptual (o_kind o) = true) /\ (post <> [] -> known (heap s) x t)).
Proof. exact (q_C14 s p nm). Qed.
Print Assumptions C14_path_lookup.
Theorem C14_children_known s p c : reach s -> c ∈ children (heap s) p -> known (heap s) p (name_of (heap s) c).
Proof. exact (q_C14_children_known s p c). Qed.
Print Assumptions C14_children_known.
Theorem C14_known_forever s s' p n : history MAny s s' -> known (heap s) p n -> known (heap s') p n.
Proof. exact (q_C14_known_forever s s' p n). Qed.
Print Assumptions C14_known_forever.

(** C15 *)
Theorem C15_edge_removal_never_yields s e oe nm u l s' : heap s !! e = Some oe -> o_kind oe = KEdge ->
  remove_all e nm u s = (Ok l, s') -> l = [].
Proof. exact (q_C15_never s e oe nm u l s'). Qed.
Print Assumptions C15_edge_removal_never_yields.
Theorem C15_edge_removal_raises s e oe nm u c rest : reach s -> heap s !! e = Some oe -> o_kind oe = KEdge ->
  filter (matches (heap s) nm u) (children (heap s) e) = c :: rest -> ~ (nm = "" /\ u = None) ->
  exists oc ex s', heap s !! c = Some oc /\ remove_all e nm u s = (Exn ex, s') /\
    ex = (if o_ready oe then match o_kind oc with KRel => TypeError | _ => KeyError end else AttributeError) /\
    parent_of (heap s') c = None /\
    children (heap s') e = filter (fun x => x <> c) (children (heap s) e) /\
    (forall l, l <> c -> parent_of (heap s') l = parent_of (heap s) l) /\
    (forall l, l <> e -> children (heap s') l = children (heap s) l).
Proof. exact (q_C15 s e oe nm u c rest). Qed.
Print Assumptions C15_edge_removal_raises.
Theorem C15_move_out_of_edge_raises s p c e op oc oe : reach s -> heap s !! p = Some op -> heap s !! c = Some oc -> heap s !! e = Some oe ->
  parent_of (heap s) c = Some e -> o_kind oe = KEdge -> c <> p -> p <> e ->
  (forall x, x ∈ children (heap s) p -> uuid_of (heap s) x <> o_uuid oc) ->
  exists ex s', add_element p c s = (Exn ex, s') /\
    (ex = KeyError \/ ex = TypeError \/ (ex = AttributeError /\ o_ready oe = false)) /\
    children (heap s') p = children (heap s) p ++ [c] /\
    parent_of (heap s') c = None /\
    children (heap s') e = filter (fun x => x <> c) (children (heap s) e).
Proof. exact (q_C15_move s p c e op oc oe). Qed.
Print Assumptions C15_move_out_of_edge_raises.

(** C16 *)
Theorem C16_disconnect_keeps_structure s x r : let s' := snd (disconnect x r s) in
  forall l, children (heap s') l = children (heap s) l /\ parent_of (heap s') l = parent_of (heap s) l.
Proof. exact (q_C16_structure s x r). Qed.
Print Assumptions C16_disconnect_keeps_structure.
Theorem C16_port_stays_refuted s x r ox s1 : reach s -> heap s !! x = Some ox -> exists_in (heap s) r ->
  connect x r s = (Ok tt, s1) ->
  exists pt s2 s3, children (heap s1) x = children (heap s) x ++ [pt] /\ kind_of (heap s1) pt = Some KPort /\
    attr_of o_endpoint (heap s1) pt = Some (Some r) /\
    disconnect x r s1 = (Ok tt, s2) /\
    (forall l, children (heap s2) l = children (heap s1) l) /\
    connect x r s2 = (Exn ErrorDuplicateElement, s3).
Proof. exact (q_C16 s x r ox s1). Qed.
Print Assumptions C16_port_stays_refuted.

(** C17 *)
Theorem C17_unary_connect s e n oe on c w d : reach s -> heap s !! e = Some oe -> heap s !! n = Some on -> n <> e ->
  o_kind oe = KEdge -> o_ready oe = true -> o_clock oe = Some c ->
  is_hyperelement (o_kind on) = true -> o_ready on = true ->
  (forall x, x ∈ children (heap s) e -> uuid_of (heap s) x <> sha s (o_name oe +:+ "/" +:+ o_name on)) ->
  (forall x, x ∈ children (heap s) n ->
     uuid_of (heap s) x <> sha s (o_name on +:+ "/" +:+ "rel" +:+ join "." [o_name oe; o_name on; str_of_Z (clk s c (tick s))])) ->
  exists r pt s' rs eps, unary_connect e n w d None s = (Ok r, s') /\ reach s' /\
    sub_relations e s = (Ok rs, s) /\ sub_relations e s' = (Ok (rs ++ [r]), s') /\
    induced_subset e s = (Ok eps, s) /\ induced_subset e s' = (Ok (eps ++ [Some n]), s') /\
    attr_of o_endpoint (heap s') r = Some (Some n) /\ attr_of o_dir (heap s') r = Some d /\
    attr_of o_weight (heap s') r = Some w /\ parent_of (heap s') r = Some e /\ children (heap s') r = [] /\
    ~ exists_in (heap s) r /\ children (heap s') e = children (heap s) e ++ [r] /\
    ~ exists_in (heap s) pt /\ children (heap s') n = children (heap s) n ++ [pt] /\
    kind_of (heap s') pt = Some KPort /\ attr_of o_endpoint (heap s') pt = Some (Some r) /\ parent_of (heap s') pt = Some n /\
    (forall l, exists_in (heap s) l -> l <> e -> l <> n -> children (heap s') l = children (heap s) l) /\
    (forall l, exists_in (heap s') l -> exists_in (heap s) l \/ l = r \/ l = pt) /\
    kept (heap s) (heap s') /\ unmoved (heap s) (heap s').
Proof. exact (q_C17 s e n oe on c w d). Qed.
Print Assumptions C17_unary_connect.

(** C18 *)
Theorem C18_failed_unary_connect s e n oe on c w d x : reach s -> heap s !! e = Some oe -> heap s !! n = Some on -> n <> e ->
  o_kind oe = KEdge -> o_ready oe = true -> o_clock oe = Some c ->
  is_hyperelement (o_kind on) = true -> o_ready on = true ->
  x ∈ children (heap s) e -> uuid_of (heap s) x = sha s (o_name oe +:+ "/" +:+ o_name on) ->
  (forall y, y ∈ children (heap s) n ->
     uuid_of (heap s) y <> sha s (o_name on +:+ "/" +:+ "rel" +:+ join "." [o_name oe; o_name on; str_of_Z (clk s c (tick s))])) ->
  exists r pt s', unary_connect e n w d None s = (Exn ErrorDuplicateElement, s') /\ reach s' /\
    children (heap s') e = children (heap s) e /\
    ~ exists_in (heap s) pt /\ children (heap s') n = children (heap s) n ++ [pt] /\
    kind_of (heap s') pt = Some KPort /\ attr_of o_endpoint (heap s') pt = Some (Some r) /\
    kind_of (heap s') r = Some KRel /\ parent_of (heap s') r = None /\ attr_of o_endpoint (heap s') r = Some (Some n).
Proof. exact (q_C18 s e n oe on c w d x). Qed.
Print Assumptions C18_failed_unary_connect.
Theorem C18_same_name_never_again s e n w d sem r s1 s2 n2 w2 d2 sem2 : reach s -> allowed (heap s) (OUnary e n w d sem) ->
  unary_connect e n w d sem s = (Ok r, s1) -> history MAny s1 s2 ->
  allowed (heap s2) (OUnary e n2 w2 d2 sem2) -> name_of (heap s2) n2 = name_of (heap s) n ->
  exists ex s3, unary_connect e n2 w2 d2 sem2 s2 = (Exn ex, s3).
Proof. exact (q_C18_forever s e n w d sem r s1 s2 n2 w2 d2 sem2). Qed.
Print Assumptions C18_same_name_never_again.

(** C19 *)
Theorem C19_incoming_outgoing s e o : heap s !! e = Some o ->
  exists rs ins outs, sub_relations e s = (Ok rs, s) /\ incoming_relations e s = (Ok ins, s) /\ outgoing_relations e s = (Ok outs, s) /\
    ins = filter (fun r => attr_of o_dir (heap s) r = Some INWARDS \/ attr_of o_dir (heap s) r = Some BIDIRECTIONAL) rs /\
    outs = filter (fun r => attr_of o_dir (heap s) r = Some OUTWARDS \/ attr_of o_dir (heap s) r = Some BIDIRECTIONAL) rs /\
    (forall r, r ∈ rs <-> r ∈ ins \/ r ∈ outs) /\
    (forall r, r ∈ ins /\ r ∈ outs <-> r ∈ rs /\ attr_of o_dir (heap s) r = Some BIDIRECTIONAL).
Proof. exact (q_C19 s e o). Qed.
Print Assumptions C19_incoming_outgoing.
Theorem C19_incidence d : (fst (incidence d) = 1%Qc <-> d <> OUTWARDS) /\ (fst (incidence d) = 0%Qc <-> d = OUTWARDS) /\
  (snd (incidence d) = 1%Qc <-> d <> INWARDS) /\ (snd (incidence d) = 0%Qc <-> d = INWARDS).
Proof. exact (q_C19_incidence d). Qed.
Print Assumptions C19_incidence.

(** C20 *)
Theorem C20_timestamps s s' l o o' : (forall c c' n m, n <= m -> (clk s c n <= clk s c' m)%Z) -> reach s -> history MAny s s' ->
  heap s !! l = Some o -> heap s' !! l = Some o' -> is_conceptual (o_kind o) = true ->
  (o_time o <= o_time o')%Z /\ (forall c n, tick s' <= S n -> (o_time o' <= clk s' c n)%Z).
Proof. exact (q_C20 s s' l o o'). Qed.
Print Assumptions C20_timestamps.
Theorem C20_no_clock k nm u prog p s : new_conceptual k nm u prog None p s = (Exn ErrorClockNotSet, s).
Proof. exact (q_C20_no_clock k nm u prog p s). Qed.
Print Assumptions C20_no_clock.
