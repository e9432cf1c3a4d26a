(** * C81, C82: edges from tuples, an application *)
From Verif Require Import Spec SpecFac History Hierarchy Elements Factory SpecCogni PHist QTuple QTuple2 Apps SpecApps QApps.
Local Open Scope nat_scope.

(** C81: connect_tuple_nodes joins each node of the tuples by its own relation, in order, with
    the direction and the weight of its tuple; the relations that are incoming (outgoing)
    are those of the tuples that are not OUTWARDS (INWARDS); *)
Theorem C81_connect_tuples s f p nm ts e s' : reach s -> exists_in (heap s) p -> Forall (exists_in (heap s)) (map tnode ts) ->
  connect_tuple_nodes f p nm (map (fun t => (t, None)) ts) s = (Ok e, s') ->
  reach s' /\ exists rs ins outs, edge_made s s' p e nm ts rs /\ sub_relations e s' = (Ok rs, s') /\ induced_subset e s' = (Ok (map (fun t => Some (tnode t)) ts), s') /\
    incoming_relations e s' = (Ok ins, s') /\ map (attr_of o_endpoint (heap s')) ins = map (fun t => Some (Some (tnode t))) (filter (fun t : loc * direction * weight => t.1.2 <> OUTWARDS) ts) /\
    outgoing_relations e s' = (Ok outs, s') /\ map (attr_of o_endpoint (heap s')) outs = map (fun t => Some (Some (tnode t))) (filter (fun t : loc * direction * weight => t.1.2 <> INWARDS) ts).
Proof. exact (q_C81 s f p nm ts e s'). Qed.
Print Assumptions C81_connect_tuples.
(** it succeeds if the nodes are nodes or edges with different names, apart from the container, and
    no hash collides; *)
Theorem C81_succeeds s f p nm ts op : reach s -> heap s !! p = Some op -> is_conceptual (o_kind op) = true -> p ∉ map tnode ts ->
  Forall (fun n => exists on, heap s !! n = Some on /\ is_hyperelement (o_kind on) = true /\ o_ready on = true) (map tnode ts) ->
  NoDup (map (fun t => name_of (heap s) (tnode t)) ts) ->
  (forall x, x ∈ children (heap s) p -> uuid_of (heap s) x <> sha s (uid_text (f_name f) nm (clk s (f_clock f) (tick s)))) ->
  (forall n n', n ∈ map tnode ts -> n' ∈ map tnode ts -> sha s (nm +:+ "/" +:+ name_of (heap s) n) = sha s (nm +:+ "/" +:+ name_of (heap s) n') ->
     name_of (heap s) n = name_of (heap s) n') ->
  (forall n x t, n ∈ map tnode ts -> x ∈ children (heap s) n ->
     uuid_of (heap s) x <> sha s (name_of (heap s) n +:+ "/" +:+ "rel" +:+ join "." [nm; name_of (heap s) n; str_of_Z t])) ->
  exists e s', connect_tuple_nodes f p nm (map (fun t => (t, None)) ts) s = (Ok e, s').
Proof. exact (q_C81_succeeds s f p nm ts op). Qed.
Print Assumptions C81_succeeds.
(** a semantic value that is given for a relation ends up in it, and leaves the element it was in. *)
Theorem C81_semantic_value s e n w d sv osv r s' : reach s -> exists_in (heap s) e -> exists_in (heap s) n -> n <> e -> heap s !! sv = Some osv ->
  is_hyperelement (o_kind osv) = false -> o_kind osv <> KPort -> removable (heap s) sv -> ~ within (heap s) sv e ->
  unary_connect e n w d (Some sv) s = (Ok r, s') ->
  reach s' /\ ~ exists_in (heap s) r /\ kind_of (heap s') r = Some KRel /\ attr_of o_endpoint (heap s') r = Some (Some n) /\ attr_of o_dir (heap s') r = Some d /\
  attr_of o_weight (heap s') r = Some w /\ attr_of o_sem (heap s') r = Some (Some sv) /\
  parent_of (heap s') r = Some e /\ parent_of (heap s') sv = Some r /\ kids (heap s') r = [sv] /\ kids (heap s') e = kids (heap s) e ++ [r] /\
  (forall l, exists_in (heap s) l -> l <> e -> kids (heap s') l = filter (fun x => x <> sv) (kids (heap s) l)) /\
  (forall l, exists_in (heap s) l -> l <> sv -> parent_of (heap s') l = parent_of (heap s) l) /\ kept (heap s) (heap s').
Proof. exact (q_C81_sem s e n w d sv osv r s'). Qed.
Print Assumptions C81_semantic_value.

(** The same for an edge from tuples, each with or without a semantic value: the values given are
    different elements that are no nodes, edges, relations or ports, and the container is in none of them. *)
Theorem C81_semantic_tuples s f p nm (ts : list (loc * direction * weight * option loc)) e s' : reach s -> exists_in (heap s) p -> Forall (fun t : loc * direction * weight * option loc => exists_in (heap s) t.1.1.1) ts ->
  NoDup (omap snd ts) ->
  (forall v, v ∈ omap snd ts -> exists ov, heap s !! v = Some ov /\ is_hyperelement (o_kind ov) = false /\ o_kind ov <> KPort /\ removable (heap s) v /\ ~ within (heap s) v p) ->
  connect_tuple_nodes f p nm ts s = (Ok e, s') ->
  reach s' /\ ~ exists_in (heap s) e /\ kind_of (heap s') e = Some KEdge /\ name_of (heap s') e = nm /\ parent_of (heap s') e = Some p /\
  exists rs, kids (heap s') e = rs /\
    Forall2 (fun r t => let '(n, d, w, sv) := t in
      ~ exists_in (heap s) r /\ kind_of (heap s') r = Some KRel /\ attr_of o_endpoint (heap s') r = Some (Some n) /\ attr_of o_dir (heap s') r = Some d /\
      attr_of o_weight (heap s') r = Some w /\ attr_of o_sem (heap s') r = Some sv /\ parent_of (heap s') r = Some e /\
      kids (heap s') r = match sv with Some v => [v] | None => [] end /\ forall v, sv = Some v -> parent_of (heap s') v = Some r) rs ts /\
    (forall l, exists_in (heap s) l -> kids (heap s') l = filter (fun x => x ∉ omap snd ts) (kids (heap s) l) ++ (if decide (l = p) then [e] else [])) /\
    (forall l, exists_in (heap s) l -> l ∉ omap snd ts -> parent_of (heap s') l = parent_of (heap s) l) /\ kept (heap s) (heap s').
Proof. exact (q_C81_sem_tuples s f p nm ts e s'). Qed.
Print Assumptions C81_semantic_tuples.

(** C82: whatever has been built before and whatever the clock shows, the fuzzy application
    builds its system without error next to what there was, and prints the two inward relations. *)
Theorem C82_accu_fuzzy c s : reach s -> (forall a b, sha s a = sha s b -> a = b) ->
  exists sys battery dyn sta res infer ext r1 r2 r3 s',
    accu_fuzzy c s = (Ok (sys, battery, dyn, sta, res, infer, ext, [r1; r2]), s') /\ reach s' /\
    fuzzy_system (heap s') sys battery dyn sta res infer ext r1 r2 r3 /\
    (forall l, l ∈ [sys; battery; dyn; sta; res; infer; ext; r1; r2; r3] -> ~ exists_in (heap s) l) /\
    kept (heap s) (heap s') /\ unmoved (heap s) (heap s') /\ forall l, exists_in (heap s) l -> children (heap s') l = children (heap s) l.
Proof. exact (q_C82 c s). Qed.
Print Assumptions C82_accu_fuzzy.
