(** * Property theorems C21 - C25: the factory *)
From Verif Require Import Spec SpecFac Hierarchy Elements Factory History QFac QFac2.

(** C21: one factory, a hash without collisions: equal identifiers come from equal names and equal clock readings. *)
Theorem C21_uid_injective f nm nm' s s1 s' s1' u : generate_uid f nm s = (Ok u, s1) -> generate_uid f nm' s' = (Ok u, s1') ->
  sha s' = sha s -> (forall a b, sha s a = sha s b -> a = b) ->
  nm = nm' /\ clk s (f_clock f) (tick s) = clk s' (f_clock f) (tick s').
Proof. exact (q_C21 f nm nm' s s1 s' s1' u). Qed.
Print Assumptions C21_uid_injective.
(** The same for nodes: [node_text] is the name below the qualified name of the parent. *)
Theorem C21_node_uuids f nm nm' pa pa' s s1 c s' s1' c' : generate_node f nm pa s = (Ok c, s1) -> generate_node f nm' pa' s' = (Ok c', s1') ->
  sha s' = sha s -> (forall a b, sha s a = sha s b -> a = b) ->
  uuid_of (heap s1) c = uuid_of (heap s1') c' <->
  node_text (heap s) nm pa = node_text (heap s') nm' pa' /\ clk s (f_clock f) (tick s) = clk s' (f_clock f) (tick s').
Proof. exact (q_C21_nodes f nm nm' pa pa' s s1 c s' s1' c'). Qed.
Print Assumptions C21_node_uuids.
(** Two factories a/b and a that read one clock: refuted for all names. *)
Theorem C21_across_factories_refuted a b c ck s :
  fst (generate_uid (mkFactory (a +:+ "/" +:+ b) ck) c s) = fst (generate_uid (mkFactory a ck) (b +:+ "/" +:+ c) s).
Proof. exact (q_C21_across a b c ck s). Qed.
Print Assumptions C21_across_factories_refuted.

(** C22: [txt nm t] is the text hashed for the node [nm]. *)
Theorem C22_list_nodes s f nms p op : reach s -> heap s !! p = Some op -> o_kind op <> KRel -> NoDup nms ->
  let txt nm t := f_name f +:+ "/" +:+ (o_qname op +:+ "/" +:+ nm) +:+ "." +:+ str_of_Z t in
  (forall nm nm' t t', nm ∈ nms -> nm' ∈ nms -> sha s (txt nm t) = sha s (txt nm' t') -> txt nm t = txt nm' t') ->
  (forall nm t x, nm ∈ nms -> x ∈ children (heap s) p -> uuid_of (heap s) x <> sha s (txt nm t)) ->
  exists cs s' ns, generate_list_nodes f nms (Some p) s = (Ok cs, s') /\ reach s' /\
    sub_nodes p s = (Ok ns, s) /\ sub_nodes p s' = (Ok (ns ++ cs), s') /\
    map (name_of (heap s')) cs = nms /\ NoDup cs /\
    (forall c, c ∈ cs -> ~ exists_in (heap s) c /\ parent_of (heap s') c = Some p /\ children (heap s') c = []) /\
    children (heap s') p = children (heap s) p ++ cs /\
    (forall l, exists_in (heap s) l -> l <> p -> children (heap s') l = children (heap s) l) /\
    (forall l, exists_in (heap s') l -> exists_in (heap s) l \/ l ∈ cs) /\
    kept (heap s) (heap s') /\ unmoved (heap s) (heap s').
Proof. exact (q_C22 s f nms p op). Qed.
Print Assumptions C22_list_nodes.
(** A clock that stands still and a repeated name. *)
Theorem C22_repeated_name s f nms p op t : reach s -> heap s !! p = Some op -> o_kind op <> KRel ->
  (forall n, tick s <= n -> clk s (f_clock f) n = t) -> ~ NoDup nms ->
  exists s', generate_list_nodes f nms (Some p) s = (Exn ErrorDuplicateElement, s').
Proof. exact (q_C22_dup s f nms p op t). Qed.
Print Assumptions C22_repeated_name.

(** C23 *)
Theorem C23_connect_nodes s f p nm ns d vs e s' : reach s -> exists_in (heap s) p -> Forall (exists_in (heap s)) ns ->
  connect_nodes f p nm ns d vs s = (Ok e, s') ->
  let ws := weights_of (length ns) vs in
  length ws = length ns /\ reach s' /\
  exists rs, edge_made s s' p e nm (triples d ns ws) rs /\ NoDup ns /\
    sub_relations e s' = (Ok rs, s') /\ induced_subset e s' = (Ok (map Some ns), s').
Proof. exact (q_C23 s f p nm ns d vs e s'). Qed.
Print Assumptions C23_connect_nodes.
Theorem C23_insufficient_values s f p nm ns d l op : reach s -> heap s !! p = Some op -> is_conceptual (o_kind op) = true ->
  (forall x, x ∈ children (heap s) p ->
     uuid_of (heap s) x <> sha s (f_name f +:+ "/" +:+ nm +:+ "." +:+ str_of_Z (clk s (f_clock f) (tick s)))) ->
  length l <> length ns ->
  exists e s', connect_nodes f p nm ns d (Some l) s = (Exn ErrorInsufficientValues, s') /\
    ~ exists_in (heap s) e /\ children (heap s') p = children (heap s) p ++ [e] /\ kind_of (heap s') e = Some KEdge /\
    name_of (heap s') e = nm /\ children (heap s') e = [] /\ parent_of (heap s') e = Some p.
Proof. exact (q_C23_insufficient s f p nm ns d l op). Qed.
Print Assumptions C23_insufficient_values.
(** When it does succeed. *)
Theorem C23_connect_nodes_succeeds s f p nm ns d vs op : reach s -> heap s !! p = Some op -> is_conceptual (o_kind op) = true -> p ∉ ns ->
  Forall (fun n => exists on, heap s !! n = Some on /\ is_hyperelement (o_kind on) = true /\ o_ready on = true) ns ->
  length (weights_of (length ns) vs) = length ns -> NoDup (map (name_of (heap s)) ns) ->
  (forall x, x ∈ children (heap s) p ->
     uuid_of (heap s) x <> sha s (f_name f +:+ "/" +:+ nm +:+ "." +:+ str_of_Z (clk s (f_clock f) (tick s)))) ->
  (forall n n', n ∈ ns -> n' ∈ ns -> sha s (nm +:+ "/" +:+ name_of (heap s) n) = sha s (nm +:+ "/" +:+ name_of (heap s) n') ->
     name_of (heap s) n = name_of (heap s) n') ->
  (forall n x t, n ∈ ns -> x ∈ children (heap s) n ->
     uuid_of (heap s) x <> sha s (name_of (heap s) n +:+ "/" +:+ "rel" +:+ join "." [nm; name_of (heap s) n; str_of_Z t])) ->
  exists e s', connect_nodes f p nm ns d vs s = (Ok e, s').
Proof. exact (q_C23_succeeds s f p nm ns d vs op). Qed.
Print Assumptions C23_connect_nodes_succeeds.

(** C24: every relation has the first of the two directions. *)
Theorem C24_second_direction_ignored_refuted s f p nm ins outs dd vs e s' : reach s -> exists_in (heap s) p ->
  Forall (exists_in (heap s)) ins -> Forall (exists_in (heap s)) outs ->
  connect_2factor_edges f p nm ins outs dd vs s = (Ok e, s') ->
  let ws := weights_of (length ins + length outs) vs in
  length ws = length ins + length outs /\ reach s' /\
  exists rs, edge_made s s' p e nm (triples (fst dd) (ins ++ outs) ws) rs /\
    sub_relations e s' = (Ok rs, s') /\ induced_subset e s' = (Ok (map Some (ins ++ outs)), s') /\
    (forall r, r ∈ rs -> attr_of o_dir (heap s') r = Some (fst dd)).
Proof. exact (q_C24 s f p nm ins outs dd vs e s'). Qed.
Print Assumptions C24_second_direction_ignored_refuted.
Theorem C24_dir_edges_no_outgoing_refuted s f p nm ins outs e s' : reach s -> exists_in (heap s) p ->
  Forall (exists_in (heap s)) ins -> Forall (exists_in (heap s)) outs ->
  connect_dir_edges f p nm ins outs s = (Ok e, s') ->
  exists rs, outgoing_relations e s' = (Ok [], s') /\ incoming_relations e s' = (Ok rs, s') /\
    length rs = length ins + length outs /\ induced_subset e s' = (Ok (map Some (ins ++ outs)), s').
Proof. exact (q_C24_dir s f p nm ins outs e s'). Qed.
Print Assumptions C24_dir_edges_no_outgoing_refuted.

(** C25 *)
Theorem C25_uuid m f p nm s x s' : make m f p nm s = (Ok x, s') ->
  uuid_of (heap s') x = sha s (f_name f +:+ "/" +:+ nm +:+ "." +:+ str_of_Z (clk s (f_clock f) (tick s))).
Proof. exact (q_C25 m f p nm s x s'). Qed.
Print Assumptions C25_uuid.
Theorem C25_containers_differ_refuted m m' f p p' nm s x s1 s' x' s1' : make m f p nm s = (Ok x, s1) -> make m' f p' nm s' = (Ok x', s1') ->
  sha s' = sha s -> clk s' (f_clock f) (tick s') = clk s (f_clock f) (tick s) -> uuid_of (heap s1') x' = uuid_of (heap s1) x.
Proof. exact (q_C25_containers m m' f p p' nm s x s1 s' x' s1'). Qed.
Print Assumptions C25_containers_differ_refuted.
Theorem C25_second_call_raises m m' f p op nm s x s1 s2 : reach s -> exists_in (heap s) p ->
  make m f p nm s = (Ok x, s1) -> history MAny s1 s2 -> x ∈ children (heap s2) p ->
  clk s2 (f_clock f) (tick s2) = clk s (f_clock f) (tick s) -> heap s2 !! p = Some op -> is_conceptual (o_kind op) = true ->
  (forall raw attr vs, m' = MkSem raw attr vs -> attr <> [] /\ type_class (norm_type raw) <> None) ->
  exists s3, make m' f p nm s2 = (Exn ErrorDuplicateElement, s3).
Proof. exact (q_C25_second m m' f p op nm s x s1 s2). Qed.
Print Assumptions C25_second_call_raises.
