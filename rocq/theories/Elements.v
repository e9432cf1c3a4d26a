(** * Constructors and methods of the hypergraph elements

    framework_python/rei/hypergraph/base_elements.py, value_node.py *)
From Verif Require Export Hierarchy.

(** ConceptualItem.__init__ (conceptual_item.py:177-186) continued by
    HypergraphElement.__init__ (base_elements.py:34-39), HypergraphEdge.__init__
    (129-132), HypergraphNode.__init__ (181-183).  Attributes assigned after the
    call of parent.add_element are missing ([o_ready = false]) until then. *)
Definition new_conceptual (k : kind) (nm : string) (u : uid) (prog : string)
    (c : option clockid) (parent : option loc) : M loc :=
  match c with
  | None => raise ErrorClockNotSet
  | Some c =>
      let! t := now c in
      let! l := alloc (s_ready (negb (is_hyperelement k))
                        (s_time t (s_clock (Some c) (blank k u nm prog)))) in
      match parent with
      | None => ret tt
      | Some p => add_element p l
      end ;;
      upd l (s_ready true) ;;
      ret l
  end.

Definition new_item := new_conceptual KItem.
Definition new_elem := new_conceptual KElem.
Definition new_node := new_conceptual KNode.
Definition new_edge := new_conceptual KEdge.

(** HypergraphRelation.__init__, base_elements.py:74-91 (the argument [parent]
    is never used, conceptual_item.py:36-38). *)
Definition new_rel (u : uid) (nm prog : string) (ep : loc) (w : weight)
    (d : direction) (sem : option loc) : M loc :=
  alloc (s_sem sem (s_weight w (s_dir d (s_endpoint (Some ep) (blank KRel u nm prog))))).

(** HypergraphPort.__init__, base_elements.py:19-22 *)
Definition new_port (u : uid) (nm prog : string) (ep : loc) : M loc :=
  alloc (s_endpoint (Some ep) (blank KPort u nm prog)).

(** ValueNode.__init__, value_node.py:8-19 *)
Definition new_value (u : uid) (nm prog : string) (vals : option (list pyval)) : M loc :=
  let vs := default [] vals in
  alloc (s_dim (length vs) (s_vals vs (blank KValue u nm prog))).

(** SemanticValueNode.__init__, value_node.py:49-51; the subclasses add nothing
    that is read. *)
Definition new_sem (c : sclass) (u : uid) (nm prog : string) (attr : dict string pyval) : M loc :=
  alloc (s_attr attr (blank (KSem c) u nm prog)).

(** HypergraphRelation._relation_incidence_value, base_elements.py:81-87 *)
Definition incidence (d : direction) : Qc * Qc :=
  match d with
  | BIDIRECTIONAL => (1%Qc, 1%Qc)
  | INWARDS => (1%Qc, 0%Qc)
  | OUTWARDS => (0%Qc, 1%Qc)
  end.

(** Name of the relation made by unary_connect, base_elements.py:137 *)
Definition rel_name (e n : string) (t : Z) : string :=
  "rel" +:+ join "." [e; n; str_of_Z t].

(** HypergraphEdge.unary_connect, base_elements.py:134-144.  Only edges have the
    method; [self.clock] is None-checked by the attribute access only. *)
Definition unary_connect (e n : loc) (w : weight) (d : direction) (sem : option loc) : M loc :=
  let! oe := deref e in
  let! on := deref n in
  if decide (o_kind oe = KEdge) then
    let! c := of_opt AttributeError (o_clock oe) in
    let! t := now c in
    let nm := rel_name (o_name oe) (o_name on) t in
    if o_ready oe then
      let! u := hash (elem_id_text (o_name oe) (o_name on)) in
      let! r := new_rel u nm (join "/" [o_name oe; nm]) n w d sem in
      connect n r ;;
      match sem with
      | None => ret tt
      | Some sv => add_element r sv
      end ;;
      add_element e r ;;
      ret r
    else raise AttributeError
  else raise AttributeError.

(** ** Generators of sub-elements: base_elements.py:57-58, 158-195 *)
Definition is_kind (f : kind -> bool) : loc -> obj -> bool := fun _ o => f (o_kind o).
Definition k_rel (k : kind) := match k with KRel => true | _ => false end.
Definition k_port (k : kind) := match k with KPort => true | _ => false end.
Definition k_edge (k : kind) := match k with KEdge => true | _ => false end.
Definition k_node (k : kind) := match k with KNode => true | _ => false end.
Definition k_value (k : kind) := match k with KValue => true | _ => false end.
Definition k_sem (k : kind) := match k with KSem _ => true | _ => false end.

Definition sub_ports (p : loc) := get_subelements p (is_kind k_port).
Definition sub_relations (p : loc) := get_subelements p (is_kind k_rel).
Definition sub_edges (p : loc) := get_subelements p (is_kind k_edge).
Definition sub_nodes (p : loc) := get_subelements p (is_kind k_node).
Definition sub_values (p : loc) := get_subelements p (is_kind k_value).

(** HypergraphEdge.induced_subset, base_elements.py:161-163 (None for a
    relation that lost its endpoint) *)
Definition induced_subset (e : loc) : M (list (option loc)) :=
  let! rs := sub_relations e in
  map_m (fun r => let! o := deref r in ret (o_endpoint o)) rs.

(** base_elements.py:165-173 *)
Definition d_in (d : direction) := match d with INWARDS | BIDIRECTIONAL => true | OUTWARDS => false end.
Definition d_out (d : direction) := match d with OUTWARDS | BIDIRECTIONAL => true | INWARDS => false end.
Definition incoming_relations (e : loc) : M (list loc) :=
  get_subelements e (fun _ o => k_rel (o_kind o) && d_in (o_dir o)).
Definition outgoing_relations (e : loc) : M (list loc) :=
  get_subelements e (fun _ o => k_rel (o_kind o) && d_out (o_dir o)).

(** HypergraphNode.__getitem__, base_elements.py:197-198 *)
Definition node_getitem (n : loc) (u : uid) : M loc :=
  let! o := deref n in of_opt KeyError (dget u (o_subs o)).

(** ** Value nodes, value_node.py:21-43 *)

(** Python list indexing: negative indices count from the end. *)
Definition py_index (len : nat) (i : Z) : option nat :=
  if (0 <=? i)%Z then
    if (i <? Z.of_nat len)%Z then Some (Z.to_nat i) else None
  else if (- Z.of_nat len <=? i)%Z then Some (Z.to_nat (i + Z.of_nat len)) else None.

Definition list_get {A} (l : list A) (i : Z) : option A :=
  match py_index (length l) i with Some n => l !! n | None => None end.
Definition list_put {A} (l : list A) (i : Z) (x : A) : option (list A) :=
  match py_index (length l) i with Some n => Some (<[n := x]> l) | None => None end.

(** get_value / __getitem__ *)
Definition get_value (v : loc) (i : Z) : M pyval :=
  let! o := deref v in of_opt IndexError (list_get (o_vals o) i).
(** update_value / __setitem__ *)
Definition update_value (v : loc) (i : Z) (x : pyval) : M unit :=
  let! o := deref v in
  let! l := of_opt IndexError (list_put (o_vals o) i x) in
  upd v (s_vals l).
(** update_values (the list object is shared with the caller afterwards; later
    changes of it by the caller are not modelled) *)
Definition update_values (v : loc) (l : list pyval) : M unit :=
  let! _ := deref v in upd v (s_vals l).
(** get_values / val *)
Definition get_values (v : loc) : M (list pyval) :=
  let! o := deref v in ret (o_vals o).
(** list(v): __iter__ runs over range(self.dim), value_node.py:36-37 *)
Definition iter_values (v : loc) : M (list pyval) :=
  let! o := deref v in
  map_m (fun i => get_value v (Z.of_nat i)) (seq 0 (o_dim o)).

(** SemanticValueNode attributes, value_node.py:56-75 *)
Definition add_named_attribute (x : loc) (k : string) (v : pyval) : M unit :=
  upd x (fun o => s_attr (dset k v (o_attr o)) o).
Definition remove_named_attribute (x : loc) (k : string) : M unit :=
  upd x (fun o => s_attr (ddel k (o_attr o)) o).
Definition get_attribute (x : loc) (k : string) : M pyval :=
  let! o := deref x in ret (default PNone (dget k (o_attr o))).
(** CognitiveEntity.setup, CognitiveEntity.py:11-13 *)
Definition entity_setup (x : loc) (nm : string) : M unit :=
  remove_named_attribute x "name" ;; add_named_attribute x "name" (PStr nm).

(** ConceptualItem.clock setter, conceptual_item.py:192-194 *)
Definition set_clock (x : loc) (c : option clockid) : M unit := upd x (s_clock c).
