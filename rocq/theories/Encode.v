(** * Messages: encoding and decoding of a graph

    framework_python/rei/hypergraph/encoding/graph_tensor_icon.py,
    framework_python/rei/hypergraph/encoding/graph_tensor_icon_cbor.py

    Simplifications: cbor2.loads(cbor2.dumps(x)) gives back the structure x, with
    lists for tuples; so a message is the structure itself.  Numbers are exact.
    Text encoded to UTF-8 and decoded again is the same text. *)
From Verif Require Export HTraverse Elements.

(** ** The tuples of a message *)

(** __msg_node_tuple, graph_tensor_icon.py:53-56; [None] is the number 0 that
    stands for the missing parent. *)
Record msg_node := mkMN { mn_uuid : uid; mn_name : string; mn_index : nat; mn_parent : option uid; mn_qname : string }.
(** __msg_edge_tuple, lines 58-59 *)
Record msg_edge := mkME { me_uuid : uid; me_name : string; me_index : nat; me_parent : uid; me_qname : string }.
(** lines 77-78 *)
Record msg_rel := mkMR { mr_uuid : uid; mr_name : string; mr_qname : string; mr_dir : nat; mr_ep : uid; mr_parent : uid }.
(** __msg_value_tuple, lines 61-63 *)
Record msg_value := mkMV { mv_uuid : uid; mv_name : string; mv_index : nat; mv_parent : uid; mv_qname : string; mv_vals : list pyval }.
(** Entries of the sparse tensors: indices, or uuids if there is no homomorphism yet *)
Inductive mid := MIndex (i : nat) | MUuid (u : uid).
Notation msg_entry3 := (mid * mid * mid * Qc)%type.
Notation msg_entry2 := (mid * mid * Qc)%type.

(** EnumRelationDirection.value, common_definitions.py:4-7 *)
Definition direction_value (d : direction) : nat := match d with INWARDS => 0 | OUTWARDS => 1 | BIDIRECTIONAL => 2 end.

(** ** CoordinateObjectTransformer, graph_tensor_icon.py:13-26 *)
Record coo := mkCoo {
  co_context : loc; (* _context *)
  co_hom : option hom; (* _index_homomorphism *)
  co_tens : list msg_entry3; (* _msg_value_tensor *)
  co_out : list msg_entry2; (* _msg_incidence_out *)
  co_in : list msg_entry2; (* _msg_incidence_in *)
  co_rels : list msg_rel (* _msg_relations *)
}.
Definition new_coo (context : loc) : coo := mkCoo context None [] [] [] [].
Definition co_set_hom (x : option hom) (c : coo) : coo := mkCoo (co_context c) x (co_tens c) (co_out c) (co_in c) (co_rels c).
Definition co_set_rels (r : list msg_rel) (c : coo) : coo := mkCoo (co_context c) (co_hom c) (co_tens c) (co_out c) (co_in c) r.

(** reset, lines 31-33: a new homomorphism, with the root, to any depth *)
Definition coo_conf : homconf := mkHC false None.
Definition coo_reset (lim : nat) (start : loc) (s : st) (c : coo) : res (list unit) * st * coo :=
  let '(r, s', x) := hom_execute lim coo_conf start s hom0 in (r, s', co_set_hom (Some x) c).

(** fill_tensors, lines 35-39, called from 50-51 with [i_n0] and [i_n1] exchanged:
    the entries are (edge, first node, second node, weight), (edge, first node,
    weight) and (edge, second node, weight). *)
Definition coo_fill {I} (f : I -> mid) (c : coo) (t : htuple I) : coo :=
  let e := f (tu_e t) in let a := f (tu_0 t) in let b := f (tu_1 t) in
  mkCoo (co_context c) (co_hom c) (co_tens c ++ [(e, a, b, tu_w t)]) (co_out c ++ [(e, a, tu_w t)]) (co_in c ++ [(e, b, tu_w t)]) (co_rels c).
Definition coo_collector {I} : hvisitor I (list (list (htuple I))) unit := fun b q => (Ok tt, q ++ [b]).
(** execute, lines 41-51, with repr_depth = math.inf (line 15) *)
Definition coo_execute (lim : nat) (s : st) (c : coo) : res unit * st * coo :=
  match co_hom c with
  | Some x =>
      match h_execute lim (ident_hom x) sum_norm None coo_collector (co_context c) s [] with
      | (Exn e, s', _) => (Exn e, s', c)
      | (Ok _, s', q) => (Ok tt, s', foldl (coo_fill MIndex) c (concat q))
      end
  | None =>
      match h_execute lim ident_uuid sum_norm None coo_collector (co_context c) s [] with
      | (Exn e, s', _) => (Exn e, s', c)
      | (Ok _, s', q) => (Ok tt, s', foldl (coo_fill (fun i => MUuid (snd i))) c (concat q))
      end
  end.

(** An index look-up before the first reset: None has no such method. *)
Definition with_hom {A} (x : option hom) (f : hom -> res A) : res A := match x with Some x => f x | None => Exn AttributeError end.

(** __msg_node_tuple, lines 53-56 *)
Definition node_tuple (s : st) (x : option hom) (l : loc) : res msg_node :=
  match heap s !! l with
  | None => Exn BadRef
  | Some o =>
      match with_hom x (fun x => hom_node x (o_uuid o)) with
      | Exn e => Exn e
      | Ok i =>
          match o_parent o with
          | None => Ok (mkMN (o_uuid o) (o_name o) i None (o_qname o))
          | Some p => match heap s !! p with
                      | Some op => Ok (mkMN (o_uuid o) (o_name o) i (Some (o_uuid op)) (o_qname o))
                      | None => Exn BadRef
                      end
          end
      end
  end.
(** The uuid of the parent: None has none. *)
Definition parent_uid (s : st) (o : obj) : res uid :=
  match o_parent o with
  | None => Exn AttributeError
  | Some p => match heap s !! p with Some op => Ok (o_uuid op) | None => Exn BadRef end
  end.
(** __msg_edge_tuple, lines 58-59 *)
Definition edge_tuple (s : st) (x : option hom) (l : loc) : res msg_edge :=
  match heap s !! l with
  | None => Exn BadRef
  | Some o =>
      match with_hom x (fun x => hom_edge x (o_uuid o)), parent_uid s o with
      | Ok i, Ok u => Ok (mkME (o_uuid o) (o_name o) i u (o_qname o))
      | Exn e, _ => Exn e
      | _, Exn e => Exn e
      end
  end.
(** __msg_value_tuple, lines 61-63 *)
Definition value_tuple (s : st) (x : option hom) (l : loc) : res msg_value :=
  match heap s !! l with
  | None => Exn BadRef
  | Some o =>
      match with_hom x (fun x => hom_val x (o_uuid o)), parent_uid s o with
      | Ok i, Ok u => Ok (mkMV (o_uuid o) (o_name o) i u (o_qname o) (o_vals o))
      | Exn e, _ => Exn e
      | _, Exn e => Exn e
      end
  end.
Definition res_bind {A B} (r : res A) (f : A -> res B) : res B := match r with Ok a => f a | Exn e => Exn e end.

(** node_index_list, lines 65-68 *)
Definition node_index_list (s : st) (c : coo) : res (list msg_node) :=
  res_bind (node_tuple s (co_hom c) (co_context c)) (fun n =>
  res_bind (fst (sub_nodes (co_context c) s)) (fun ls =>
  res_bind (res_map (node_tuple s (co_hom c)) ls) (fun ns => Ok (n :: ns)))).
(** edge_index_list, lines 70-71 *)
Definition edge_index_list (s : st) (c : coo) : res (list msg_edge) :=
  res_bind (fst (sub_edges (co_context c) s)) (res_map (edge_tuple s (co_hom c))).
(** lines 77-78 *)
Definition rel_tuple (s : st) (l : loc) : res msg_rel :=
  match heap s !! l with
  | None => Exn BadRef
  | Some o =>
      match o_endpoint o with
      | None => Exn AttributeError
      | Some ep =>
          match heap s !! ep, parent_uid s o with
          | None, _ => Exn BadRef
          | Some oe, Ok u => Ok (mkMR (o_uuid o) (o_name o) (o_qname o) (direction_value (o_dir o)) (o_uuid oe) u)
          | _, Exn e => Exn e
          end
      end
  end.
(** msg_relation_index_list, lines 73-79: the list is an attribute and only grows *)
Fixpoint append_rels (s : st) (rs : list loc) (acc : list msg_rel) : res unit * list msg_rel :=
  match rs with
  | [] => (Ok tt, acc)
  | r :: rs' => match rel_tuple s r with
                | Exn e => (Exn e, acc)
                | Ok t => append_rels s rs' (acc ++ [t])
                end
  end.
Fixpoint append_edges (s : st) (es : list loc) (acc : list msg_rel) : res unit * list msg_rel :=
  match es with
  | [] => (Ok tt, acc)
  | e :: es' =>
      match fst (sub_relations e s) with
      | Exn x => (Exn x, acc)
      | Ok rs => match append_rels s rs acc with
                 | (Exn x, acc') => (Exn x, acc')
                 | (Ok _, acc') => append_edges s es' acc'
                 end
      end
  end.
Definition msg_relation_index_list (s : st) (c : coo) : res (list msg_rel) * coo :=
  match fst (sub_edges (co_context c) s) with
  | Exn e => (Exn e, c)
  | Ok es => match append_edges s es (co_rels c) with
             | (Exn e, r) => (Exn e, co_set_rels r c)
             | (Ok _, r) => (Ok r, co_set_rels r c)
             end
  end.
(** msg_value_nodes, lines 84-85 *)
Definition msg_value_nodes (s : st) (c : coo) : res (list msg_value) :=
  res_bind (fst (sub_values (co_context c) s)) (res_map (value_tuple s (co_hom c))).
(** msg_value_node_update, lines 87-88 *)
Definition value_update (s : st) (x : option hom) (l : loc) : res (nat * list pyval) :=
  match heap s !! l with
  | None => Exn BadRef
  | Some o => res_bind (with_hom x (fun x => hom_val x (o_uuid o))) (fun i => Ok (i, o_vals o))
  end.
Definition msg_value_node_update (s : st) (c : coo) : res (list (nat * list pyval)) :=
  res_bind (fst (sub_values (co_context c) s)) (res_map (value_update s (co_hom c))).

(** ** GraphTensorCbor, graph_tensor_icon_cbor.py:13-21.  The clock is never None. *)
Record icon := mkIcon {
  ic_coo : coo; (* _coo_tr *)
  ic_clock : clockid; (* __clock *)
  ic_context : option loc; (* _context: the graph decoded last *)
  ic_hom : option hom (* _homomorphism *)
}.
Definition new_icon (c : clockid) (context : loc) : icon := mkIcon (new_coo context) c None None.
Definition ic_set_coo (x : coo) (g : icon) : icon := mkIcon x (ic_clock g) (ic_context g) (ic_hom g).

(** update_context, lines 23-24; update_coo, 26-27 *)
Definition update_context (lim : nat) (start : loc) (s : st) (g : icon) : res (list unit) * st * icon :=
  let '(r, s', c) := coo_reset lim start s (ic_coo g) in (r, s', ic_set_coo c g).
Definition update_coo (lim : nat) (s : st) (g : icon) : res unit * st * icon :=
  let '(r, s', c) := coo_execute lim s (ic_coo g) in (r, s', ic_set_coo c g).

(** cbor2.dumps raises CBOREncodeTypeError, a TypeError, for objects it does not know *)
Fixpoint encodable (v : pyval) : bool :=
  match v with
  | PNone | PNum _ | PStr _ => true
  | PList l => forallb encodable l
  | PRef _ => false
  end.
Record message := mkMsg {
  m_nodes : list msg_node; m_edges : list msg_edge; m_rels : list msg_rel; m_values : list msg_value;
  m_tens : list msg_entry3; m_out : list msg_entry2; m_in : list msg_entry2 }.
(** full_msg, lines 29-37 *)
Definition full_msg (s : st) (g : icon) : res message * icon :=
  let c := ic_coo g in
  match node_index_list s c with
  | Exn e => (Exn e, g)
  | Ok ns =>
      match edge_index_list s c with
      | Exn e => (Exn e, g)
      | Ok es =>
          match msg_relation_index_list s c with
          | (Exn e, c') => (Exn e, ic_set_coo c' g)
          | (Ok rs, c') =>
              match msg_value_nodes s c' with
              | Exn e => (Exn e, ic_set_coo c' g)
              | Ok vs =>
                  if forallb (fun v => forallb encodable (mv_vals v)) vs
                  then (Ok (mkMsg ns es rs vs (co_tens c') (co_out c') (co_in c')), ic_set_coo c' g)
                  else (Exn TypeError, ic_set_coo c' g)
              end
          end
      end
  end.
(** msg_value_update, lines 39-40 *)
Definition msg_value_update (s : st) (g : icon) : res (list (nat * list pyval)) :=
  res_bind (msg_value_node_update s (ic_coo g)) (fun us =>
  if forallb (fun u => forallb encodable (snd u)) us then Ok us else Exn TypeError).

(** from_msg_update_values, lines 42-45.  Only value nodes have update_values;
    only a HypergraphNode can be subscripted with a uuid (the context is one). *)
Fixpoint apply_updates (g : icon) (us : list (nat * list pyval)) : M unit :=
  match us with
  | [] => ret tt
  | (i, vals) :: us' =>
      let! x := of_opt AttributeError (ic_hom g) in
      let! u := match hom_ival x i with Ok u => ret u | Exn e => raise e end in
      let! c := of_opt TypeError (ic_context g) in
      let! v := node_getitem c u in
      let! o := deref v in
      (if k_value (o_kind o) then update_values v vals else raise AttributeError) ;;
      apply_updates g us'
  end.

(** ** create_graph, lines 47-96 *)

(** Nodes, lines 56-64: [els] is _elements, [root] is _root *)
Fixpoint decode_nodes (c : clockid) (ns : list msg_node) (els : dict uid loc) (root : option loc) : M (dict uid loc * option loc) :=
  match ns with
  | [] => ret (els, root)
  | n :: ns' =>
      let! el := new_node (mn_name n) (mn_uuid n) (mn_qname n) (Some c) None in
      let els' := dset (mn_uuid n) el els in
      match mn_parent n with
      | None => decode_nodes c ns' els' (Some el)
      | Some u =>
          let! p := of_opt KeyError (dget u els') in
          add_element p el ;;
          decode_nodes c ns' els' root
      end
  end.
(** Edges, lines 67-70 *)
Fixpoint decode_edges (c : clockid) (es : list msg_edge) (els : dict uid loc) : M (dict uid loc) :=
  match es with
  | [] => ret els
  | e :: es' =>
      let! p := of_opt KeyError (dget (me_parent e) els) in
      let! el := new_edge (me_name e) (me_uuid e) (me_qname e) (Some c) (Some p) in
      decode_edges c es' (dset (me_uuid e) el els)
  end.
(** Relations, lines 72-74: no weight, the default direction; the direction of the
    message is not used *)
Fixpoint decode_rels (rs : list msg_rel) (els : dict uid loc) : M unit :=
  match rs with
  | [] => ret tt
  | r :: rs' =>
      let! ep := of_opt KeyError (dget (mr_ep r) els) in
      let! p := of_opt KeyError (dget (mr_parent r) els) in
      let! el := new_rel (mr_uuid r) (mr_name r) (mr_qname r) ep WNone BIDIRECTIONAL None in
      add_element p el ;;
      decode_rels rs' els
  end.
(** Value nodes, lines 77-80 *)
Fixpoint decode_values (vs : list msg_value) (els : dict uid loc) : M unit :=
  match vs with
  | [] => ret tt
  | v :: vs' =>
      let! el := new_value (mv_uuid v) (mv_name v) (mv_qname v) (Some (mv_vals v)) in
      let! p := of_opt KeyError (dget (mv_parent v) els) in
      add_element p el ;;
      decode_values vs' els
  end.
(** lines 83-84 *)
Definition decoded_hom (m : message) : hom :=
  reset_from_bijection (map (fun n => (mn_uuid n, mn_index n)) (m_nodes m)) (map (fun e => (me_uuid e, me_index e)) (m_edges m))
    (map (fun v => (mv_uuid v, mv_index v)) (m_values m)) hom0.
Definition create_graph (m : message) (s : st) (g : icon) : res (option loc * hom) * st * icon :=
  match (let! a := decode_nodes (ic_clock g) (m_nodes m) [] None in
         let! els := decode_edges (ic_clock g) (m_edges m) (fst a) in
         decode_rels (m_rels m) els ;;
         decode_values (m_values m) els ;;
         ret (snd a)) s with
  | (Exn e, s') => (Exn e, s', g)
  | (Ok root, s') => (Ok (root, decoded_hom m), s', mkIcon (ic_coo g) (ic_clock g) root (Some (decoded_hom m)))
  end.
