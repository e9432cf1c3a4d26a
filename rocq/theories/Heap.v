(** * Objects and the state monad

    One record describes the instances of all modelled classes; a field that a
    class does not have is never read for it. *)
From Verif Require Export Py.

Notation loc := nat (only parsing).
Notation uid := string (only parsing).
Notation clockid := nat (only parsing).

(** hypergraph/common_definitions.py:4-7 *)
Inductive direction := INWARDS | OUTWARDS | BIDIRECTIONAL.
Global Instance direction_eq_dec : EqDecision direction.
Proof. solve_decision. Defined.

(** Subclasses of SemanticValueNode, format/semantics/CognitiveEntity.py *)
Inductive sclass :=
| SPlain (* SemanticValueNode itself *)
| SCognitiveEntity      (* :5 *)
| SInertiaElement       (* :19 *)
| SRigidTransformation  (* :28 *)
| SKinematicGraph       (* KinematicGraphDefinition :37 *)
| SKinematicLink        (* :45 *)
| SKinematicJoint       (* :51 *)
| SCylinderGeometry     (* :68 *)
| SEllipsoidGeometry    (* :74 *)
| SPolyhedronGeometry   (* :80 *)
| SVisualMaterial.      (* :89 *)
Global Instance sclass_eq_dec : EqDecision sclass.
Proof. solve_decision. Defined.

(** Classes: ConceptualItem (conceptual_item.py:175), HypergraphElement,
    HypergraphNode, HypergraphEdge, HypergraphRelation, HypergraphPort
    (base_elements.py:29,176,124,69,14), ValueNode, SemanticValueNode
    (value_node.py:6,47). *)
Inductive kind :=
| KItem | KElem | KNode | KEdge | KRel | KPort | KValue | KSem (c : sclass).
Global Instance kind_eq_dec : EqDecision kind.
Proof. solve_decision. Defined.

(** isinstance(x, ConceptualItem) / isinstance(x, HypergraphElement) *)
Definition is_conceptual (k : kind) : bool :=
  match k with KItem | KElem | KNode | KEdge => true | _ => false end.
Definition is_hyperelement (k : kind) : bool :=
  match k with KElem | KNode | KEdge => true | _ => false end.

(** Data stored in value nodes and attribute dictionaries. *)
Inductive pyval :=
| PNone
| PNum (q : Qc)
| PStr (s : string)
| PList (l : list pyval)
| PRef (l : loc).

(** Weight of a relation: None, a value node, or something without the
    interface of a value node (cognilang_file_icon.py passes lists). *)
Inductive weight := WNone | WVal (l : loc) | WOther (l : list pyval).

Record obj := mkObj {
  o_kind : kind; (* class of the object *)
  o_uuid : uid; (* _uuid                         abstract_items.py:8 *)
  o_name : string; (* _id_name                      abstract_items.py:9 *)
  o_prog : string; (* _progenitor_qualified_name    abstract_items.py:10 *)
  o_qname : string; (* _qualified_name               abstract_items.py:12 *)
  o_parent : option loc; (* _parent                       conceptual_item.py:38 *)
  o_depth : nat; (* _depth                        conceptual_item.py:40 *)
  o_cid : nat; (* _cid                          conceptual_item.py:42 *)
  o_cnt : Z; (* _cnt_subelements              conceptual_item.py:47 *)
  o_hist : nat; (* _cnt_subelements_historical   conceptual_item.py:49 *)
  o_subs : dict uid loc; (* _sub_elements                 conceptual_item.py:51 *)
  o_index : dict string (dict uid loc); (* _index_elements_by_name       conceptual_item.py:53 *)
  o_clock : option clockid; (* _clock                        conceptual_item.py:180 *)
  o_time : Z; (* _timestamp                    conceptual_item.py:206 *)
  o_ready : bool; (* constructor ran to its end: _id_generation, _ports (base_elements.py:37-39) and _sub_relations (132) exist *)
  o_ports : dict uid loc; (* _ports                        base_elements.py:39 *)
  o_rels : dict nat loc; (* _sub_relations                base_elements.py:132 *)
  o_endpoint : option loc; (* _endpoint                     base_elements.py:22, 79 *)
  o_dir : direction; (* _direction                    base_elements.py:80 *)
  o_weight : weight; (* _weight                       base_elements.py:89 *)
  o_sem : option loc; (* semantic_value_node           base_elements.py:91 *)
  o_vals : list pyval; (* _values                       value_node.py:14-18 *)
  o_dim : nat; (* dim                           value_node.py:15-18 *)
  o_attr : dict string pyval (* __attribute_dictionary        value_node.py:52 *)
}.

Definition s_kind (x : kind) (o : obj) : obj :=
  mkObj x (o_uuid o) (o_name o) (o_prog o) (o_qname o) (o_parent o) (o_depth o) (o_cid o) (o_cnt o) (o_hist o) (o_subs o) (o_index o) (o_clock o) (o_time o) (o_ready o) (o_ports o) (o_rels o) (o_endpoint o) (o_dir o) (o_weight o) (o_sem o) (o_vals o) (o_dim o) (o_attr o).
Definition s_uuid (x : uid) (o : obj) : obj :=
  mkObj (o_kind o) x (o_name o) (o_prog o) (o_qname o) (o_parent o) (o_depth o) (o_cid o) (o_cnt o) (o_hist o) (o_subs o) (o_index o) (o_clock o) (o_time o) (o_ready o) (o_ports o) (o_rels o) (o_endpoint o) (o_dir o) (o_weight o) (o_sem o) (o_vals o) (o_dim o) (o_attr o).
Definition s_name (x : string) (o : obj) : obj :=
  mkObj (o_kind o) (o_uuid o) x (o_prog o) (o_qname o) (o_parent o) (o_depth o) (o_cid o) (o_cnt o) (o_hist o) (o_subs o) (o_index o) (o_clock o) (o_time o) (o_ready o) (o_ports o) (o_rels o) (o_endpoint o) (o_dir o) (o_weight o) (o_sem o) (o_vals o) (o_dim o) (o_attr o).
Definition s_prog (x : string) (o : obj) : obj :=
  mkObj (o_kind o) (o_uuid o) (o_name o) x (o_qname o) (o_parent o) (o_depth o) (o_cid o) (o_cnt o) (o_hist o) (o_subs o) (o_index o) (o_clock o) (o_time o) (o_ready o) (o_ports o) (o_rels o) (o_endpoint o) (o_dir o) (o_weight o) (o_sem o) (o_vals o) (o_dim o) (o_attr o).
Definition s_qname (x : string) (o : obj) : obj :=
  mkObj (o_kind o) (o_uuid o) (o_name o) (o_prog o) x (o_parent o) (o_depth o) (o_cid o) (o_cnt o) (o_hist o) (o_subs o) (o_index o) (o_clock o) (o_time o) (o_ready o) (o_ports o) (o_rels o) (o_endpoint o) (o_dir o) (o_weight o) (o_sem o) (o_vals o) (o_dim o) (o_attr o).
Definition s_parent (x : option loc) (o : obj) : obj :=
  mkObj (o_kind o) (o_uuid o) (o_name o) (o_prog o) (o_qname o) x (o_depth o) (o_cid o) (o_cnt o) (o_hist o) (o_subs o) (o_index o) (o_clock o) (o_time o) (o_ready o) (o_ports o) (o_rels o) (o_endpoint o) (o_dir o) (o_weight o) (o_sem o) (o_vals o) (o_dim o) (o_attr o).
Definition s_depth (x : nat) (o : obj) : obj :=
  mkObj (o_kind o) (o_uuid o) (o_name o) (o_prog o) (o_qname o) (o_parent o) x (o_cid o) (o_cnt o) (o_hist o) (o_subs o) (o_index o) (o_clock o) (o_time o) (o_ready o) (o_ports o) (o_rels o) (o_endpoint o) (o_dir o) (o_weight o) (o_sem o) (o_vals o) (o_dim o) (o_attr o).
Definition s_cid (x : nat) (o : obj) : obj :=
  mkObj (o_kind o) (o_uuid o) (o_name o) (o_prog o) (o_qname o) (o_parent o) (o_depth o) x (o_cnt o) (o_hist o) (o_subs o) (o_index o) (o_clock o) (o_time o) (o_ready o) (o_ports o) (o_rels o) (o_endpoint o) (o_dir o) (o_weight o) (o_sem o) (o_vals o) (o_dim o) (o_attr o).
Definition s_cnt (x : Z) (o : obj) : obj :=
  mkObj (o_kind o) (o_uuid o) (o_name o) (o_prog o) (o_qname o) (o_parent o) (o_depth o) (o_cid o) x (o_hist o) (o_subs o) (o_index o) (o_clock o) (o_time o) (o_ready o) (o_ports o) (o_rels o) (o_endpoint o) (o_dir o) (o_weight o) (o_sem o) (o_vals o) (o_dim o) (o_attr o).
Definition s_hist (x : nat) (o : obj) : obj :=
  mkObj (o_kind o) (o_uuid o) (o_name o) (o_prog o) (o_qname o) (o_parent o) (o_depth o) (o_cid o) (o_cnt o) x (o_subs o) (o_index o) (o_clock o) (o_time o) (o_ready o) (o_ports o) (o_rels o) (o_endpoint o) (o_dir o) (o_weight o) (o_sem o) (o_vals o) (o_dim o) (o_attr o).
Definition s_subs (x : dict uid loc) (o : obj) : obj :=
  mkObj (o_kind o) (o_uuid o) (o_name o) (o_prog o) (o_qname o) (o_parent o) (o_depth o) (o_cid o) (o_cnt o) (o_hist o) x (o_index o) (o_clock o) (o_time o) (o_ready o) (o_ports o) (o_rels o) (o_endpoint o) (o_dir o) (o_weight o) (o_sem o) (o_vals o) (o_dim o) (o_attr o).
Definition s_index (x : dict string (dict uid loc)) (o : obj) : obj :=
  mkObj (o_kind o) (o_uuid o) (o_name o) (o_prog o) (o_qname o) (o_parent o) (o_depth o) (o_cid o) (o_cnt o) (o_hist o) (o_subs o) x (o_clock o) (o_time o) (o_ready o) (o_ports o) (o_rels o) (o_endpoint o) (o_dir o) (o_weight o) (o_sem o) (o_vals o) (o_dim o) (o_attr o).
Definition s_clock (x : option clockid) (o : obj) : obj :=
  mkObj (o_kind o) (o_uuid o) (o_name o) (o_prog o) (o_qname o) (o_parent o) (o_depth o) (o_cid o) (o_cnt o) (o_hist o) (o_subs o) (o_index o) x (o_time o) (o_ready o) (o_ports o) (o_rels o) (o_endpoint o) (o_dir o) (o_weight o) (o_sem o) (o_vals o) (o_dim o) (o_attr o).
Definition s_time (x : Z) (o : obj) : obj :=
  mkObj (o_kind o) (o_uuid o) (o_name o) (o_prog o) (o_qname o) (o_parent o) (o_depth o) (o_cid o) (o_cnt o) (o_hist o) (o_subs o) (o_index o) (o_clock o) x (o_ready o) (o_ports o) (o_rels o) (o_endpoint o) (o_dir o) (o_weight o) (o_sem o) (o_vals o) (o_dim o) (o_attr o).
Definition s_ready (x : bool) (o : obj) : obj :=
  mkObj (o_kind o) (o_uuid o) (o_name o) (o_prog o) (o_qname o) (o_parent o) (o_depth o) (o_cid o) (o_cnt o) (o_hist o) (o_subs o) (o_index o) (o_clock o) (o_time o) x (o_ports o) (o_rels o) (o_endpoint o) (o_dir o) (o_weight o) (o_sem o) (o_vals o) (o_dim o) (o_attr o).
Definition s_ports (x : dict uid loc) (o : obj) : obj :=
  mkObj (o_kind o) (o_uuid o) (o_name o) (o_prog o) (o_qname o) (o_parent o) (o_depth o) (o_cid o) (o_cnt o) (o_hist o) (o_subs o) (o_index o) (o_clock o) (o_time o) (o_ready o) x (o_rels o) (o_endpoint o) (o_dir o) (o_weight o) (o_sem o) (o_vals o) (o_dim o) (o_attr o).
Definition s_rels (x : dict nat loc) (o : obj) : obj :=
  mkObj (o_kind o) (o_uuid o) (o_name o) (o_prog o) (o_qname o) (o_parent o) (o_depth o) (o_cid o) (o_cnt o) (o_hist o) (o_subs o) (o_index o) (o_clock o) (o_time o) (o_ready o) (o_ports o) x (o_endpoint o) (o_dir o) (o_weight o) (o_sem o) (o_vals o) (o_dim o) (o_attr o).
Definition s_endpoint (x : option loc) (o : obj) : obj :=
  mkObj (o_kind o) (o_uuid o) (o_name o) (o_prog o) (o_qname o) (o_parent o) (o_depth o) (o_cid o) (o_cnt o) (o_hist o) (o_subs o) (o_index o) (o_clock o) (o_time o) (o_ready o) (o_ports o) (o_rels o) x (o_dir o) (o_weight o) (o_sem o) (o_vals o) (o_dim o) (o_attr o).
Definition s_dir (x : direction) (o : obj) : obj :=
  mkObj (o_kind o) (o_uuid o) (o_name o) (o_prog o) (o_qname o) (o_parent o) (o_depth o) (o_cid o) (o_cnt o) (o_hist o) (o_subs o) (o_index o) (o_clock o) (o_time o) (o_ready o) (o_ports o) (o_rels o) (o_endpoint o) x (o_weight o) (o_sem o) (o_vals o) (o_dim o) (o_attr o).
Definition s_weight (x : weight) (o : obj) : obj :=
  mkObj (o_kind o) (o_uuid o) (o_name o) (o_prog o) (o_qname o) (o_parent o) (o_depth o) (o_cid o) (o_cnt o) (o_hist o) (o_subs o) (o_index o) (o_clock o) (o_time o) (o_ready o) (o_ports o) (o_rels o) (o_endpoint o) (o_dir o) x (o_sem o) (o_vals o) (o_dim o) (o_attr o).
Definition s_sem (x : option loc) (o : obj) : obj :=
  mkObj (o_kind o) (o_uuid o) (o_name o) (o_prog o) (o_qname o) (o_parent o) (o_depth o) (o_cid o) (o_cnt o) (o_hist o) (o_subs o) (o_index o) (o_clock o) (o_time o) (o_ready o) (o_ports o) (o_rels o) (o_endpoint o) (o_dir o) (o_weight o) x (o_vals o) (o_dim o) (o_attr o).
Definition s_vals (x : list pyval) (o : obj) : obj :=
  mkObj (o_kind o) (o_uuid o) (o_name o) (o_prog o) (o_qname o) (o_parent o) (o_depth o) (o_cid o) (o_cnt o) (o_hist o) (o_subs o) (o_index o) (o_clock o) (o_time o) (o_ready o) (o_ports o) (o_rels o) (o_endpoint o) (o_dir o) (o_weight o) (o_sem o) x (o_dim o) (o_attr o).
Definition s_dim (x : nat) (o : obj) : obj :=
  mkObj (o_kind o) (o_uuid o) (o_name o) (o_prog o) (o_qname o) (o_parent o) (o_depth o) (o_cid o) (o_cnt o) (o_hist o) (o_subs o) (o_index o) (o_clock o) (o_time o) (o_ready o) (o_ports o) (o_rels o) (o_endpoint o) (o_dir o) (o_weight o) (o_sem o) (o_vals o) x (o_attr o).
Definition s_attr (x : dict string pyval) (o : obj) : obj :=
  mkObj (o_kind o) (o_uuid o) (o_name o) (o_prog o) (o_qname o) (o_parent o) (o_depth o) (o_cid o) (o_cnt o) (o_hist o) (o_subs o) (o_index o) (o_clock o) (o_time o) (o_ready o) (o_ports o) (o_rels o) (o_endpoint o) (o_dir o) (o_weight o) (o_sem o) (o_vals o) (o_dim o) x.

(** State: the objects, the number of clock readings so far, the two oracles,
    and the queues that are default arguments evaluated once
    (hierarchical_traversal_strategies.py:31, hypergraph_traversal_strategies.py:21,
    search_elements.py:13). *)
Record st := mkSt {
  heap : list obj;
  tick : nat;
  clk : clockid -> nat -> Z; (* reading number n of a clock *)
  sha : string -> string;    (* hashlib.sha3_224(..).digest() *)
  fr_hier : list (loc * nat);
  fr_hyper : list (loc * nat);
  fr_query : list loc
}.

Definition set_heap (h : list obj) (s : st) : st :=
  mkSt h (tick s) (clk s) (sha s) (fr_hier s) (fr_hyper s) (fr_query s).
Definition set_tick (n : nat) (s : st) : st :=
  mkSt (heap s) n (clk s) (sha s) (fr_hier s) (fr_hyper s) (fr_query s).
Definition set_fr_hier (q : list (loc * nat)) (s : st) : st :=
  mkSt (heap s) (tick s) (clk s) (sha s) q (fr_hyper s) (fr_query s).
Definition set_fr_hyper (q : list (loc * nat)) (s : st) : st :=
  mkSt (heap s) (tick s) (clk s) (sha s) (fr_hier s) q (fr_query s).
Definition set_fr_query (q : list loc) (s : st) : st :=
  mkSt (heap s) (tick s) (clk s) (sha s) (fr_hier s) (fr_hyper s) q.

(** ** The monad: an exception keeps the state reached so far *)
Definition M (A : Type) : Type := st -> res A * st.

Definition ret {A} (a : A) : M A := fun s => (Ok a, s).
Definition raise {A} (e : exn) : M A := fun s => (Exn e, s).
Definition bind {A B} (m : M A) (k : A -> M B) : M B :=
  fun s => match m s with
           | (Ok a, s') => k a s'
           | (Exn e, s') => (Exn e, s')
           end.
Notation "'let!' x ':=' m 'in' k" := (bind m (fun x => k))
  (at level 200, x name, m at level 100, k at level 200,
   format "'[v' let!  x  :=  m  in '/' k ']'").
Notation "'let!' ' p ':=' m 'in' k" := (bind m (fun x => let p := x in k))
  (at level 200, p strict pattern, m at level 100, k at level 200).
Notation "m ;; k" := (bind m (fun _ => k)) (at level 100, k at level 200, right associativity).

Definition get_st : M st := fun s => (Ok s, s).
Definition modify_st (f : st -> st) : M unit := fun s => (Ok tt, f s).

(** Read an object. *)
Definition deref (l : loc) : M obj :=
  fun s => match heap s !! l with
           | Some o => (Ok o, s)
           | None => (Exn BadRef, s)
           end.
(** Assign fields of an object. *)
Definition upd (l : loc) (f : obj -> obj) : M unit :=
  fun s => match heap s !! l with
           | Some _ => (Ok tt, set_heap (alter f l (heap s)) s)
           | None => (Exn BadRef, s)
           end.
(** Create an object. *)
Definition alloc (o : obj) : M loc :=
  fun s => (Ok (length (heap s)), set_heap (heap s ++ [o]) s).

(** [clock.get_time_ns()], clock.py:7-9 *)
Definition now (c : clockid) : M Z :=
  fun s => (Ok (clk s c (tick s)), set_tick (S (tick s)) s).

(** [hashlib.sha3_224(x).digest()], identity_generator.py:24-27 *)
Definition hash (x : string) : M uid := fun s => (Ok (sha s x), s).

Definition of_opt {A} (e : exn) (x : option A) : M A :=
  match x with Some a => ret a | None => raise e end.

(** [for x in l: f(x)] over a finished list *)
Fixpoint for_each {A} (f : A -> M unit) (l : list A) : M unit :=
  match l with
  | [] => ret tt
  | x :: l' => f x ;; for_each f l'
  end.

(** [[f(x) for x in l]] *)
Fixpoint map_m {A B} (f : A -> M B) (l : list A) : M (list B) :=
  match l with
  | [] => ret []
  | x :: l' => let! y := f x in let! ys := map_m f l' in ret (y :: ys)
  end.
