(** * Factories

    framework_python/rei/factories/abstract_factory.py, foundation_factory.py,
    framework_python/rei/format/semantics/cognitive_entity_semantic_factory.py *)
From Verif Require Export Elements.

(** AbstractElementFactory: a name and a clock, abstract_factory.py:10-17 *)
Record factory := mkFactory { f_name : string; f_clock : clockid }.

(** get_qualified_name, abstract_factory.py:19-20 *)
Definition qualified_text (nm : string) (t : Z) : string := nm +:+ "." +:+ str_of_Z t.
(** The text hashed by unique_identifier.generate_uid, abstract_factory.py:16-17 *)
Definition uid_text (fname nm : string) (t : Z) : string :=
  fname +:+ "/" +:+ qualified_text nm t.

(** unique_identifier.generate_uid, identity_generator.py:24-27 *)
Definition generate_uid (f : factory) (nm : string) : M uid :=
  let! t := now (f_clock f) in hash (uid_text (f_name f) nm t).

Definition get_qualified_name (f : factory) (nm : string) : M string :=
  let! t := now (f_clock f) in ret (qualified_text nm t).

(** get_stamped_qualified_name, abstract_factory.py:22-23 (a trailing comma makes
    it a one-element tuple in the code; only its text is kept here) *)
Definition stamped_name (f : factory) (nm : string) (parent : loc) : M string :=
  let! op := deref parent in
  let! t := now (f_clock f) in
  ret (join "/" [o_qname op; nm] +:+ "." +:+ str_of_Z t).

(** HypergraphFactory.generate_node, foundation_factory.py:15-22 *)
Definition generate_node (f : factory) (nm : string) (parent : option loc) : M loc :=
  let! u := match parent with
            | Some p => let! op := deref p in generate_uid f (join "/" [o_qname op; nm])
            | None => generate_uid f nm
            end in
  let! q := get_qualified_name f nm in
  new_node nm u (join "/" [f_name f; q]) (Some (f_clock f)) parent.

(** generate_list_nodes, foundation_factory.py:24-25 *)
Definition generate_list_nodes (f : factory) (nms : list string) (parent : option loc) : M (list loc) :=
  map_m (fun nm => generate_node f nm parent) nms.

(** [container.clock]: only ConceptualItems have it *)
Definition clock_of (p : loc) : M (option clockid) :=
  let! op := deref p in
  if is_conceptual (o_kind op) then ret (o_clock op) else raise AttributeError.

(** create_hyperedge, foundation_factory.py:31-36 *)
Definition create_hyperedge (f : factory) (parent : loc) (nm : string) : M loc :=
  let! u := generate_uid f nm in
  let! q := stamped_name f nm parent in
  let! c := clock_of parent in
  new_edge nm u q c (Some parent).

(** [for n, v in node_values: he.unary_connect(n, v, direction)] *)
Fixpoint connect_each (he : loc) (d : direction) (nv : list (loc * weight)) : M unit :=
  match nv with
  | [] => ret tt
  | (n, v) :: nv' => unary_connect he n v d None ;; connect_each he d nv'
  end.

Definition zip_none (ns : list loc) : list (loc * weight) := map (fun n => (n, WNone)) ns.

(** connect_nodes, foundation_factory.py:38-51 *)
Definition connect_nodes (f : factory) (container : loc) (nm : string) (ns : list loc)
    (d : direction) (values : option (list weight)) : M loc :=
  let! he := create_hyperedge f container nm in
  let! nv := match values with
             | None => ret (zip_none ns)
             | Some vs => if decide (length vs = length ns) then ret (zip ns vs)
                          else raise ErrorInsufficientValues
             end in
  connect_each he d nv ;;
  ret he.

(** connect_2factor_edges, foundation_factory.py:53-71 (line 70 passes
    direction[0] for the second list as well) *)
Definition connect_2factor_edges (f : factory) (container : loc) (nm : string)
    (ins outs : list loc) (d : direction * direction) (values : option (list weight)) : M loc :=
  let! he := create_hyperedge f container nm in
  let! nv := match values with
             | None => ret (zip_none ins, zip_none outs)
             | Some vs =>
                 if decide (length vs = length outs + length ins)
                 then ret (zip ins (take (length ins) vs), zip outs (drop (length ins) vs))
                 else raise ErrorInsufficientValues
             end in
  connect_each he d.1 nv.1 ;;
  connect_each he d.1 nv.2 ;;
  ret he.

(** connect_dir_edges, foundation_factory.py:73-76 *)
Definition connect_dir_edges (f : factory) (container : loc) (nm : string)
    (ins outs : list loc) : M loc :=
  connect_2factor_edges f container nm ins outs (INWARDS, OUTWARDS) None.

(** connect_tuple_nodes, foundation_factory.py:79-96 *)
Fixpoint connect_tuples (he : loc) (ts : list (loc * direction * weight * option loc)) : M unit :=
  match ts with
  | [] => ret tt
  | (n, d, v, sv) :: ts' => unary_connect he n v d sv ;; connect_tuples he ts'
  end.

Definition connect_tuple_nodes (f : factory) (container : loc) (nm : string)
    (ts : list (loc * direction * weight * option loc)) : M loc :=
  let! he := create_hyperedge f container nm in
  connect_tuples he ts ;;
  ret he.

(** create_value, foundation_factory.py:98-105 *)
Definition create_value (f : factory) (parent : option loc) (nm : string)
    (vals : option (list pyval)) : M loc :=
  let! u := generate_uid f nm in
  match parent with
  | Some p =>
      let! q := stamped_name f nm p in
      let! v := new_value u nm q vals in
      add_element p v ;;
      ret v
  | None =>
      let! q := get_qualified_name f nm in
      new_value u nm q vals
  end.

(** ** Semantic factory *)

(** str.lower() / str.strip() on ASCII text *)
Definition lower_ascii (a : ascii) : ascii :=
  let n := nat_of_ascii a in
  if (65 <=? n) && (n <=? 90) then ascii_of_nat (n + 32) else a.
Fixpoint lower (s : string) : string :=
  match s with
  | EmptyString => EmptyString
  | String a s' => String (lower_ascii a) (lower s')
  end.
(** whitespace for strip(): \t \n \v \f \r, \x1c-\x1f and the blank *)
Definition is_space (a : ascii) : bool :=
  let n := nat_of_ascii a in
  ((9 <=? n) && (n <=? 13)) || ((28 <=? n) && (n <=? 31)) || (n =? 32).
Fixpoint lstrip (s : string) : string :=
  match s with
  | EmptyString => EmptyString
  | String a s' => if is_space a then lstrip s' else s
  end.
Fixpoint rstrip (s : string) : string :=
  match s with
  | EmptyString => EmptyString
  | String a s' =>
      match rstrip s' with
      | EmptyString => if is_space a then EmptyString else String a EmptyString
      | t => String a t
      end
  end.
Definition strip (s : string) : string := rstrip (lstrip s).

(** [''.join(raw.lower().strip().split('_'))],
    cognitive_entity_semantic_factory.py:23 *)
Definition norm_type (raw : string) : string :=
  join "" (split_on underscore (strip (lower raw))).

(** The match statement, cognitive_entity_semantic_factory.py:26-52 *)
Definition type_class (t : string) : option sclass :=
  if decide (t = "cognitiveentity") then Some SCognitiveEntity else
  if decide (t = "kinematicgraph") then Some SKinematicGraph else
  if decide (t = "kinematiclink") then Some SKinematicLink else
  if decide (t = "kinematicjoint") then Some SKinematicJoint else
  if decide (t = "cylindergeometry") then Some SCylinderGeometry else
  if decide (t = "polyhedrongeometry") then Some SPolyhedronGeometry else
  if decide (t = "ellipsoidgeometry") then Some SEllipsoidGeometry else
  if decide (t = "material") then Some SVisualMaterial else
  if decide (t = "rigidtransformation") then Some SRigidTransformation else
  if decide (t = "inertiaelement") then Some SInertiaElement else None.

(** generate_semantic_element, cognitive_entity_semantic_factory.py:19-57 *)
Definition generate_semantic_element (f : factory) (raw nm : string) (parent : loc)
    (attr : dict string pyval) (values : option pyval) : M loc :=
  match attr with
  | [] => raise ErrorInsufficientValues
  | _ =>
      let! u := generate_uid f nm in
      match type_class (norm_type raw) with
      | None => raise InvalidSemanticType
      | Some c =>
          let! q := stamped_name f nm parent in
          let! el := new_sem c u nm q attr in
          add_element parent el ;;
          match values with
          | None => ret tt
          | Some v => add_named_attribute el "values" v
          end ;;
          ret el
      end
  end.
