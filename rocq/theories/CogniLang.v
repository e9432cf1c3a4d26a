(** * Reading a CogniLang description

    framework_python/rei/format/mapping/cognilang_file_icon.py, over the parse trees of
    framework/cognitive/speclanguage/src/main/antlr4/*.g4.

    The lexer and the parser (generated by ANTLR, not in the repository) are not
    modelled: the input is the parse tree.  [fl] is Python's float() on a text (None:
    ValueError; the texts of infinities and of NaN count as errors), [rad] is pi/180.
    Numbers are exact.  The chain of parentCtx is the argument [path]: the names of the
    enclosing entity, kinematic and ambient nodes, root first. *)
From Verif Require Export Mapping.

(** ** Parse trees *)

(** HypergraphBasicElements.g4: value, field_float_vector *)
Inductive cvalue := CRef (id : string) | CFloat (t : string).
Inductive cfield := FVec (v : list cvalue) | FRef (id : string).
(** GeometryElements.g4: rotation (rot_type 'd' or 'r'), rigid_transformation *)
Inductive rtype := RotD | RotR.
Record crotation := mkRot { ro_type : option rtype; ro_vec : list cvalue }.
Record crigid := mkRigid { rg_trans : list cvalue; rg_rot : option crotation }.
(** geometries (the ID of a geometry is never read) *)
Inductive gtype := GCylinder | GPolyhedron | GEllipsoid | GMesh.
Inductive cgeom := GOwn (t : gtype) (f : cfield) | GRef (id : string).
(** visual_node, collision_node *)
Inductive cpart :=
| CVisual (id : option string) (material : option string) (g : cgeom)
| CCollision (id : option string) (g : cgeom).
(** inertia_body, link *)
Record cinertia := mkInertia { in_mass : string; in_vec : option cfield }.
Record clink := mkLink { lk_root : bool; lk_name : string; lk_pose : option crigid; lk_body : option (cinertia * list cpart) }.
(** joint_relation, joint *)
Record crel := mkCrel { jr_type : string; jr_dir : string; jr_ref : string; jr_rigid : option crigid; jr_axis : option (list cvalue) }.
Record cjoint := mkJoint { jt_name : string; jt_rels : list crel }.
(** kinematicnode_body; KiOther: geometrictemplate, geometricoperation *)
Inductive kitem := KiLink (l : clink) | KiJoint (j : cjoint) | KiKin (nm : string) (items : list kitem) | KiOther.
(** AmbientGraph.g4: ambient_graph_body; AiOther: ambience_edge, port *)
Inductive aitem := AiSensor (nm : string) | AiActuator (nm : string) | AiAmbient (nm : string) (items : list aitem)
  | AiKin (nm : string) (items : list kitem) | AiOther.
(** CogniLang.g4: entity_subset_elem; EiOther: common_subset_elem,
    template_instantiation, graphnode, graphedge *)
Inductive eitem := EiJoint (j : cjoint) | EiAmbient (nm : string) (items : list aitem) | EiKin (nm : string) (items : list kitem)
  | EiParams (ps : list (string * string)) | EiOther.
(** entity *)
Record centity := mkEntity { en_name : string; en_items : list eitem }.

(** ** The state of the visitor, cognilang_file_icon.py:21-34 *)
Record loader := mkLoader {
  ld_nodes : factory; (* __factory *)
  ld_sems : factory; (* __cognitive_element_factory *)
  ld_cache : dict string loc; (* _element_cache *)
  ld_refs : dict string loc; (* _reference_cache *)
  ld_root : option loc; (* __root_entity *)
  ld_params : loc (* __parameters *)
}.
Definition set_cache (c : dict string loc) (d : loader) : loader := mkLoader (ld_nodes d) (ld_sems d) c (ld_refs d) (ld_root d) (ld_params d).
Definition set_refs (r : dict string loc) (d : loader) : loader := mkLoader (ld_nodes d) (ld_sems d) (ld_cache d) r (ld_root d) (ld_params d).
Definition set_root (x : option loc) (d : loader) : loader := mkLoader (ld_nodes d) (ld_sems d) (ld_cache d) (ld_refs d) x (ld_params d).

(** __init__, 21-34 *)
Definition new_loader (icon : string) (c : clockid) : M loader :=
  let f := mkFactory ("factory_" +:+ icon) c in
  let! w := generate_node f "world" None in
  let! ps := generate_node f "parameters" None in
  ret (mkLoader f (mkFactory ("cogni_" +:+ icon) c) [("world", w)] [] None ps).

(** [self._element_cache[x.qualified_name] = x] *)
Definition cache_element (x : loc) (d : loader) : M loader :=
  let! o := deref x in ret (set_cache (dset (o_qname o) x (ld_cache d)) d).
(** [self._element_cache[name]] *)
Definition cached (names : list string) (d : loader) : M loc := of_opt KeyError (dget (join "/" names) (ld_cache d)).

(** Run over the children of a context: [visitChildren] *)
Definition fold_m {A B} (f : A -> B -> M B) : list A -> B -> M B :=
  fix go l d := match l with
                | [] => ret d
                | x :: l' => let! d' := f x d in go l' d'
                end.
Definition lift {A} (r : res A) : M A := match r with Ok a => ret a | Exn e => raise e end.
Definition rseq {A B} (m : res A) (k : A -> res B) : res B := match m with Ok a => k a | Exn e => Exn e end.

Section loader.
  Context (fl : string -> option Qc) (rad : Qc).

  (** ** Numbers *)

  (** [float(v)] *)
  Definition py_float (v : pyval) : res Qc :=
    match v with
    | PNum q => Ok q
    | PStr t => match fl t with Some q => Ok q | None => Exn ValueError end
    | _ => Exn TypeError
    end.
  Fixpoint floats (vs : list pyval) : res (list Qc) :=
    match vs with
    | [] => Ok []
    | v :: vs' => rseq (py_float v) (fun q => rseq (floats vs') (fun qs => Ok (q :: qs)))
    end.
  (** The first ValueNode with the name among the sub-elements, 151-152 *)
  Definition find_value (h : list obj) (p : loc) (nm : string) : option obj :=
    head (List.filter (fun o => k_value (o_kind o) && bool_decide (o_name o = nm))
           (omap (fun c => h !! c) (match h !! p with Some o => dvals (o_subs o) | None => [] end))).
  (** __extract_float_vector_values, 147-156: a StopIteration of [next] leaves the
      generator as RuntimeError *)
  Fixpoint vector_values (h : list obj) (ps : loc) (vs : list cvalue) : res (list Qc) :=
    match vs with
    | [] => Ok []
    | v :: vs' =>
        rseq (match v with
              | CRef id => match find_value h ps id with Some o => floats (o_vals o) | None => Exn RuntimeError end
              | CFloat t => match fl t with Some q => Ok [q] | None => Exn ValueError end
              end) (fun l => rseq (vector_values h ps vs') (fun l' => Ok (l ++ l')))
    end.
  (** __extract_vector_field_values, 144-145: None has no method [value] *)
  Definition field_values (h : list obj) (ps : loc) (f : cfield) : res (list Qc) :=
    match f with FVec v => vector_values h ps v | FRef _ => Exn AttributeError end.
  Definition nums (l : list Qc) : pyval := PList (map PNum l).

  (** ** Rigid transformations *)

  (** __extract_rigid_transformation, 197-210: translation, rotation, type *)
  Definition rigid_values (h : list obj) (ps : loc) (r : crigid) : res (list Qc * list Qc * string) :=
    rseq (vector_values h ps (rg_trans r)) (fun t =>
      match rg_rot r with
      | Some ro =>
          rseq (vector_values h ps (ro_vec ro)) (fun q =>
            Ok (t, q, match ro_type ro with None => "rad" | Some RotR => "r" | Some RotD => "deg" end))
      | None => Ok (t, [0%Qc; 0%Qc; 0%Qc], "deg")
      end).
  (** __extract_rigid_transformation_element, 212-225 *)
  Definition rigid_element (el : loc) (r : crigid) (d : loader) : M (loc * list Qc * list Qc * loader) :=
    let! s := get_st in
    let! v := lift (rigid_values (heap s) (ld_params d) r) in
    let '(t, q, ty) := v in
    let! o := deref el in
    let! sv := generate_semantic_element (ld_sems d) "rigidtransformation" (join "_" [o_name o; "transformation"]) el
                 [("translation", nums t); ("rotation", nums q); ("rotation_type", PStr ty)] None in
    let q' := if decide (ty = "deg") then map (fun x => (x * rad)%Qc) q else q in
    let! d' := cache_element sv d in
    ret (sv, t, q', d').

  (** ** Geometries *)

  (** The type names, 166-177 *)
  Definition geometry_type (t : gtype) : string :=
    match t with GCylinder => "cylindergeometry" | GPolyhedron => "polyhedrongeometry" | GEllipsoid => "ellipsoidgeometry" | GMesh => "meshgeometry" end.
  (** __search_for_reference with __lookup_name, 97-113, 124-131: as many names as the
      reference has are dropped from the inside *)
  Definition inferred_name (names : list string) (ref : string) : string :=
    let tags := split_on slash ref in join "/" (take (length names - length tags) names ++ tags).
  (** __add_reference, 133-142 *)
  Definition add_reference (names : list string) (cont : loc) (ref : string) (d : loader) : M loader :=
    let! pg := cached (removelast (removelast names)) d in
    let inferred := inferred_name names ref in
    let! x := of_opt TypeError (dget inferred (ld_cache d)) in
    match dget inferred (ld_refs d) with
    | Some _ => ret d
    | None =>
        let! oc := deref cont in
        let! e := create_hyperedge (ld_nodes d) pg ("ref_" +:+ o_name oc +:+ "_" +:+ ref) in
        unary_connect e x WNone OUTWARDS None ;;
        unary_connect e cont WNone INWARDS None ;;
        ret (set_refs (dset inferred e (ld_refs d)) d)
    end.
  (** __collect_geometries, 158-184 *)
  Definition collect_geometries (names : list string) (cont : loc) (g : cgeom) (d : loader) : M loader :=
    let! oc := deref cont in
    let nm := join "_" ["geom"; o_name oc] in
    let! el := generate_node (ld_nodes d) nm (Some cont) in
    let! d' := match g with
               | GRef ref => add_reference names el ref d
               | GOwn t f =>
                   let! s := get_st in
                   let! vs := lift (field_values (heap s) (ld_params d) f) in
                   let! sv := generate_semantic_element (ld_sems d) (geometry_type t) nm el [("name", PStr nm)] (Some (nums vs)) in
                   cache_element sv d
               end in
    cache_element el d'.
  (** __collect_materials, 186-195 *)
  Definition collect_materials (m : option string) (cont : loc) (d : loader) : M loader :=
    let! oc := deref cont in
    let nm := "material_" +:+ o_name oc in
    let! sv := generate_semantic_element (ld_sems d) "material" nm cont [("name", PStr nm); ("material_name", PStr (default "white" m))] None in
    cache_element sv d.

  (** visitVisual_node 265-274, visitCollision_node 276-287; [path] ends with the link.
      [str(ctx.ID())] of a missing ID is "None". *)
  Definition own_name (id : option string) : string := default "None" id.
  Definition visit_part (path : list string) (p : cpart) (d : loader) : M loader :=
    let! cont := cached path d in
    match p with
    | CVisual id m g =>
        let! el := generate_node (ld_nodes d) (own_name id) (Some cont) in
        let! d1 := cache_element el d in
        let! d2 := collect_geometries (path ++ [own_name id]) el g d1 in
        collect_materials m el d2
    | CCollision id g =>
        let nm := match id with None => join "/" [join "/" path; "coll"] | Some i => i end in
        let! el := generate_node (ld_nodes d) nm (Some cont) in
        let! d1 := cache_element el d in
        collect_geometries (path ++ [own_name id]) el g d1
    end.
  (** visitInertia_body, 313-321: the generator of the inertia vector is never run *)
  Definition visit_inertia (path : list string) (i : cinertia) (d : loader) : M unit :=
    let! cont := cached path d in
    let! q := lift (py_float (PStr (in_mass i))) in
    generate_semantic_element (ld_sems d) "inertiaelement" ("inertia_" +:+ join "/" path) cont [("mass", PNum q)] None ;;
    ret tt.
  (** visitLink, 289-303 *)
  Definition visit_link (path : list string) (l : clink) (d : loader) : M loader :=
    let! parent := cached path d in
    let! el := generate_node (ld_nodes d) (lk_name l) (Some parent) in
    let! sv := generate_semantic_element (ld_sems d) "kinematiclink" (lk_name l) el [("name", PStr (lk_name l))] None in
    let! d1 := match lk_pose l with
               | None => ret d
               | Some r =>
                   let! x := rigid_element sv r d in
                   let '(tr, t, q, d') := x in
                   add_named_attribute sv "rigidtransformation" (PList [PRef tr; nums t; nums q]) ;;
                   ret d'
               end in
    let! d2 := cache_element el d1 in
    match lk_body l with
    | None => ret d2
    | Some (i, parts) =>
        visit_inertia (path ++ [lk_name l]) i d2 ;;
        fold_m (visit_part (path ++ [lk_name l])) parts d2
    end.

  (** ** Joints *)

  (** __lookup_reference, 60-67 *)
  Definition lookup_reference (parent : loc) (ref : string) (d : loader) : M loc :=
    if decide (ref = "world") then of_opt KeyError (dget "world" (ld_cache d))
    else let! l := get_element_by_id_name parent ref in of_opt IndexError (head l).
  (** generate_joint_name, kinematic_semantic_context.py:114-115 *)
  Definition joint_name (edge ref : string) : string := edge +:+ "." +:+ ref.
  (** __extract_joint_relation, 69-91 *)
  Definition joint_relation (parent : loc) (edge : string) (r : crel) (d : loader) : M (loc * direction * weight * option loc * loader) :=
    let! ep := lookup_reference parent (jr_ref r) d in
    let! dir := lift (dir_enum_relation (jr_dir r)) in
    let! sv := generate_semantic_element (ld_sems d) "kinematicjoint" (joint_name edge (jr_ref r)) parent [("joint_type", PStr (jr_type r))] None in
    match jr_axis r with
    | None => ret tt
    | Some v =>
        let! s := get_st in
        let! q := lift (vector_values (heap s) (ld_params d) v) in
        add_named_attribute sv "axis" (nums q)
    end ;;
    match jr_rigid r with
    | None => ret (ep, dir, WNone, Some sv, d)
    | Some rg =>
        let! x := rigid_element sv rg d in
        let '(_, t, q, d') := x in
        ret (ep, dir, WOther [nums t; nums q], Some sv, d')
    end.
  (** __collect_joint_relations, 93-95, as a list *)
  Fixpoint joint_relations (parent : loc) (edge : string) (rs : list crel) (d : loader) : M (list (loc * direction * weight * option loc) * loader) :=
    match rs with
    | [] => ret ([], d)
    | r :: rs' =>
        let! x := joint_relation parent edge r d in
        let! y := joint_relations parent edge rs' (snd x) in
        ret (fst x :: fst y, snd y)
    end.
  (** visitJoint, 305-311 *)
  Definition visit_joint (path : list string) (j : cjoint) (d : loader) : M loader :=
    let! parent := cached path d in
    let! x := joint_relations parent (jt_name j) (jt_rels j) d in
    connect_tuple_nodes (ld_nodes d) parent (jt_name j) (fst x) ;;
    ret (snd x).

  (** ** Nodes *)

  (** A node below the innermost enclosing one: visitAmbient 323-329, visitSensor
      331-337, visitActuator 339-345 *)
  Definition plain_node (path : list string) (nm : string) (d : loader) : M loader :=
    let! parent := cached path d in
    let! el := generate_node (ld_nodes d) nm (Some parent) in
    cache_element el d.
  (** visitKinematic, 257-263 *)
  Definition enter_kinematic (path : list string) (nm : string) (d : loader) : M loader :=
    let! parent := cached path d in
    let! el := generate_node (ld_nodes d) nm (Some parent) in
    generate_semantic_element (ld_sems d) "kinematicgraph" nm el [("name", PStr nm)] None ;;
    cache_element el d.
  Fixpoint visit_kitem (path : list string) (it : kitem) (d : loader) : M loader :=
    match it with
    | KiLink l => visit_link path l d
    | KiJoint j => visit_joint path j d
    | KiKin nm items => let! d' := enter_kinematic path nm d in fold_m (visit_kitem (path ++ [nm])) items d'
    | KiOther => ret d
    end.
  Fixpoint visit_aitem (path : list string) (it : aitem) (d : loader) : M loader :=
    match it with
    | AiSensor nm | AiActuator nm => plain_node path nm d
    | AiAmbient nm items => let! d' := plain_node path nm d in fold_m (visit_aitem (path ++ [nm])) items d'
    | AiKin nm items => visit_kitem path (KiKin nm items) d
    | AiOther => ret d
    end.
  (** visitParameter, 235-238 *)
  Definition visit_parameter (path : list string) (x : string * string) (d : loader) : M loader :=
    let! c := cached path d in
    (if decide (Some c = ld_root d) then let! _ := create_value (ld_nodes d) (Some (ld_params d)) (fst x) (Some [PStr (snd x)]) in ret tt else ret tt) ;;
    ret d.
  Definition visit_eitem (path : list string) (it : eitem) (d : loader) : M loader :=
    match it with
    | EiJoint j => visit_joint path j d
    | EiAmbient nm items => visit_aitem path (AiAmbient nm items) d
    | EiKin nm items => visit_kitem path (KiKin nm items) d
    | EiParams ps => fold_m (visit_parameter path) ps d
    | EiOther => ret d
    end.
  (** visitEntity, 246-255 (visitRootnode 241-244 only passes on) *)
  Definition visit_entity (e : centity) (d : loader) : M loader :=
    let! n := generate_node (ld_nodes d) (en_name e) None in
    let d1 := set_root (Some n) d in
    generate_semantic_element (ld_sems d) "cognitiveentity" (en_name e) n [("name", PStr (en_name e))] None ;;
    let! d2 := cache_element n d1 in
    fold_m (visit_eitem [en_name e]) (en_items e) d2.

  (** A new icon visits one parse tree. *)
  Definition load (icon : string) (c : clockid) (e : centity) : M loader :=
    let! d := new_loader icon c in visit_entity e d.
End loader.
