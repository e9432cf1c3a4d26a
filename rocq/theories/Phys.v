(** * Export of links, joints, geometries and inertia to SDF

    framework_python/rei/format/phys/inertia_context.py,
    framework_python/rei/format/phys/solid_geometry_context.py,
    framework_python/rei/format/phys/kinematics/kinematic_semantic_context.py

    None of these functions changes the graph, so they are functions of the heap.
    An lxml element is a tag, attributes, text and children; [str(v)] of a value is
    kept as the value ([PV]).  A generator consumed by [for x in ...: el.append(x)]
    is a list: an exception abandons the element under construction.  Elements as
    'values' ([PRef]) are taken as not subscriptable (simplification: a ValueNode
    is).  Numbers are exact. *)
From Verif Require Export Mapping.

Definition rbind {A B} (m : res A) (k : A -> res B) : res B :=
  match m with Ok a => k a | Exn e => Exn e end.
Notation "'let?' x := m 'in' k" := (rbind m (fun x => k)) (at level 200, x name, m at level 100, k at level 200).
Definition r_opt {A} (e : exn) (x : option A) : res A := match x with Some a => Ok a | None => Exn e end.
(** [[f x for x in l]] *)
Fixpoint r_map {A B} (f : A -> res B) (l : list A) : res (list B) :=
  match l with
  | [] => Ok []
  | x :: l' => let? y := f x in let? ys := r_map f l' in Ok (y :: ys)
  end.

(** Pieces of a text: literal, or [str(v)]. *)
Inductive part := PT (t : string) | PV (v : pyval).
Inductive xml := Xml (tag : string) (attrs : list (string * string)) (text : list part) (kids : list xml).
(** [etree.Element(tag)] with a text and children appended *)
Definition leaf (tag : string) (t : list part) : xml := Xml tag [] t [].
Definition group (tag : string) (kids : list xml) : xml := Xml tag [] [] kids.

(** [v[i]] for an index [i >= 0]; [len(v)] *)
Definition py_sub (v : pyval) (i : nat) : res pyval :=
  match v with
  | PList l => r_opt IndexError (l !! i)
  | PStr t => match String.get i t with Some a => Ok (PStr (String a "")) | None => Exn IndexError end
  | _ => Exn TypeError
  end.
Definition py_len (v : pyval) : res nat :=
  match v with
  | PList l => Ok (length l)
  | PStr t => Ok (String.length t)
  | _ => Exn TypeError
  end.
(** [[x for x in v]] *)
Definition py_list (v : pyval) : res (list pyval) :=
  match v with
  | PList l => Ok l
  | PStr t => Ok (map (fun a => PStr (String a "")) (String.list_ascii_of_string t))
  | _ => Exn TypeError
  end.
(** operand of an arithmetic operation *)
Definition py_num (v : pyval) : res Qc := match v with PNum q => Ok q | _ => Exn TypeError end.

(** [case 'text':] of a match statement *)
Definition is_text (t : string) (v : pyval) : bool := match v with PStr t' => bool_decide (t' = t) | _ => false end.

(** isinstance tests *)
Definition k_sem_is (c : sclass) (k : kind) : bool := match k with KSem c' => bool_decide (c' = c) | _ => false end.
Definition k_geometry (k : kind) : bool :=
  match k with KSem (SCylinderGeometry | SEllipsoidGeometry | SPolyhedronGeometry) => true | _ => false end.

Section phys.
  Context (h : list obj).

  (** [list(x.get_subelements(lambda e: isinstance(e, ...)))], conceptual_item.py:83-84 *)
  Definition subs_of (f : kind -> bool) (x : loc) : list loc :=
    List.filter (fun c => match h !! c with Some o => f (o_kind o) | None => false end) (match h !! x with Some o => map snd (o_subs o) | None => [] end).
  (** SemanticValueNode.__getitem__, value_node.py:71-74 *)
  Definition sattr (x : loc) (k : string) : pyval :=
    match h !! x with Some o => default PNone (dget k (o_attr o)) | None => PNone end.
  (** [x.parent], [x.id_name], [x.endpoint] of an existing element *)
  Definition pparent (x : loc) : option loc := match h !! x with Some o => o_parent o | None => None end.
  Definition pname (x : loc) : string := match h !! x with Some o => o_name o | None => "" end.
  Definition pkind (x : loc) : kind := match h !! x with Some o => o_kind o | None => KItem end.
  (** only ports and relations have an endpoint *)
  Definition pendpoint (x : loc) : res loc :=
    match h !! x with
    | Some o => match o_kind o with KRel | KPort => r_opt AttributeError (o_endpoint o) | _ => Exn AttributeError end
    | None => Exn BadRef
    end.

  (** ** inertia_context.py *)

  (** calc_cylinder_inertia, inertia_context.py:58-63 *)
  Definition calc_cylinder_inertia (mass : pyval) (geom : loc) : res (list pyval) :=
    let? l := py_sub (sattr geom "values") 0 in
    let? r := py_sub (sattr geom "values") 1 in
    let? m := py_num mass in
    let? r := py_num r in
    let? l := py_num l in
    let ixy := (Q2Qc (QArith_base.Qmake 1 12) * m * (Q2Qc (QArith_base.Qmake 3 1) * r * r + l * l))%Qc in
    let izz := (Q2Qc (QArith_base.Qmake 1 2) * m * r * r)%Qc in
    Ok [PNum ixy; PNum ixy; PNum izz; PNum 0%Qc; PNum 0%Qc; PNum 0%Qc].

  (** calc_ellipsoid_inertia, inertia_context.py:65-69; None without a return *)
  Definition calc_ellipsoid_inertia (mass : pyval) (geom : loc) : res (option (list pyval)) :=
    let? n := py_len (sattr geom "values") in
    if n =? 1 then
      let? r := py_sub (sattr geom "values") 0 in
      let? m := py_num mass in
      let? r := py_num r in
      let ixyz := (Q2Qc (QArith_base.Qmake 2 5) * m * r * r)%Qc in
      Ok (Some [PNum ixyz; PNum ixyz; PNum ixyz; PNum 0%Qc; PNum 0%Qc; PNum 0%Qc])
    else Ok None.

  (** The search for the geometries, inertia_context.py:10-16 *)
  Fixpoint inertia_geometries (els : list loc) : list loc :=
    match els with
    | [] => []
    | e :: els' =>
        match subs_of k_node e with
        | [] => inertia_geometries els'
        | g :: _ =>
            match subs_of k_geometry g with
            | [] => inertia_geometries els'
            | gs => gs
            end
        end
    end.

  (** The loop over the geometries, inertia_context.py:25-32.  The initial list is
      [1.0, 1.0, 1.0, 0.0, 0.0, 0.0]; [None]: the result of calc_ellipsoid_inertia. *)
  Definition default_inertia : list pyval := [PNum 1%Qc; PNum 1%Qc; PNum 1%Qc; PNum 0%Qc; PNum 0%Qc; PNum 0%Qc].
  Fixpoint inertia_values (m : pyval) (gs : list loc) (cur : option (list pyval)) : res (option (list pyval)) :=
    match gs with
    | [] => Ok cur
    | g :: gs' =>
        let? cur' := (match pkind g with
                      | KSem SCylinderGeometry => let? l := calc_cylinder_inertia m g in Ok (Some l)
                      | KSem SEllipsoidGeometry => calc_ellipsoid_inertia m g
                      | _ => Ok cur
                      end) in
        inertia_values m gs' cur'
    end.

  (** One inertia element, inertia_context.py:19-54 *)
  Definition encode_one_inertia (gs : list loc) (iner : loc) : res (list xml) :=
    let m := sattr iner "mass" in
    let? vs := inertia_values m gs (Some default_inertia) in
    match vs with
    | None => Exn TypeError
    | Some vs =>
        let? texts := r_map (fun i => r_opt IndexError (vs !! i)) [0; 1; 2; 3; 4; 5] in
        Ok [ leaf "mass" [PV m];
             group "inertia" (zip_with (fun t v => leaf t [PV v]) ["ixx"; "iyy"; "izz"; "ixy"; "ixz"; "iyz"] texts) ]
    end.

  (** encode_inertia_element, inertia_context.py:8-55: yields nothing or one element *)
  Definition encode_inertia_element (element : loc) : res (list xml) :=
    let? p := r_opt AttributeError (pparent element) in
    let inertlist := subs_of (k_sem_is SInertiaElement) p in
    let gs := inertia_geometries (subs_of k_node p) in
    match inertlist with
    | [] => Ok []
    | _ => let? xs := r_map (encode_one_inertia gs) inertlist in Ok [group "inertial" (concat xs)]
    end.

  (** ** solid_geometry_context.py *)

  (** encode_typegeometry_element, solid_geometry_context.py:8-41 *)
  Definition encode_typegeometry_element (e : loc) : res (option xml) :=
    let v := sattr e "values" in
    match pkind e with
    | KSem SCylinderGeometry =>
        let? r := py_sub v 0 in
        let? l := py_sub v 1 in
        Ok (Some (group "cylinder" [leaf "radius" [PV r]; leaf "length" [PV l]]))
    | KSem SEllipsoidGeometry =>
        let? n := py_len v in
        if n =? 1 then
          let? r := py_sub v 0 in
          Ok (Some (group "sphere" [leaf "radius" [PV r]]))
        else
          let? xs := py_list v in
          Ok (Some (group "ellipsoid" [leaf "radii" (tail (concat (map (fun x => [PT " "; PV x]) xs)))]))
    | KSem SPolyhedronGeometry =>
        let? n := py_len v in
        if (1 <=? n) && (n <=? 3) then
          if n =? 1 then
            let? x := py_sub v 0 in
            Ok (Some (group "box" [leaf "size" [PV x; PT " "; PV x; PT " "; PV x]]))
          else if n =? 3 then
            let? x := py_sub v 0 in
            let? y := py_sub v 1 in
            let? z := py_sub v 2 in
            Ok (Some (group "box" [leaf "size" [PV x; PT " "; PV y; PT " "; PV z]]))
          else Ok (Some (group "box" [leaf "size" []]))
        else Ok None
    | _ => Ok None
    end.

  (** own geometries, solid_geometry_context.py:45-50 *)
  Definition own_geometry (e : loc) : res xml :=
    let? g := encode_typegeometry_element e in
    Ok (group "geometry" (match g with Some x => [x] | None => [] end)).
  (** referenced geometries, 51-59: [append(None)] raises TypeError *)
  Definition ref_geometry (e : loc) : res xml :=
    let? g := encode_typegeometry_element e in
    match g with Some x => Ok (group "geometry" [x]) | None => Exn TypeError end.
  (** HypergraphEdge.get_outgoing_relations / get_incoming_relations, base_elements.py:165-173 *)
  Definition out_rels (e : loc) : res (list loc) :=
    match pkind e with
    | KEdge => Ok (List.filter (fun c => match h !! c with Some o => k_rel (o_kind o) && d_out (o_dir o) | None => false end)
                 (match h !! e with Some o => map snd (o_subs o) | None => [] end))
    | _ => Exn AttributeError
    end.
  Definition in_rels (e : loc) : res (list loc) :=
    match pkind e with
    | KEdge => Ok (List.filter (fun c => match h !! c with Some o => k_rel (o_kind o) && d_in (o_dir o) | None => false end)
                 (match h !! e with Some o => map snd (o_subs o) | None => [] end))
    | _ => Exn AttributeError
    end.
  Definition port_geometries (p : loc) : res (list xml) :=
    let? r := pendpoint p in
    let? e := r_opt AttributeError (pparent r) in
    let? rs := out_rels e in
    let? xs := r_map (fun x =>
        let? n := pendpoint x in
        r_map ref_geometry (flat_map (subs_of k_geometry) (subs_of k_node n))) rs in
    Ok (concat xs).
  (** extract_geometry_element, solid_geometry_context.py:44-60 *)
  Definition extract_geometry_element (element : loc) : res (list xml) :=
    let? own := r_map own_geometry (subs_of k_geometry element) in
    let? refs := r_map port_geometries (subs_of k_port element) in
    Ok (own ++ concat refs).

  (** name attribute, solid_geometry_context.py:65-68, 88-91 *)
  Definition prefixed (prefix : string) (x : loc) : string :=
    if decide (prefix = "") then pname x else prefix +:+ "." +:+ pname x.
  (** [t.capitalize()] on ASCII text *)
  Definition upper_ascii (a : ascii) : ascii :=
    let n := nat_of_ascii a in if (97 <=? n) && (n <=? 122) then ascii_of_nat (n - 32) else a.
  Definition capitalize (t : string) : string :=
    match t with EmptyString => "" | String a t' => String (upper_ascii a) (lower t') end.

  (** encode_visual_elements, solid_geometry_context.py:63-83 *)
  Definition encode_visual_elements (element material : loc) (prefix : string) : res xml :=
    let? gs := extract_geometry_element element in
    match sattr material "material_name" with
    | PStr t =>
        Ok (Xml "visual" [("name", prefixed prefix element)] [] (gs ++
           [group "material" [group "script" [leaf "uri" [PT "file://media/materials/scripts/gazebo.material"];
              leaf "name" [PT ("Gazebo/" +:+ capitalize t)]]]]))
    | _ => Exn AttributeError
    end.
  (** encode_collision_elements, solid_geometry_context.py:86-94 *)
  Definition encode_collision_elements (element : loc) (prefix : string) : res xml :=
    let? gs := extract_geometry_element element in
    Ok (Xml "collision" [("name", prefixed prefix element)] [] gs).

  (** The loop over the sub-nodes, solid_geometry_context.py:103-110; the material
      dictionary is replaced, not extended (line 108). *)
  Fixpoint sort_geometries (ns : list loc) (coll vis : list loc) (mats : list (loc * loc)) :
      list loc * list loc * list (loc * loc) :=
    match ns with
    | [] => (coll, vis, mats)
    | n :: ns' =>
        let gs := subs_of k_node n in
        match subs_of (k_sem_is SVisualMaterial) n with
        | m :: _ => sort_geometries ns' coll (vis ++ gs) (fold_left (fun d g => dset g m d) gs [])
        | [] => sort_geometries ns' (coll ++ gs) vis mats
        end
    end.
  (** encode_geometry_element, solid_geometry_context.py:97-117 *)
  Definition encode_geometry_element (cont : loc) (prefix : string) : res (list xml) :=
    let '(coll, vis, mats) := sort_geometries (subs_of k_node cont) [] [] [] in
    let? vs := r_map (fun v => let? m := r_opt KeyError (dget v mats) in encode_visual_elements v m prefix) vis in
    let? cs := r_map (fun c => encode_collision_elements c prefix) coll in
    Ok (vs ++ cs).

  (** ** kinematic_semantic_context.py *)

  (** get_parent_kinematic_graph, 33-44: (definition, element) or None, None *)
  Fixpoint kin_graph_up (fuel : nat) (node : loc) : res (option (loc * loc)) :=
    match fuel with
    | 0 => Exn Diverges
    | S fuel' =>
        match h !! node with
        | None => Exn BadRef
        | Some o =>
            match subs_of (k_sem_is SKinematicGraph) node with
            | d :: _ => Ok (Some (d, node))
            | [] => match o_parent o with Some q => kin_graph_up fuel' q | None => Ok None end
            end
        end
    end.
  Definition get_parent_kinematic_graph (node : loc) : res (option (loc * loc)) :=
    kin_graph_up (S (length h)) node.

  (** join_w_prefix_separator with the separator '.', test/common/common_util.py *)
  Definition join_prefix (l : list string) (prefix : string) : string :=
    if decide (prefix = "") then join "." l else join "." (prefix :: l).

  (** __obtain_relative_frame_name, 47-69: the loop over the ports; [cur] is
      relative_frame_name, [kg] the enclosing kinematic graph. *)
  Fixpoint relative_frame (node : loc) (kg : option loc) (ports : list loc) (cur : option string) : res (option string) :=
    match ports with
    | [] => Ok cur
    | x :: ports' =>
        let? rel := pendpoint x in
        let? j := r_opt StopIteration (head (subs_of (k_sem_is SKinematicJoint) rel)) in
        match h !! rel with
        | None => Exn BadRef
        | Some orel =>
            if decide (o_kind orel = KRel) then
              if decide (o_dir orel = OUTWARDS) then
                let? e := r_opt AttributeError (o_parent orel) in
                let? ins := in_rels e in
                let? eps := r_map pendpoint ins in
                if existsb (fun n => bool_decide (pname n <> "world")) eps then Ok (Some (pname j))
                else relative_frame node kg ports' cur
              else
                let? k := r_opt AttributeError kg in
                let? q := r_opt AttributeError (pparent k) in
                let? con := get_parent_kinematic_graph q in
                relative_frame node kg ports' (match con with Some _ => Some ("connect." +:+ pname node) | None => cur end)
            else Exn AttributeError
        end
    end.
  Definition obtain_relative_frame_name (node : loc) : res (option string) :=
    let? kg := get_parent_kinematic_graph node in
    if is_hyperelement (pkind node) then relative_frame node (snd <$> kg) (subs_of k_port node) None
    else Exn AttributeError.

  (** extract_rigid_transformation_element, 16-24; [rad] is np.pi/180.0 *)
  Definition pose_text (rad : Qc) (x : loc) : res (list part) :=
    let? rot := py_list (sattr x "rotation") in
    let? rot := (if is_text "deg" (sattr x "rotation_type")
                 then r_map (fun v => let? q := py_num v in Ok (PNum (rad * q)%Qc)) rot else Ok rot) in
    let t := sattr x "translation" in
    let? x0 := py_sub t 0 in let? x1 := py_sub t 1 in let? x2 := py_sub t 2 in
    let? r0 := r_opt IndexError (rot !! 0) in let? r1 := r_opt IndexError (rot !! 1) in let? r2 := r_opt IndexError (rot !! 2) in
    Ok [PV x0; PT " "; PV x1; PT " "; PV x2; PT " "; PV r0; PT " "; PV r1; PT " "; PV r2].

  (** encode_link_element, 72-102 *)
  Definition encode_link_element (rad : Qc) (element : loc) (prefix : string) : res xml :=
    let? cont := r_opt AttributeError (pparent element) in
    let? frame := obtain_relative_frame_name cont in
    let? txt := (match subs_of (k_sem_is SRigidTransformation) element with
                 | x :: _ => pose_text rad x
                 | [] => Ok [PT "0.0 0.0 0.0 0.0 0.0 0.0"]
                 end) in
    let pose := Xml "pose" (match frame with Some f => [("relative_to", join_prefix [f] prefix)] | None => [] end) txt [] in
    let? gs := encode_geometry_element cont prefix in
    Ok (Xml "link" [("name", join_prefix [pname element] prefix)] [] (pose :: gs)).

  (** __encode_joint_type, 105-111 *)
  Definition encode_joint_type (t : pyval) : string :=
    if is_text "fix" t then "fixed" else if is_text "rev" t then "revolute" else "fixed".

  (** joint_base_element_endpoint, 127-161 *)
  Definition joint_base_element_endpoint (rad : Qc) (j0 j1 : loc) (joint_name child : string) (prefix : string) : res xml :=
    let? n0 := pendpoint j0 in
    let? jrel := r_opt IndexError (head (subs_of (k_sem_is SKinematicJoint) j1)) in
    let axis := match sattr jrel "axis" with PNone => PList [PNum 0%Qc; PNum 0%Qc; PNum 1%Qc] | a => a end in
    let? a0 := py_sub axis 0 in let? a1 := py_sub axis 1 in let? a2 := py_sub axis 2 in
    let? poses := r_map (fun x => let? t := pose_text rad x in
        Ok (Xml "pose" [("relative_to", join_prefix [pname n0] prefix)] t [])) (subs_of (k_sem_is SRigidTransformation) jrel) in
    Ok (Xml "joint" [("name", joint_name); ("type", encode_joint_type (sattr jrel "joint_type"))] []
         ([leaf "parent" [PT (join_prefix [pname n0] prefix)]; leaf "child" [PT (join_prefix [child] prefix)];
           group "axis" [leaf "xyz" [PV a0; PT " "; PV a1; PT " "; PV a2]]] ++ poses)).
  (** default_joint_name 118-120, joint_base_element 123-124 *)
  Definition joint_base_element (rad : Qc) (j0 j1 : loc) (prefix : string) : res xml :=
    let? jrel := r_opt IndexError (head (subs_of (k_sem_is SKinematicJoint) j1)) in
    let? n1 := pendpoint j1 in
    joint_base_element_endpoint rad j0 j1 (join_prefix [pname jrel] prefix) (pname n1) prefix.
End phys.
