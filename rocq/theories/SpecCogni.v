(** * What a CogniLang description means

    The hierarchy that a description stands for, as a tree: a function of the parse tree
    alone, without objects, caches or factories.  [view] compares it with the elements of
    a state. *)
From Verif Require Export Spec CogniLang.

(** ** Trees

    A relation is labelled with its direction, its value and the qualified name of its
    endpoint.  An attribute is a plain value, or the triple of a link: the transformation
    element below the link, the translation and the rotation. *)
Inductive aval := AIs (v : pyval) | APose (t q : list Qc).
Inductive label :=
| LNode (nm : string)
| LEdge (nm : string)
| LRel (d : direction) (w : weight) (target : string)
| LSem (c : sclass) (nm : string) (attrs : list (string * aval))
| LValue (nm : string) (vals : list pyval).
Inductive tree := T (lb : label) (sub : list tree).

(** The sub-elements other than ports. *)
Definition kids (h : list obj) (x : loc) : list loc := filter (fun c => kind_of h c <> Some KPort) (children h x).

Definition qlist (l : list Qc) : pyval := PList (map PNum l).
Definition attr_is (h : list obj) (x : loc) (a : string * pyval) (b : string * aval) : Prop :=
  fst a = fst b /\
  match snd b with
  | AIs v => snd a = v
  | APose t q => exists y, kids h x = [y] /\ snd a = PList [PRef y; qlist t; qlist q]
  end.
Definition labelled (h : list obj) (x : loc) (lb : label) : Prop :=
  exists o, h !! x = Some o /\
  match lb with
  | LNode nm => o_kind o = KNode /\ o_name o = nm
  | LEdge nm => o_kind o = KEdge /\ o_name o = nm
  | LRel d w q => o_kind o = KRel /\ o_dir o = d /\ o_weight o = w /\ o_sem o = head (kids h x) /\
      exists y, o_endpoint o = Some y /\ full_name h y q
  | LSem c nm attrs => o_kind o = KSem c /\ o_name o = nm /\ Forall2 (attr_is h x) (o_attr o) attrs
  | LValue nm vals => o_kind o = KValue /\ o_name o = nm /\ o_vals o = vals
  end.
(** The element [x] and everything below it, in order, is the tree. *)
Inductive view (h : list obj) : loc -> tree -> Prop :=
| view_tree x lb ts : labelled h x lb -> Forall2 (view h) (kids h x) ts -> view h x (T lb ts).

Definition plain (a : dict string pyval) : list (string * aval) := map (fun x => (fst x, AIs (snd x))) a.
Definition sem_leaf (c : sclass) (nm : string) (a : dict string pyval) : tree := T (LSem c nm (plain a)) [].

(** Translate one after the other; [seen]: the elements that geometries have referred to
    so far. *)
Definition thread {A} (f : list string -> A -> option (list tree * list string)) : list string -> list A -> option (list tree * list string) :=
  fix go seen l := match l with
                   | [] => Some ([], seen)
                   | x :: l' => match f seen x with
                                | Some (ts, seen1) => match go seen1 l' with
                                                      | Some (ts', seen2) => Some (ts ++ ts', seen2)
                                                      | None => None
                                                      end
                                | None => None
                                end
                   end.

(** All parameters of the description. *)
Definition item_params (it : eitem) : list (string * string) := match it with EiParams ps => ps | _ => [] end.
Definition file_params (e : centity) : list (string * string) := flat_map item_params (en_items e).

Section meaning.
  (** [fl]: the number a text denotes; [rad]: one degree; [env]: the parameters *)
  Context (fl : string -> option Qc) (rad : Qc) (env : list (string * string)).

  (** ** Numbers: a parameter means the text of its first declaration *)
  Definition number (v : cvalue) : option Qc :=
    match v with
    | CFloat t => fl t
    | CRef id => match head (filter (fun x => fst x = id) env) with Some x => fl (snd x) | None => None end
    end.
  Fixpoint numbers (vs : list cvalue) : option (list Qc) :=
    match vs with
    | [] => Some []
    | v :: vs' => match number v, numbers vs' with Some q, Some qs => Some (q :: qs) | _, _ => None end
    end.

  (** ** Rigid transformations: translation, rotation, unit of the rotation *)
  Definition rigid (r : crigid) : option (list Qc * list Qc * string) :=
    match numbers (rg_trans r) with
    | None => None
    | Some t =>
        match rg_rot r with
        | None => Some (t, [0%Qc; 0%Qc; 0%Qc], "deg")
        | Some ro =>
            match numbers (ro_vec ro) with
            | None => None
            | Some q => Some (t, q, match ro_type ro with None => "rad" | Some RotR => "r" | Some RotD => "deg" end)
            end
        end
    end.
  Definition radians (unit : string) (q : list Qc) : list Qc :=
    if decide (unit = "deg") then map (fun x => (x * rad)%Qc) q else q.
  Definition rigid_tree (owner : string) (x : list Qc * list Qc * string) : tree :=
    let '(t, q, unit) := x in
    sem_leaf SRigidTransformation (owner +:+ "_transformation") [("translation", qlist t); ("rotation", qlist q); ("rotation_type", PStr unit)].

  (** ** Links *)
  Definition geometry_class (t : gtype) : option sclass :=
    match t with GCylinder => Some SCylinderGeometry | GPolyhedron => Some SPolyhedronGeometry | GEllipsoid => Some SEllipsoidGeometry | GMesh => None end.
  Definition geometry_tree (nm : string) (g : cgeom) : option tree :=
    match g with
    | GRef _ => Some (T (LNode nm) [])
    | GOwn t (FVec v) =>
        match geometry_class t, numbers v with
        | Some c, Some q => Some (T (LNode nm) [sem_leaf c nm [("name", PStr nm); ("values", qlist q)]])
        | _, _ => None
        end
    | GOwn _ (FRef _) => None
    end.
  (** [path]: the names down to the link *)
  Definition part_name (path : list string) (p : cpart) : string :=
    match p with
    | CVisual id _ _ => default "None" id
    | CCollision (Some id) _ => id
    | CCollision None _ => join "/" path +:+ "/coll"
    end.
  Definition part_geometry (p : cpart) : cgeom := match p with CVisual _ _ g => g | CCollision _ g => g end.
  Definition part_tree (path : list string) (p : cpart) : option tree :=
    let nm := part_name path p in
    match geometry_tree ("geom_" +:+ nm) (part_geometry p) with
    | None => None
    | Some g =>
        Some (T (LNode nm) (g :: match p with
                                 | CVisual _ m _ => [sem_leaf SVisualMaterial ("material_" +:+ nm) [("name", PStr ("material_" +:+ nm)); ("material_name", PStr (default "white" m))]]
                                 | CCollision _ _ => []
                                 end))
    end.
  Fixpoint part_trees (path : list string) (ps : list cpart) : option (list tree) :=
    match ps with
    | [] => Some []
    | p :: ps' => match part_tree path p, part_trees path ps' with Some t, Some ts => Some (t :: ts) | _, _ => None end
    end.
  Definition link_head (l : clink) : option tree :=
    let nm := lk_name l in
    match lk_pose l with
    | None => Some (T (LSem SKinematicLink nm [("name", AIs (PStr nm))]) [])
    | Some r =>
        match rigid r with
        | None => None
        | Some (t, q, unit) =>
            Some (T (LSem SKinematicLink nm [("name", AIs (PStr nm)); ("rigidtransformation", APose t (radians unit q))]) [rigid_tree nm (t, q, unit)])
        end
    end.
  (** [path]: the names down to the container of the link *)
  Definition link_tree (path : list string) (l : clink) : option tree :=
    let here := path ++ [lk_name l] in
    match link_head l with
    | None => None
    | Some hd =>
        match lk_body l with
        | None => Some (T (LNode (lk_name l)) [hd])
        | Some (i, parts) =>
            match fl (in_mass i), part_trees here parts with
            | Some m, Some ts => Some (T (LNode (lk_name l)) (hd :: sem_leaf SInertiaElement ("inertia_" +:+ join "/" here) [("mass", PNum m)] :: ts))
            | _, _ => None
            end
        end
    end.

  (** A geometry that refers to [ref]: as many names as [ref] has are dropped from the
      inside of the names down to the visual or collision. *)
  Definition target (path : list string) (p : cpart) (ref : string) : string :=
    let here := path ++ [match p with CVisual id _ _ => default "None" id | CCollision id _ => default "None" id end] in
    let tags := split_on slash ref in
    join "/" (take (length here - length tags) here ++ tags).
  (** The first reference to an element gives an edge to it; the others give nothing. *)
  Definition reference_tree (path : list string) (seen : list string) (p : cpart) : option (list tree * list string) :=
    match part_geometry p with
    | GOwn _ _ => Some ([], seen)
    | GRef ref =>
        let t := target path p ref in
        let g := "geom_" +:+ part_name path p in
        if decide (t ∈ seen) then Some ([], seen)
        else Some ([T (LEdge ("ref_" +:+ g +:+ "_" +:+ ref))
                      [T (LRel OUTWARDS WNone t) []; T (LRel INWARDS WNone (join "/" (path ++ [part_name path p; g]))) []]], seen ++ [t])
    end.
  Definition link_parts (l : clink) : list cpart := match lk_body l with Some (_, ps) => ps | None => [] end.

  (** ** Joints: [path]: the names down to the container *)
  Definition endpoint_name (path : list string) (ref : string) : string := if decide (ref = "world") then "world" else join "/" (path ++ [ref]).
  Definition relation_direction (t : string) : option direction :=
    if decide (t = "<-") then Some INWARDS else if decide (t = "->") then Some OUTWARDS else if decide (t = "--") then Some BIDIRECTIONAL else None.
  Definition axis_attr (r : crel) : option (dict string pyval) :=
    match jr_axis r with
    | None => Some []
    | Some v => match numbers v with Some q => Some [("axis", qlist q)] | None => None end
    end.
  Definition relation_tree (path : list string) (joint : string) (r : crel) : option tree :=
    let nm := joint +:+ "." +:+ jr_ref r in
    match relation_direction (jr_dir r), axis_attr r with
    | Some d, Some ax =>
        let sem := LSem SKinematicJoint nm (plain (("joint_type", PStr (jr_type r)) :: ax)) in
        match jr_rigid r with
        | None => Some (T (LRel d WNone (endpoint_name path (jr_ref r))) [T sem []])
        | Some rg =>
            match rigid rg with
            | None => None
            | Some (t, q, unit) =>
                Some (T (LRel d (WOther [qlist t; qlist (radians unit q)]) (endpoint_name path (jr_ref r))) [T sem [rigid_tree nm (t, q, unit)]])
            end
        end
    | _, _ => None
    end.
  Fixpoint relation_trees (path : list string) (joint : string) (rs : list crel) : option (list tree) :=
    match rs with
    | [] => Some []
    | r :: rs' => match relation_tree path joint r, relation_trees path joint rs' with Some t, Some ts => Some (t :: ts) | _, _ => None end
    end.
  Definition joint_tree (path : list string) (j : cjoint) : option tree :=
    match relation_trees path (jt_name j) (jt_rels j) with Some ts => Some (T (LEdge (jt_name j)) ts) | None => None end.

  (** ** Nodes: [path]: the names down to the container *)
  Fixpoint kitem_trees (path : list string) (seen : list string) (it : kitem) : option (list tree * list string) :=
    match it with
    | KiLink l =>
        match link_tree path l, thread (reference_tree (path ++ [lk_name l])) seen (link_parts l) with
        | Some t, Some (es, seen') => Some (t :: es, seen')
        | _, _ => None
        end
    | KiJoint j => match joint_tree path j with Some t => Some ([t], seen) | None => None end
    | KiKin nm items =>
        match thread (kitem_trees (path ++ [nm])) seen items with
        | Some (ts, seen') => Some ([T (LNode nm) (sem_leaf SKinematicGraph nm [("name", PStr nm)] :: ts)], seen')
        | None => None
        end
    | KiOther => Some ([], seen)
    end.
  Fixpoint aitem_trees (path : list string) (seen : list string) (it : aitem) : option (list tree * list string) :=
    match it with
    | AiSensor nm | AiActuator nm => Some ([T (LNode nm) []], seen)
    | AiAmbient nm items =>
        match thread (aitem_trees (path ++ [nm])) seen items with
        | Some (ts, seen') => Some ([T (LNode nm) ts], seen')
        | None => None
        end
    | AiKin nm items => kitem_trees path seen (KiKin nm items)
    | AiOther => Some ([], seen)
    end.
  Definition eitem_trees (path : list string) (seen : list string) (it : eitem) : option (list tree * list string) :=
    match it with
    | EiJoint j => kitem_trees path seen (KiJoint j)
    | EiAmbient nm items => aitem_trees path seen (AiAmbient nm items)
    | EiKin nm items => kitem_trees path seen (KiKin nm items)
    | EiParams _ => Some ([], seen)
    | EiOther => Some ([], seen)
    end.
  Definition params_tree : tree := T (LNode "parameters") (map (fun x => T (LValue (fst x) [PStr (snd x)]) []) env).
End meaning.

(** The items of an entity: a parameter is known from its declaration on. *)
Fixpoint items_trees (fl : string -> option Qc) (rad : Qc) (path : list string) (env : list (string * string)) (seen : list string) (its : list eitem) : option (list tree * list string) :=
  match its with
  | [] => Some ([], seen)
  | it :: its' =>
      match eitem_trees fl rad env path seen it with
      | Some (ts, seen1) =>
          match items_trees fl rad path (env ++ item_params it) seen1 its' with
          | Some (ts', seen2) => Some (ts ++ ts', seen2)
          | None => None
          end
      | None => None
      end
  end.
(** The meaning of a description. *)
Definition meaning (fl : string -> option Qc) (rad : Qc) (e : centity) : option tree :=
  match items_trees fl rad [en_name e] [] [] (en_items e) with
  | Some (ts, _) => Some (T (LNode (en_name e)) (sem_leaf SCognitiveEntity (en_name e) [("name", PStr (en_name e))] :: ts))
  | None => None
  end.

(** ** What a description uses *)

Definition opt_list {A} (o : option (list A)) : list A := match o with Some l => l | None => [] end.
(** The numbers written in it, except the inertia vectors. *)
Definition rigid_numbers (r : crigid) : list cvalue := rg_trans r ++ match rg_rot r with Some ro => ro_vec ro | None => [] end.
Definition pose_numbers (r : option crigid) : list cvalue := match r with Some r => rigid_numbers r | None => [] end.
Definition part_numbers (p : cpart) : list cvalue := match part_geometry p with GOwn _ (FVec v) => v | _ => [] end.
Definition link_numbers (l : clink) : list cvalue := pose_numbers (lk_pose l) ++ flat_map part_numbers (link_parts l).
Definition joint_numbers (j : cjoint) : list cvalue := flat_map (fun r => opt_list (jr_axis r) ++ pose_numbers (jr_rigid r)) (jt_rels j).
(** All its links and joints. *)
Fixpoint kitem_links (it : kitem) : list clink := match it with KiLink l => [l] | KiKin _ its => flat_map kitem_links its | _ => [] end.
Fixpoint kitem_joints (it : kitem) : list cjoint := match it with KiJoint j => [j] | KiKin _ its => flat_map kitem_joints its | _ => [] end.
Fixpoint aitem_links (it : aitem) : list clink :=
  match it with AiAmbient _ its => flat_map aitem_links its | AiKin _ its => flat_map kitem_links its | _ => [] end.
Fixpoint aitem_joints (it : aitem) : list cjoint :=
  match it with AiAmbient _ its => flat_map aitem_joints its | AiKin _ its => flat_map kitem_joints its | _ => [] end.
Definition eitem_links (it : eitem) : list clink :=
  match it with EiAmbient _ its => flat_map aitem_links its | EiKin _ its => flat_map kitem_links its | _ => [] end.
Definition eitem_joints (it : eitem) : list cjoint :=
  match it with EiJoint j => [j] | EiAmbient _ its => flat_map aitem_joints its | EiKin _ its => flat_map kitem_joints its | _ => [] end.
Definition eitem_numbers (it : eitem) : list cvalue := flat_map link_numbers (eitem_links it) ++ flat_map joint_numbers (eitem_joints it).
(** A geometry that can be read: no mesh, no vector given by reference. *)
Definition geometry_supported (g : cgeom) : Prop := match g with GOwn GMesh _ | GOwn _ (FRef _) => False | _ => True end.

(** ** The same description without what is not read *)
Definition strip_link (l : clink) : clink :=
  mkLink false (lk_name l) (lk_pose l) (match lk_body l with Some (i, ps) => Some (mkInertia (in_mass i) None, ps) | None => None end).
Fixpoint strip_kitem (it : kitem) : list kitem :=
  match it with
  | KiLink l => [KiLink (strip_link l)]
  | KiJoint j => [KiJoint j]
  | KiKin nm its => [KiKin nm (flat_map strip_kitem its)]
  | KiOther => []
  end.
Fixpoint strip_aitem (it : aitem) : list aitem :=
  match it with
  | AiSensor nm => [AiSensor nm]
  | AiActuator nm => [AiActuator nm]
  | AiAmbient nm its => [AiAmbient nm (flat_map strip_aitem its)]
  | AiKin nm its => [AiKin nm (flat_map strip_kitem its)]
  | AiOther => []
  end.
Definition strip_eitem (it : eitem) : list eitem :=
  match it with
  | EiJoint j => [EiJoint j]
  | EiAmbient nm its => [EiAmbient nm (flat_map strip_aitem its)]
  | EiKin nm its => [EiKin nm (flat_map strip_kitem its)]
  | EiParams ps => [EiParams ps]
  | EiOther => []
  end.
Definition stripped (e : centity) : centity := mkEntity (en_name e) (flat_map strip_eitem (en_items e)).

(** ** References between geometries *)

(** The targets of all geometries given by reference, in order; [path]: the names down
    to the container. *)
Definition link_references (path : list string) (l : clink) : list string :=
  flat_map (fun p => match part_geometry p with GRef ref => [target (path ++ [lk_name l]) p ref] | GOwn _ _ => [] end) (link_parts l).
Fixpoint kitem_references (path : list string) (it : kitem) : list string :=
  match it with KiLink l => link_references path l | KiKin nm its => flat_map (kitem_references (path ++ [nm])) its | _ => [] end.
Fixpoint aitem_references (path : list string) (it : aitem) : list string :=
  match it with
  | AiAmbient nm its => flat_map (aitem_references (path ++ [nm])) its
  | AiKin nm its => flat_map (kitem_references (path ++ [nm])) its
  | _ => []
  end.
Definition eitem_references (path : list string) (it : eitem) : list string :=
  match it with
  | EiAmbient nm its => flat_map (aitem_references (path ++ [nm])) its
  | EiKin nm its => flat_map (kitem_references (path ++ [nm])) its
  | _ => []
  end.
Definition references (e : centity) : list string := flat_map (eitem_references [en_name e]) (en_items e).
(** The first occurrences. *)
Fixpoint firsts (seen l : list string) : list string :=
  match l with
  | [] => []
  | x :: l' => if decide (x ∈ seen) then firsts seen l' else x :: firsts (seen ++ [x]) l'
  end.
(** The edges that stand for a reference, and where they lead. *)
Fixpoint reference_edges (t : tree) : list string :=
  match t with
  | T (LEdge _) [T (LRel OUTWARDS WNone q) []; T (LRel INWARDS WNone _) []] => [q]
  | T _ ts => flat_map reference_edges ts
  end.
