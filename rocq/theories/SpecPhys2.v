(** * Vocabulary for the SDF export: geometries *)
From Verif Require Export SpecTensor SpecFact SpecPhys.

(** What a geometry node with a list of values looks like: nothing ([None]) for a box
    with no value or more than three, no size for a box with two. *)
Inductive shape (h : list obj) (g : loc) : option xml -> Prop :=
| sh_cylinder r l rest : kind_of h g = Some (KSem SCylinderGeometry) -> attribute h g "values" = PList (r :: l :: rest) ->
    shape h g (Some (group "cylinder" [leaf "radius" [PV r]; leaf "length" [PV l]]))
| sh_sphere r : kind_of h g = Some (KSem SEllipsoidGeometry) -> attribute h g "values" = PList [r] ->
    shape h g (Some (group "sphere" [leaf "radius" [PV r]]))
| sh_no_radii : kind_of h g = Some (KSem SEllipsoidGeometry) -> attribute h g "values" = PList [] ->
    shape h g (Some (group "ellipsoid" [leaf "radii" []]))
| sh_ellipsoid a b rest : kind_of h g = Some (KSem SEllipsoidGeometry) -> attribute h g "values" = PList (a :: b :: rest) ->
    shape h g (Some (group "ellipsoid" [leaf "radii" (PV a :: flat_map (fun x => [PT " "; PV x]) (b :: rest))]))
| sh_cube a : kind_of h g = Some (KSem SPolyhedronGeometry) -> attribute h g "values" = PList [a] ->
    shape h g (Some (group "box" [leaf "size" [PV a; PT " "; PV a; PT " "; PV a]]))
| sh_flat a b : kind_of h g = Some (KSem SPolyhedronGeometry) -> attribute h g "values" = PList [a; b] ->
    shape h g (Some (group "box" [leaf "size" []]))
| sh_box a b c : kind_of h g = Some (KSem SPolyhedronGeometry) -> attribute h g "values" = PList [a; b; c] ->
    shape h g (Some (group "box" [leaf "size" [PV a; PT " "; PV b; PT " "; PV c]]))
| sh_no_box l : kind_of h g = Some (KSem SPolyhedronGeometry) -> attribute h g "values" = PList l -> length l = 0 \/ 3 < length l ->
    shape h g None.

(** The direct sub-ports of [n]; the geometries that a port refers to: those of the
    sub-nodes of the endpoints of the outgoing relations of the edge that contains the
    port's endpoint. *)
Definition ports_of (h : list obj) (n : loc) : list loc := filter (fun y => kind_of h y = Some KPort) (children h n).
Definition outgoing_of (h : list obj) (e : loc) : list loc := filter (fun y => kind_of h y = Some KRel /\ outward h y) (children h e).
Definition incoming_of (h : list obj) (e : loc) : list loc := filter (fun y => kind_of h y = Some KRel /\ inward h y) (children h e).
Inductive refers (h : list obj) (p : loc) : list loc -> Prop :=
| refers_to r e ns : ep_of h p = Some r -> parent_of h r = Some e -> kind_of h e = Some KEdge ->
    Forall2 (fun x n => ep_of h x = Some n) (outgoing_of h e) ns ->
    refers h p (flat_map (fun n => flat_map (geometries h) (subnodes h n)) ns).

(** [drawn h n xs]: the <geometry> elements of the node [n]: first its own geometries
    (an own geometry that looks like nothing leaves an empty element), then those that
    its ports refer to. *)
Definition drawn (h : list obj) (n : loc) (xs : list xml) : Prop :=
  exists own refs shapes,
    Forall2 (shape h) (geometries h n) own /\
    Forall2 (refers h) (ports_of h n) refs /\
    Forall2 (fun g x => shape h g (Some x)) (concat refs) shapes /\
    xs = map (fun g => group "geometry" (match g with Some x => [x] | None => [] end)) own ++ map (fun x => group "geometry" [x]) shapes.

(** The name of an exported element. *)
Definition xml_name (prefix nm : string) : string := if decide (prefix = "") then nm else prefix +:+ "." +:+ nm.
(** First letter upper case, the others lower case (ASCII). *)
Definition material_xml (t : string) : xml :=
  group "material" [group "script" [leaf "uri" [PT "file://media/materials/scripts/gazebo.material"]; leaf "name" [PT ("Gazebo/" +:+ capitalize t)]]].
(** A <visual> of the geometry node [v] with the material [t]; a <collision>. *)
Definition visual_of (h : list obj) (prefix t : string) (v : loc) (x : xml) : Prop :=
  exists gs, drawn h v gs /\ x = Xml "visual" [("name", xml_name prefix (name_of h v))] [] (gs ++ [material_xml t]).
Definition collision_of (h : list obj) (prefix : string) (c : loc) (x : xml) : Prop :=
  exists gs, drawn h c gs /\ x = Xml "collision" [("name", xml_name prefix (name_of h c))] [] gs.
