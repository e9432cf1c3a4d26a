(** * Vocabulary for the converter *)
From Verif Require Export SpecKin SpecSdf Convert SpecCogni.

(** The links and joints directly in the kinematic graphs of the entity, and the joints
    directly in the entity, each with the parameters that are declared before its item
    and the names down to its container. *)
Definition entry (A : Type) : Type := (list (string * string) * list string * A)%type.
Definition item_links (path : list string) (env : list (string * string)) (it : eitem) : list (entry clink) :=
  match it with EiKin nm ks => flat_map (fun k => match k with KiLink l => [(env, path ++ [nm], l)] | _ => [] end) ks | _ => [] end.
Definition item_joints (path : list string) (env : list (string * string)) (it : eitem) : list (entry cjoint) :=
  match it with
  | EiJoint j => [(env, path, j)]
  | EiKin nm ks => flat_map (fun k => match k with KiJoint j => [(env, path ++ [nm], j)] | _ => [] end) ks
  | _ => []
  end.
Fixpoint along {A} (f : list (string * string) -> eitem -> list A) (env : list (string * string)) (its : list eitem) : list A :=
  match its with [] => [] | it :: its' => f env it ++ along f (env ++ item_params it) its' end.
Definition top_links (e : centity) : list (entry clink) := along (item_links [en_name e]) [] (en_items e).
Definition top_joints (e : centity) : list (entry cjoint) := along (item_joints [en_name e]) [] (en_items e).

(** ** The <link> of a description *)
Section export.
  (** [fl]: the number a text denotes; [rad]: one degree; [env]: the parameters *)
  Context (fl : string -> option Qc) (rad : Qc) (env : list (string * string)).

  (** The text of <pose>: nothing given means zeros; 'deg' rotations are converted. *)
  Definition link_text (pose : option crigid) : option (list part) :=
    match pose with
    | None => Some [PT "0.0 0.0 0.0 0.0 0.0 0.0"]
    | Some r =>
        match rigid fl env r with
        | Some (x :: y :: z :: _, a :: b :: c :: _, unit) =>
            let angle q := PNum (if decide (unit = "deg") then rad * q else q)%Qc in
            Some (pose_parts (PNum x) (PNum y) (PNum z) (angle a) (angle b) (angle c))
        | _ => None
        end
    end.
  (** How a geometry with these values is drawn (see C50, C54): [Some None]: it can be
      written but looks like nothing. *)
  Definition drawing (t : gtype) (q : list Qc) : option (option xml) :=
    match t, q with
    | GCylinder, r :: l :: _ => Some (Some (group "cylinder" [leaf "radius" [PV (PNum r)]; leaf "length" [PV (PNum l)]]))
    | GEllipsoid, [] => Some (Some (group "ellipsoid" [leaf "radii" []]))
    | GEllipsoid, [r] => Some (Some (group "sphere" [leaf "radius" [PV (PNum r)]]))
    | GEllipsoid, a :: rest => Some (Some (group "ellipsoid" [leaf "radii" (PV (PNum a) :: flat_map (fun x => [PT " "; PV (PNum x)]) rest)]))
    | GPolyhedron, [a] => Some (Some (group "box" [leaf "size" [PV (PNum a); PT " "; PV (PNum a); PT " "; PV (PNum a)]]))
    | GPolyhedron, [a; b] => Some (Some (group "box" [leaf "size" []]))
    | GPolyhedron, [a; b; c] => Some (Some (group "box" [leaf "size" [PV (PNum a); PT " "; PV (PNum b); PT " "; PV (PNum c)]]))
    | GPolyhedron, _ => Some None
    | _, _ => None
    end.
  (** The <geometry> elements of a part's own geometry; one given by reference has none. *)
  Definition own_geometries (g : cgeom) : option (list xml) :=
    match g with
    | GRef _ => Some []
    | GOwn t (FVec v) =>
        match numbers fl env v with
        | Some q => match drawing t q with Some o => Some [group "geometry" (match o with Some x => [x] | None => [] end)] | None => None end
        | None => None
        end
    | GOwn _ (FRef _) => None
    end.
  (** A <visual> or <collision>; geometries that the node refers to may follow its own. *)
  Definition is_visual (p : cpart) : bool := match p with CVisual _ _ _ => true | _ => false end.
  Definition part_xml (path : list string) (p : cpart) (x : xml) : Prop :=
    exists own more, own_geometries (part_geometry p) = Some own /\ Forall (fun y => exists z, y = group "geometry" [z]) more /\
      x = Xml (if is_visual p then "visual" else "collision") [("name", "geom_" +:+ part_name path p)] []
            (own ++ more ++ match p with CVisual _ m _ => [material_xml (default "white" m)] | _ => [] end).
  (** The moments of inertia come from the first part with an own geometry; the moments
      of a cylinder are those of the cylinder with its radius and its length exchanged
      (see C51). *)
  Fixpoint moments (m : Qc) (ps : list cpart) : option (list Qc) :=
    match ps with
    | [] => Some unit_moments
    | p :: ps' =>
        match part_geometry p with
        | GRef _ => moments m ps'
        | GOwn _ (FRef _) => None
        | GOwn t (FVec v) =>
            match t, numbers fl env v with
            | GCylinder, Some (radius :: len :: _) => Some (cylinder_moments m len radius)
            | GEllipsoid, Some [radius] => Some (sphere_moments m radius)
            | GPolyhedron, Some _ => Some unit_moments
            | _, _ => None
            end
        end
    end.
  Definition body_xml (l : clink) (is : list xml) : Prop :=
    match lk_body l with
    | None => is = []
    | Some (i, ps) => exists m mo, fl (in_mass i) = Some m /\ moments m ps = Some mo /\ is = [inertial_xml [(m, mo)]]
    end.
  Definition visuals (l : clink) : list cpart := List.filter is_visual (link_parts l).
  Definition collisions (l : clink) : list cpart := List.filter (fun p => negb (is_visual p)) (link_parts l).
End export.
(** The <link> of a link: its name, its pose (relative to some frame), then at most one
    <visual>, the <collision>s and the <inertial>. *)
Definition exported_link (fl : string -> option Qc) (rad : Qc) (e : entry clink) (x : xml) : Prop :=
  let '(env, path, l) := e in
  exists frame txt vs cs is,
    x = Xml "link" [("name", lk_name l)] [] (Xml "pose" frame txt [] :: vs ++ cs ++ is) /\
    (frame = [] \/ exists f, frame = [("relative_to", f)]) /\ link_text fl rad env (lk_pose l) = Some txt /\
    length (visuals l) <= 1 /\ Forall2 (part_xml fl env (path ++ [lk_name l])) (visuals l) vs /\
    Forall2 (part_xml fl env (path ++ [lk_name l])) (collisions l) cs /\ body_xml fl env l is.

(** ** The <joint>s of a description *)

(** A joint connects each of its incoming or undirected references to each of its
    outgoing ones. *)
Definition incoming (r : crel) : bool := bool_decide (jr_dir r = "<-") || bool_decide (jr_dir r = "--").
Definition outgoing (r : crel) : bool := bool_decide (jr_dir r = "->").
Definition connection : Type := (entry cjoint * crel * crel)%type.
Definition joint_connections (x : entry cjoint) : list connection :=
  flat_map (fun r0 => map (fun r1 => (x, r0, r1)) (List.filter outgoing (jt_rels x.2))) (List.filter incoming (jt_rels x.2)).
Definition connections (e : centity) : list connection := flat_map joint_connections (top_joints e).

(** The axis: z if none is described. *)
Definition axis_numbers (fl : string -> option Qc) (env : list (string * string)) (a : option (list cvalue)) : option (Qc * Qc * Qc) :=
  match a with
  | None => Some (0, 0, 1)%Qc
  | Some v => match numbers fl env v with Some (x :: y :: z :: _) => Some (x, y, z) | _ => None end
  end.
(** A <joint> between named elements: type, axis and pose are those of the outgoing
    reference; the pose is relative to the parent. *)
Definition joint_element (fl : string -> option Qc) (rad : Qc) (env : list (string * string)) (r1 : crel) (name parent child : string) (x : xml) : Prop :=
  exists a b c poses, axis_numbers fl env (jr_axis r1) = Some (a, b, c) /\
    match jr_rigid r1 with
    | None => poses = []
    | Some _ => exists txt, link_text fl rad env (jr_rigid r1) = Some txt /\ poses = [Xml "pose" [("relative_to", parent)] txt []]
    end /\
    x = Xml "joint" [("name", name); ("type", if decide (jr_type r1 = "rev") then "revolute" else "fixed")] []
          ([leaf "parent" [PT parent]; leaf "child" [PT child]; group "axis" [leaf "xyz" [PV (PNum a); PT " "; PV (PNum b); PT " "; PV (PNum c)]]] ++ poses).
(** What is written for a connection, [y0] and [y1] being the elements that it names.
    If [y1] is no kinematic graph: one <joint> to it.  Otherwise a <joint> to a link of
    the graph, followed by what the graph contains (see C63). *)
Definition exported_connection (fl : string -> option Qc) (rad : Qc) (h : list obj) (k : connection) (block : list xml) : Prop :=
  let '((env, path, j), r0, r1) := k in
  exists y0 y1, full_name h y0 (endpoint_name path (jr_ref r0)) /\ full_name h y1 (endpoint_name path (jr_ref r1)) /\
  ((parts h SKinematicGraph y1 = [] /\
      exists x, block = [x] /\ joint_element fl rad env r1 (jt_name j +:+ "." +:+ jr_ref r1) (name_of h y0) (name_of h y1) x) \/
   (parts h SKinematicGraph y1 <> [] /\
      exists l x nested, kind_of h l = Some (KSem SKinematicLink) /\ rtc (fun a b => parent_of h a = Some b) l y1 /\ block = x :: nested /\
        joint_element fl rad env r1 (jt_name j +:+ ".connect." +:+ name_of h l) (name_of h y0) (jt_name j +:+ "." +:+ name_of h l) x)).
