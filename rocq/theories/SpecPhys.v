(** * Vocabulary for the SDF export *)
From Verif Require Export Spec Phys.
Local Open Scope Qc_scope.

(** The direct sub-elements of class [c]; the direct sub-nodes; the geometries. *)
Definition parts (h : list obj) (c : sclass) (x : loc) : list loc := filter (fun y => kind_of h y = Some (KSem c)) (children h x).
Definition subnodes (h : list obj) (x : loc) : list loc := filter (fun y => kind_of h y = Some KNode) (children h x).
Definition is_geometry (h : list obj) (y : loc) : Prop :=
  kind_of h y = Some (KSem SCylinderGeometry) \/ kind_of h y = Some (KSem SEllipsoidGeometry) \/ kind_of h y = Some (KSem SPolyhedronGeometry).
Global Instance is_geometry_dec h y : Decision (is_geometry h y).
Proof. unfold is_geometry. apply _. Defined.
Definition geometries (h : list obj) (x : loc) : list loc := filter (is_geometry h) (children h x).
(** The attribute [k] of a semantic element, None if absent. *)
Definition attribute (h : list obj) (x : loc) (k : string) : pyval := default PNone (attr_of o_attr h x ≫= dget k).

(** ** Inertia *)

(** Moments (xx, yy, zz, xy, xz, yz) of a solid cylinder along z with mass [m], radius
    [r] and length [l], and of a solid sphere. *)
Definition cylinder_moments (m r l : Qc) : list Qc :=
  let ixx := m * (Q2Qc (QArith_base.Qmake 3 1) * r * r + l * l) / Q2Qc (QArith_base.Qmake 12 1) in
  [ixx; ixx; m * r * r / Q2Qc (QArith_base.Qmake 2 1); 0; 0; 0].
Definition sphere_moments (m r : Qc) : list Qc :=
  let i := Q2Qc (QArith_base.Qmake 2 1) * m * r * r / Q2Qc (QArith_base.Qmake 5 1) in [i; i; i; 0; 0; 0].

(** [gives h m g prev out]: what the geometry node [g] makes of the moments [prev].  A
    cylinder has the radius and the length that are written into its geometry. *)
Definition cylinder_values (h : list obj) (g : loc) (radius len : Qc) : Prop :=
  kind_of h g = Some (KSem SCylinderGeometry) /\ exists rest, attribute h g "values" = PList (PNum radius :: PNum len :: rest).
Definition sphere_values (h : list obj) (g : loc) (radius : Qc) : Prop :=
  kind_of h g = Some (KSem SEllipsoidGeometry) /\ attribute h g "values" = PList [PNum radius].
Inductive gives (h : list obj) (m : Qc) (g : loc) (prev : list Qc) : list Qc -> Prop :=
| gv_cylinder radius len : cylinder_values h g radius len -> gives h m g prev (cylinder_moments m len radius)
| gv_sphere radius : sphere_values h g radius -> gives h m g prev (sphere_moments m radius)
| gv_box : kind_of h g = Some (KSem SPolyhedronGeometry) -> gives h m g prev prev.
Inductive gives_all (h : list obj) (m : Qc) : list loc -> list Qc -> list Qc -> Prop :=
| ga_nil v : gives_all h m [] v v
| ga_cons g gs v v1 v2 : gives h m g v v1 -> gives_all h m gs v1 v2 -> gives_all h m (g :: gs) v v2.
Definition unit_moments : list Qc := [1; 1; 1; 0; 0; 0].

(** The geometries that the inertia is computed from: those of the first sub-node of
    the first sub-node of [p] for which there are any. *)
Inductive inertia_from (h : list obj) : list loc -> list loc -> Prop :=
| if_none : inertia_from h [] []
| if_first n ns g gs : head (subnodes h n) = Some g -> geometries h g <> [] -> gs = geometries h g -> inertia_from h (n :: ns) gs
| if_next n ns gs : (forall g, head (subnodes h n) = Some g -> geometries h g = []) -> inertia_from h ns gs -> inertia_from h (n :: ns) gs.

(** <inertial> with the given masses and moments *)
Definition inertia_xml (moments : list Qc) : xml :=
  group "inertia" (zip_with (fun t v => leaf t [PV (PNum v)]) ["ixx"; "iyy"; "izz"; "ixy"; "ixz"; "iyz"] moments).
Definition inertial_xml (l : list (Qc * list Qc)) : xml :=
  group "inertial" (concat (map (fun x => [leaf "mass" [PV (PNum x.1)]; inertia_xml x.2]) l)).

(** ** Kinematic graphs *)

(** [x] is the first element of the path [ls] that contains a definition. *)
Definition first_graph (h : list obj) (ls : list loc) (d x : loc) : Prop :=
  exists below above, ls = below ++ x :: above /\ head (parts h SKinematicGraph x) = Some d /\
    forall y, y ∈ below -> parts h SKinematicGraph y = [].

(** ** Visual nodes: sub-nodes with a material *)
Definition has_material (h : list obj) (n : loc) : Prop := parts h SVisualMaterial n <> [].
Global Instance has_material_dec h n : Decision (has_material h n).
Proof. unfold has_material. destruct (parts h SVisualMaterial n); [right; congruence|left; congruence]. Defined.
Definition visual_nodes (h : list obj) (cont : loc) : list loc := filter (has_material h) (subnodes h cont).
Definition collision_nodes (h : list obj) (cont : loc) : list loc := filter (fun n => ~ has_material h n) (subnodes h cont).
