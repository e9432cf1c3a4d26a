(** * Descriptions that can be converted

    Conditions on the parse tree alone. *)
From Verif Require Export SpecScope SpecConv.

(** Every link, joint and kinematic graph of a description, with the names down to its
    container. *)
Notation place := (list string * kitem)%type.
Fixpoint kitem_places (path : list string) (it : kitem) : list place :=
  (path, it) :: match it with KiKin nm its => flat_map (kitem_places (path ++ [nm])) its | _ => [] end.
Fixpoint aitem_places (path : list string) (it : aitem) : list place :=
  match it with
  | AiAmbient nm its => flat_map (aitem_places (path ++ [nm])) its
  | AiKin nm its => kitem_places path (KiKin nm its)
  | _ => []
  end.
Definition eitem_places (path : list string) (it : eitem) : list place :=
  match it with
  | EiJoint j => kitem_places path (KiJoint j)
  | EiAmbient nm its => aitem_places path (AiAmbient nm its)
  | EiKin nm its => kitem_places path (KiKin nm its)
  | EiParams _ | EiOther => []
  end.
Definition places (e : centity) : list place := flat_map (eitem_places [en_name e]) (en_items e).

(** ** Links *)

(** At least three numbers for the translation and for the rotation. *)
Definition pose_fits (p : option crigid) : Prop :=
  match p with
  | None => True
  | Some r => 3 <= length (rg_trans r) /\ match rg_rot r with Some ro => 3 <= length (ro_vec ro) | None => True end
  end.
(** A radius and a length; the edges of a box. *)
Definition drawable (g : cgeom) : Prop :=
  match g with
  | GOwn GCylinder (FVec v) => 2 <= length v
  | GOwn GPolyhedron (FVec v) => 1 <= length v <= 3
  | _ => True
  end.
(** The first own geometry decides about the inertia: an ellipsoid must be a sphere. *)
Fixpoint weighable (ps : list cpart) : Prop :=
  match ps with
  | [] => True
  | p :: ps' => match part_geometry p with GRef _ => weighable ps' | GOwn GEllipsoid (FVec v) => length v = 1 | GOwn _ _ => True end
  end.
(** The qualified names at both ends of the geometry references. *)
Definition place_ends (x : place) : list string :=
  match x with
  | (path, KiLink l) =>
      let here := path ++ [lk_name l] in
      flat_map (fun p => match part_geometry p with GRef ref => [target here p ref; join "/" (here ++ [part_name here p; "geom_" +:+ part_name here p])] | GOwn _ _ => [] end) (link_parts l)
  | _ => []
  end.
Definition reference_ends (e : centity) : list string := flat_map place_ends (places e).
Definition link_fits (e : centity) (path : list string) (l : clink) : Prop :=
  pose_fits (lk_pose l) /\ length (visuals l) <= 1 /\ Forall (fun p => drawable (part_geometry p)) (link_parts l) /\ weighable (link_parts l) /\
  join "/" (path ++ [lk_name l]) ∉ reference_ends e.

(** ** Joints *)
Definition joint_fits (j : cjoint) : Prop :=
  ((exists r, r ∈ jt_rels j /\ incoming r = true) -> exists r, r ∈ jt_rels j /\ outgoing r = true) /\
  Forall (fun r => outgoing r = true -> match jr_axis r with Some v => 3 <= length v | None => True end /\ pose_fits (jr_rigid r)) (jt_rels j).

(** ** Graphs *)

(** The qualified names that the joints lead to: by outgoing references, by outgoing or
    undirected ones. *)
Definition led_to (p : crel -> bool) (x : place) : list string :=
  match x with (path, KiJoint j) => map (fun r => endpoint_name path (jr_ref r)) (List.filter p (jt_rels j)) | _ => [] end.
Definition undirected (r : crel) : bool := bool_decide (jr_dir r = "--").
Definition driving (r : crel) : bool := outgoing r || undirected r.
(** A graph that a joint leads to has a link that no joint of the graph leads to. *)
Definition subgraph_fits (e : centity) (path : list string) (nm : string) (its : list kitem) : Prop :=
  let inside := flat_map (kitem_places (path ++ [nm])) its in
  join "/" (path ++ [nm]) ∈ flat_map (led_to outgoing) (places e) ->
  exists p l, (p, KiLink l) ∈ inside /\ join "/" (p ++ [lk_name l]) ∉ flat_map (led_to driving) inside.

Definition place_fits (e : centity) (x : place) : Prop :=
  match x with
  | (path, KiLink l) => link_fits e path l
  | (path, KiJoint j) => joint_fits j
  | (path, KiKin nm its) => subgraph_fits e path nm its
  | (_, KiOther) => True
  end.
(** All its references can be resolved, all its numbers can be read, and its links,
    joints and graphs can be written. *)
Definition exportable (fl : string -> option Qc) (rad : Qc) (e : centity) : Prop := resolvable fl rad e /\ Forall (place_fits e) (places e).
