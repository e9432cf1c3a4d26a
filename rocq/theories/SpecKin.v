(** * Vocabulary for the SDF export: poses, joints, links *)
From Verif Require Export SpecPhys2.

(** The text of a pose: translation, then rotation; 'deg' rotations are converted, all
    others (and 'rad') are written as they are. *)
Definition pose_parts (x0 x1 x2 r0 r1 r2 : pyval) : list part :=
  [PV x0; PT " "; PV x1; PT " "; PV x2; PT " "; PV r0; PT " "; PV r1; PT " "; PV r2].
Inductive posed (rad : Qc) (h : list obj) (x : loc) : list part -> Prop :=
| posed_deg x0 x1 x2 xs a b c rest : attribute h x "translation" = PList (x0 :: x1 :: x2 :: xs) ->
    attribute h x "rotation" = PList (PNum a :: PNum b :: PNum c :: map PNum rest) -> attribute h x "rotation_type" = PStr "deg" ->
    posed rad h x (pose_parts x0 x1 x2 (PNum (rad * a)) (PNum (rad * b)) (PNum (rad * c)))
| posed_rad x0 x1 x2 xs r0 r1 r2 rest : attribute h x "translation" = PList (x0 :: x1 :: x2 :: xs) ->
    attribute h x "rotation" = PList (r0 :: r1 :: r2 :: rest) -> attribute h x "rotation_type" <> PStr "deg" ->
    posed rad h x (pose_parts x0 x1 x2 r0 r1 r2).

(** ** Joints: [j0] and [j1] are relations with the endpoints [n0] and [n1], [d] is the
    first joint definition of [j1]. *)
Definition joint_of (h : list obj) (r d : loc) : Prop := head (parts h SKinematicJoint r) = Some d.
Definition axis_of (h : list obj) (d : loc) (a b c : pyval) : Prop :=
  (exists rest, attribute h d "axis" = PList (a :: b :: c :: rest)) \/
  (attribute h d "axis" = PNone /\ a = PNum 0%Qc /\ b = PNum 0%Qc /\ c = PNum 1%Qc).
Definition joint_type_of (h : list obj) (d : loc) (t : string) : Prop :=
  (attribute h d "joint_type" = PStr "rev" /\ t = "revolute") \/ (attribute h d "joint_type" <> PStr "rev" /\ t = "fixed").
Definition joint_xml (rad : Qc) (h : list obj) (d n0 : loc) (joint_name child prefix : string) (x : xml) : Prop :=
  exists a b c t poses, axis_of h d a b c /\ joint_type_of h d t /\ Forall2 (posed rad h) (parts h SRigidTransformation d) poses /\
    x = Xml "joint" [("name", joint_name); ("type", t)] []
         ([leaf "parent" [PT (xml_name prefix (name_of h n0))]; leaf "child" [PT (xml_name prefix child)];
           group "axis" [leaf "xyz" [PV a; PT " "; PV b; PT " "; PV c]]] ++
          map (fun p => Xml "pose" [("relative_to", xml_name prefix (name_of h n0))] p []) poses).

(** ** The frame that the pose of a link is relative to *)

(** The port [p] of a node leads to the relation [r] with the joint [d]. *)
Definition leads (h : list obj) (p r d : loc) : Prop := ep_of h p = Some r /\ kind_of h r = Some KRel /\ joint_of h r d.
(** [r] is OUTWARDS and its edge has an incoming relation from a node not named world. *)
Definition all_connected (h : list obj) (e : loc) : Prop := forall x, x ∈ incoming_of h e -> is_Some (ep_of h x).
Definition driven (h : list obj) (r : loc) : Prop :=
  dir_of h r = Some OUTWARDS /\ exists e, parent_of h r = Some e /\ kind_of h e = Some KEdge /\ all_connected h e /\
    exists x n, x ∈ incoming_of h e /\ ep_of h x = Some n /\ name_of h n <> "world".
Definition from_world (h : list obj) (r : loc) : Prop :=
  dir_of h r = Some OUTWARDS /\ exists e, parent_of h r = Some e /\ kind_of h e = Some KEdge /\ all_connected h e /\
    forall x n, x ∈ incoming_of h e -> ep_of h x = Some n -> name_of h n = "world".
(** [x] is the nearest element, starting at [n], that contains a kinematic graph definition. *)
Definition nearest_graph (h : list obj) (n x : loc) : Prop := exists ls d, path h n ls /\ first_graph h ls d x.
Definition no_graph (h : list obj) (n : loc) : Prop := exists ls, path h n ls /\ forall y, y ∈ ls -> parts h SKinematicGraph y = [].
(** The kinematic graph of [n] lies in an outer one / in something that is not inside one. *)
Definition nested_graph (h : list obj) (n : loc) : Prop := exists k q x, nearest_graph h n k /\ parent_of h k = Some q /\ nearest_graph h q x.
Definition outermost_graph (h : list obj) (n : loc) : Prop := exists k q, nearest_graph h n k /\ parent_of h k = Some q /\ no_graph h q.
(** ... or there is nothing around it. *)
Definition top_graph (h : list obj) (n : loc) : Prop := no_graph h n \/ exists k, nearest_graph h n k /\ parent_of h k = None.
(** a port that neither decides the frame nor fails *)
Definition harmless (h : list obj) (n r : loc) : Prop :=
  from_world h r \/ (dir_of h r <> Some OUTWARDS /\ (nested_graph h n \/ outermost_graph h n)).
(** The frame of the node [n]: the joint of the first port that is driven by another
    node; otherwise, if [n] is connected inwards in a nested graph, 'connect.' and its
    name; otherwise none.  Ports of a frame that is found must lead to joints. *)
Definition harmless_ports (h : list obj) (n : loc) (ps : list loc) : Prop := forall p, p ∈ ps -> exists r d, leads h p r d /\ harmless h n r.
Inductive framed (h : list obj) (n : loc) : option string -> Prop :=
| framed_driven ps p qs r d : ports_of h n = ps ++ p :: qs -> harmless_ports h n ps -> leads h p r d -> driven h r -> framed h n (Some (name_of h d))
| framed_connect p r d : harmless_ports h n (ports_of h n) -> nested_graph h n -> p ∈ ports_of h n -> leads h p r d -> dir_of h r <> Some OUTWARDS ->
    framed h n (Some ("connect." +:+ name_of h n))
| framed_none : (forall p, p ∈ ports_of h n -> exists r d, leads h p r d /\ (from_world h r \/ (dir_of h r <> Some OUTWARDS /\ outermost_graph h n))) -> framed h n None.

(** The visuals and collisions of the node [cont] (see C54). *)
Inductive solid (h : list obj) (prefix : string) (cont : loc) : list xml -> Prop :=
| solid_none cs : visual_nodes h cont = [] -> Forall2 (collision_of h prefix) (flat_map (subnodes h) (collision_nodes h cont)) cs -> solid h prefix cont cs
| solid_one V1 z m t vs cs : visual_nodes h cont = V1 ++ [z] -> (forall n, n ∈ V1 -> subnodes h n = []) ->
    head (parts h SVisualMaterial z) = Some m -> attribute h m "material_name" = PStr t ->
    Forall2 (visual_of h prefix t) (subnodes h z) vs -> Forall2 (collision_of h prefix) (flat_map (subnodes h) (collision_nodes h cont)) cs ->
    solid h prefix cont (vs ++ cs).

(** ** Links *)
Definition link_pose (rad : Qc) (h : list obj) (el : loc) (t : list part) : Prop :=
  (parts h SRigidTransformation el = [] /\ t = [PT "0.0 0.0 0.0 0.0 0.0 0.0"]) \/
  (exists x, head (parts h SRigidTransformation el) = Some x /\ posed rad h x t).
Definition link_xml (rad : Qc) (h : list obj) (prefix : string) (el : loc) (x : xml) : Prop :=
  exists cont f gs t, parent_of h el = Some cont /\ kind_of h cont = Some KNode /\ framed h cont f /\ solid h prefix cont gs /\ link_pose rad h el t /\
    x = Xml "link" [("name", xml_name prefix (name_of h el))] []
         (Xml "pose" (match f with Some f => [("relative_to", xml_name prefix f)] | None => [] end) t [] :: gs).
