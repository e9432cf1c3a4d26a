(** * Vocabulary for the SDF icon *)
From Verif Require Export SpecKin SpecQuery Sdf.

(** New elements go to the end of the current model, or wait in the cache. *)
Definition put (xs : list xml) (ic : icon) : icon :=
  match ic_current ic with
  | None => mkIcon (ic_models ic) None (ic_cache ic ++ xs)
  | Some i => mkIcon (alter (fun m : string * list xml => (m.1, m.2 ++ xs)) i (ic_models ic)) (Some i) (ic_cache ic)
  end.
(** A new current model begins with what was waiting. *)
Definition open_model (ic : icon) (nm : string) : icon := mkIcon (ic_models ic ++ [(nm, ic_cache ic)]) (Some (length (ic_models ic))) [].

(** <inertial> of a link (see C51). *)
Inductive inertia_of (h : list obj) (el : loc) : list xml -> Prop :=
| ino_none p : parent_of h el = Some p -> parts h SInertiaElement p = [] -> inertia_of h el []
| ino_some p gs l : parent_of h el = Some p -> inertia_from h (subnodes h p) gs -> parts h SInertiaElement p <> [] ->
    Forall2 (fun i x => attribute h i "mass" = PNum x.1 /\ gives_all h x.1 gs unit_moments x.2) (parts h SInertiaElement p) l ->
    inertia_of h el [inertial_xml l].
(** The whole <link> element. *)
Definition whole_link (rad : Qc) (h : list obj) (prefix : string) (el : loc) (x : xml) : Prop :=
  exists attrs kids is, link_xml rad h prefix el (Xml "link" attrs [] kids) /\ inertia_of h el is /\ x = Xml "link" attrs [] (kids ++ is).

Definition of_sem (h : list obj) (c : sclass) (els : list loc) : list loc := filter (fun l => kind_of h l = Some (KSem c)) els.
(** The relations that carry the joint definitions among [els]. *)
Definition joint_rels (h : list obj) (els : list loc) : list loc := selected h KRel (omap (parent_of h) (of_sem h SKinematicLink els) ++ omap (parent_of h) (of_sem h SKinematicJoint els)).
(** The <joint> between the pair of relations [jj]; the second one does not lead to a
    kinematic graph. *)
Definition plain_joint (rad : Qc) (h : list obj) (prefix : string) (jj : loc * loc) (x : xml) : Prop :=
  exists n0 n1 d, ep_of h jj.1 = Some n0 /\ ep_of h jj.2 = Some n1 /\ joint_of h jj.2 d /\ parts h SKinematicGraph n1 = [] /\
    joint_xml rad h d n0 (xml_name prefix (name_of h d)) (name_of h n1) prefix x.

(** ** Sub-graphs *)

(** The links and joints in the subtree of [g]. *)
Definition in_graph (h : list obj) (g : loc) (c : sclass) (x : loc) : Prop := through (fun _ o => match o_kind o with KNode | KEdge | KRel | KSem _ => true | _ => false end) h g x /\ kind_of h x = Some (KSem c).
(** [l] is the link of the endpoint of an outgoing relation of the edge of the joint [j]. *)
Definition drives (h : list obj) (j l : loc) : Prop :=
  exists r e x n, parent_of h j = Some r /\ parent_of h r = Some e /\ x ∈ outgoing_of h e /\ ep_of h x = Some n /\ l ∈ parts h SKinematicLink n.
(** Every joint below [g] belongs to a relation of an edge whose outgoing relations have endpoints. *)
Definition joints_ok (h : list obj) (g : loc) : Prop :=
  forall j, in_graph h g SKinematicJoint j -> exists r e, parent_of h j = Some r /\ parent_of h r = Some e /\ kind_of h e = Some KEdge /\
    forall x, x ∈ outgoing_of h e -> is_Some (ep_of h x).
Definition canonical (h : list obj) (g l : loc) : Prop := in_graph h g SKinematicLink l /\ forall j, in_graph h g SKinematicJoint j -> ~ drives h j l.
(** The recursion limit allows the traversal of the subtree. *)
Definition graph_fits (h : list obj) (lim : nat) (g : loc) : Prop := fits h lim (class_query SKinematicLink g).
(** The joint definition [d] can be written. *)
Definition joint_ready (rad : Qc) (h : list obj) (d : loc) : Prop :=
  (exists a b c, axis_of h d a b c) /\ exists poses, Forall2 (posed rad h) (parts h SRigidTransformation d) poses.
(** The <joint> from [n0] to the canonical link [l] of the sub-graph behind [j1] in the edge [e]. *)
Definition connecting_joint (rad : Qc) (h : list obj) (prefix : string) (d n0 e l : loc) (x : xml) : Prop :=
  joint_xml rad h d n0 (xml_name prefix (name_of h e +:+ ".connect." +:+ name_of h l)) (name_of h e +:+ "." +:+ name_of h l) prefix x.
(** [els]: the links below [g] in any order, then the joints in any order. *)
Definition graph_elements (h : list obj) (g : loc) (els : list loc) : Prop :=
  exists ls js, els = ls ++ js /\ NoDup ls /\ NoDup js /\ (forall x, x ∈ ls <-> in_graph h g SKinematicLink x) /\ (forall x, x ∈ js <-> in_graph h g SKinematicJoint x).
(** The pair (j0, j1) leads from the node [n0] to the sub-graph [g] via the edge [e]. *)
Record leads_to_graph (rad : Qc) (h : list obj) (j0 j1 n0 e g d : loc) : Prop := {
  lg_j0 : kind_of h j0 = Some KRel /\ ep_of h j0 = Some n0;
  lg_j1 : kind_of h j1 = Some KRel /\ ep_of h j1 = Some g /\ parent_of h j1 = Some e;
  lg_graph : kind_of h g = Some KNode /\ parts h SKinematicGraph g <> [];
  lg_joint : joint_of h j1 d /\ joint_ready rad h d;
  lg_ok : joints_ok h g }.
(** The child that a <joint> names, the name of a <link>. *)
Definition joint_child (x : xml) : list (list part) := match x with Xml _ _ _ ks => flat_map (fun k => match k with Xml t _ p _ => if decide (t = "child") then [p] else [] end) ks end.
Definition xml_attr (k : string) (x : xml) : option string := match x with Xml _ a _ _ => dget k a end.
