(** * Property theorems C51, C53, C54, C58-C64: the SDF export *)
From stdpp Require Import relations.
From Verif Require Import Spec Hierarchy Elements Factory History Phys Sdf SpecTrav SpecTensor SpecFact SpecQuery SpecPhys SpecPhys2 SpecKin SpecSdf QPhys QPhys2 QKin QSdf QSdf2.

(** C51: one cylinder with the radius [R] and the length [L] that are written into its geometry *)
Theorem C51_cylinder_refuted h el p g i m R L : parent_of h el = Some p -> inertia_from h (subnodes h p) [g] -> parts h SInertiaElement p = [i] ->
  attribute h i "mass" = PNum m -> cylinder_values h g R L ->
  encode_typegeometry_element h g = Ok (Some (group "cylinder" [leaf "radius" [PV (PNum R)]; leaf "length" [PV (PNum L)]])) /\
  encode_inertia_element h el = Ok [inertial_xml [(m, cylinder_moments m L R)]] /\
  (inertial_xml [(m, cylinder_moments m L R)] = inertial_xml [(m, cylinder_moments m R L)] <-> m = 0%Qc \/ (R * R)%Qc = (L * L)%Qc).
Proof. intros H1 H2 H3 H4 H5. destruct (q_C51_cylinder h el p g i m R L H1 H2 H3 H4 H5) as [S H]. split; [exact (shape_enc h g _ S)|exact H]. Qed.
Print Assumptions C51_cylinder_refuted.
Theorem C51_sphere h el p g i m r : parent_of h el = Some p -> inertia_from h (subnodes h p) [g] -> parts h SInertiaElement p = [i] ->
  attribute h i "mass" = PNum m -> sphere_values h g r ->
  encode_typegeometry_element h g = Ok (Some (group "sphere" [leaf "radius" [PV (PNum r)]])) /\ encode_inertia_element h el = Ok [inertial_xml [(m, sphere_moments m r)]].
Proof. intros H1 H2 H3 H4 H5. destruct (q_C51_sphere h el p g i m r H1 H2 H3 H4 H5) as [S H]. split; [exact (shape_enc h g _ S)|exact H]. Qed.
Print Assumptions C51_sphere.
(** ... in general: per inertia element, the moments of the last cylinder or sphere, or the unit moments *)
Theorem C51_any_link h el p gs l : parent_of h el = Some p -> inertia_from h (subnodes h p) gs ->
  (parts h SInertiaElement p = [] -> encode_inertia_element h el = Ok []) /\
  (parts h SInertiaElement p <> [] ->
    Forall2 (fun i x => attribute h i "mass" = PNum x.1 /\ gives_all h x.1 gs unit_moments x.2) (parts h SInertiaElement p) l ->
    encode_inertia_element h el = Ok [inertial_xml l]).
Proof. intros Hp Hg. split; [exact (q_C51_none h el p Hp)|exact (q_C51_emitted h el p gs l Hp Hg)]. Qed.
Print Assumptions C51_any_link.
Theorem C51_ellipsoid h el p gs g vs i is m out : parent_of h el = Some p -> inertia_from h (subnodes h p) (gs ++ [g]) ->
  parts h SInertiaElement p = i :: is -> attribute h i "mass" = PNum m -> gives_all h m gs unit_moments out ->
  kind_of h g = Some (KSem SEllipsoidGeometry) -> attribute h g "values" = PList vs -> length vs <> 1 ->
  encode_inertia_element h el = Exn TypeError.
Proof. exact (q_C51_ellipsoid h el p gs g vs i is m out). Qed.
Print Assumptions C51_ellipsoid.

(** C53 *)
Theorem C53_nearest_graph s node : reach s -> exists_in (heap s) node -> exists ls, path (heap s) node ls /\
  ((exists d x, first_graph (heap s) ls d x /\ get_parent_kinematic_graph (heap s) node = Ok (Some (d, x))) \/
   ((forall y, y ∈ ls -> parts (heap s) SKinematicGraph y = []) /\ get_parent_kinematic_graph (heap s) node = Ok None)).
Proof. exact (q_C53 s node). Qed.
Print Assumptions C53_nearest_graph.

(** C54 *)
Theorem C54_material_refuted s cont prefix V1 z n : reach s -> visual_nodes (heap s) cont = V1 ++ [z] -> n ∈ V1 -> subnodes (heap s) n <> [] ->
  encode_geometry_element (heap s) cont prefix = Exn KeyError.
Proof. exact (q_C54_lost s cont prefix V1 z n). Qed.
Print Assumptions C54_material_refuted.
Theorem C54_one_visual_node h cont prefix gs : solid h prefix cont gs -> encode_geometry_element h cont prefix = Ok gs.
Proof. exact (solid_enc h prefix cont gs). Qed.
Print Assumptions C54_one_visual_node.

(** C58 *)
Theorem C58_shapes h g vs : is_geometry h g -> attribute h g "values" = PList vs ->
  (exists o, shape h g o /\ encode_typegeometry_element h g = Ok o) \/
  (kind_of h g = Some (KSem SCylinderGeometry) /\ length vs < 2 /\ encode_typegeometry_element h g = Exn IndexError).
Proof.
  intros Hg Hv. destruct (q_geometry_total h g vs Hg Hv) as [[o S]|[Hk Hl]].
  - left. exists o. exact (conj S (shape_enc h g o S)).
  - right. exact (conj Hk (conj Hl (q_geometry_short h g vs Hk Hv Hl))).
Qed.
Print Assumptions C58_shapes.
Theorem C58_drawn h n xs : drawn h n xs -> extract_geometry_element h n = Ok xs.
Proof. exact (drawn_enc h n xs). Qed.
Print Assumptions C58_drawn.
Theorem C58_referenced h n p ps g own gs : Forall2 (shape h) (geometries h n) own -> ports_of h n = p :: ps ->
  refers h p (g :: gs) -> shape h g None -> extract_geometry_element h n = Exn TypeError.
Proof. intros H1 H2 H3. exact (q_geometry_empty h n p ps g own H1 H2 (g :: gs) H3 eq_refl). Qed.
Print Assumptions C58_referenced.

(** C59 *)
Theorem C59_joint rad h j0 j1 d n0 n1 prefix : ep_of h j0 = Some n0 -> kind_of h j0 = Some KRel -> ep_of h j1 = Some n1 -> kind_of h j1 = Some KRel ->
  (joint_of h j1 d -> joint_ready rad h d -> exists x, joint_xml rad h d n0 (xml_name prefix (name_of h d)) (name_of h n1) prefix x /\ joint_base_element h rad j0 j1 prefix = Ok x) /\
  (parts h SKinematicJoint j1 = [] -> joint_base_element h rad j0 j1 prefix = Exn IndexError).
Proof.
  intros H0 K0 H1 K1. split; [|exact (q_no_joint rad h j0 j1 prefix)]. intros Hd Hr. destruct (joint_ready_xml rad h d n0 (xml_name prefix (name_of h d)) (name_of h n1) prefix Hr) as [x Hx].
  exists x. exact (conj Hx (q_joint rad h j0 j1 d n0 n1 prefix x H0 K0 H1 K1 Hd Hx)).
Qed.
Print Assumptions C59_joint.

(** C60 *)
Theorem C60_frame s n : reach s -> kind_of (heap s) n = Some KNode ->
  (forall f, framed (heap s) n f -> obtain_relative_frame_name (heap s) n = Ok f) /\
  (forall ps p qs r, ports_of (heap s) n = ps ++ p :: qs -> harmless_ports (heap s) n ps ->
     (ep_of (heap s) p = Some r -> parts (heap s) SKinematicJoint r = [] -> obtain_relative_frame_name (heap s) n = Exn StopIteration) /\
     (forall d, leads (heap s) p r d -> dir_of (heap s) r <> Some OUTWARDS -> top_graph (heap s) n -> obtain_relative_frame_name (heap s) n = Exn AttributeError)).
Proof.
  intros R K. split; [exact (fun f => q_framed s n f R K)|]. intros ps p qs r E H. split; [exact (q_frame_no_joint s n ps p qs r R K E H)|exact (fun d => q_frame_top s n ps p qs r d R K E H)].
Qed.
Print Assumptions C60_frame.

(** C61 *)
Theorem C61_link rad s prefix el x : reach s -> link_xml rad (heap s) prefix el x -> encode_link_element (heap s) rad el prefix = Ok x.
Proof. exact (q_link rad s prefix el x). Qed.
Print Assumptions C61_link.

(** C62 *)
Theorem C62_flat_export lim rad s els prefix ic lx jx : reach s ->
  Forall2 (whole_link rad (heap s) prefix) (of_sem (heap s) SKinematicLink els) lx ->
  rels_complete (heap s) (joint_rels (heap s) els) -> balanced (heap s) (joint_rels (heap s) els) ->
  Forall2 (plain_joint rad (heap s) prefix) (rel_pairs (heap s) false (joint_rels (heap s) els)) jx ->
  let ic' := put (lx ++ jx) (fold_left open_model (map (name_of (heap s)) (of_sem (heap s) SCognitiveEntity els)) ic) in
  encode_run lim rad s els prefix ic (Ok tt) ic' /\ forall r ic1, encode_run lim rad s els prefix ic r ic1 -> r = Ok tt /\ ic1 = ic'.
Proof. exact (q_flat lim rad s els prefix ic lx jx). Qed.
Print Assumptions C62_flat_export.

(** C63 *)
Theorem C63_canonical_links lim s g : reach s -> kind_of (heap s) g = Some KNode -> graph_fits (heap s) lim g -> joints_ok (heap s) g ->
  (exists r, canonical_run lim s g r) /\
  forall r, canonical_run lim s g r -> exists ls, r = Ok ls /\ NoDup ls /\ forall l, l ∈ ls <-> canonical (heap s) g l.
Proof. exact (q_canonical lim s g). Qed.
Print Assumptions C63_canonical_links.
Theorem C63_sub_graph lim rad s j0 j1 n0 e g d ps prefix ic : reach s -> leads_to_graph rad (heap s) j0 j1 n0 e g d -> graph_fits (heap s) lim g ->
  ((forall l, ~ canonical (heap s) g l) -> joints_run lim rad s ((j0, j1) :: ps) prefix ic (Exn KeyError) ic /\
     forall r ic', joints_run lim rad s ((j0, j1) :: ps) prefix ic r ic' -> r = Exn KeyError /\ ic' = ic) /\
  (forall ic', joints_run lim rad s ((j0, j1) :: ps) prefix ic (Ok tt) ic' ->
     exists l x els ic1, canonical (heap s) g l /\ connecting_joint rad (heap s) prefix d n0 e l x /\ graph_elements (heap s) g els /\
       encode_run lim rad s els (prefix +:+ name_of (heap s) e) (put [x] ic) (Ok tt) ic1 /\ joints_run lim rad s ps prefix ic1 (Ok tt) ic') /\
  (forall l x, canonical (heap s) g l -> connecting_joint rad (heap s) prefix d n0 e l x ->
     exists els, graph_elements (heap s) g els /\
       forall ic1 r ic', encode_run lim rad s els (prefix +:+ name_of (heap s) e) (put [x] ic) (Ok tt) ic1 -> joints_run lim rad s ps prefix ic1 r ic' ->
         joints_run lim rad s ((j0, j1) :: ps) prefix ic r ic').
Proof.
  intros R L F. split; [exact (q_no_canonical lim rad s R j0 j1 n0 e g d L F ps prefix ic)|]. split; [exact (q_nested_ok lim rad s R j0 j1 n0 e g d L F ps prefix ic)|].
  intros l x Hl Hx. destruct (q_nested_any lim rad s R j0 j1 n0 e g d L F l x prefix ic Hl Hx) as (els & H1 & H2). exists els. exact (conj H1 (H2 ps)).
Qed.
Print Assumptions C63_sub_graph.

(** C64 *)
Theorem C64_dangling_refuted rad s prefix d n0 e l x y : reach s -> connecting_joint rad (heap s) prefix d n0 e l x ->
  link_xml rad (heap s) (prefix +:+ name_of (heap s) e) l y ->
  encode_link_element (heap s) rad l (prefix +:+ name_of (heap s) e) = Ok y /\
  exists c nm, joint_child x = [[PT c]] /\ xml_attr "name" y = Some nm /\ (c = nm <-> prefix = "" /\ name_of (heap s) e <> "").
Proof. intros R Hx Hy. exact (conj (q_link rad s _ l y R Hy) (q_dangling rad (heap s) prefix d n0 e l x y Hx Hy)). Qed.
Print Assumptions C64_dangling_refuted.
