(** * Non-vacuity of C51, C53, C54, C58 - C64: a robot with an arm *)
From stdpp Require Import relations.
From Verif Require Import Spec Hierarchy Elements Factory History Phys Sdf SpecTrav SpecTensor SpecFact SpecQuery SpecPhys SpecPhys2 SpecKin SpecSdf PPath PReach ExBase Ex1 Props12.
Local Open Scope nat_scope.

Definition q12 (z : Z) : Qc := Q2Qc (QArith_base.Qmake z 1).
Definition nums (l : list Z) : pyval := PList (map (fun z => PNum (q12 z)) l).
Definition joint12 (nm : string) := ONewSem SKinematicJoint nm nm nm [("joint_type", PStr "rev")].
Definition ops12 : list op :=
  [ OGenNode fac "top" None;                                                                 (* 0 *)
    OGenNode fac "robot" (Some 0);                                                           (* 1 *)
    OSemantic fac "kinematic_graph" "graph" 1 [("name", PStr "g")] None;                     (* 2 *)
    OGenNode fac "base" (Some 1);                                                            (* 3 *)
    OSemantic fac "kinematiclink" "base_link" 3 [("name", PStr "b")] None;                   (* 4 *)
    OGenNode fac "wheel" (Some 1);                                                           (* 5 *)
    OSemantic fac "kinematiclink" "wheel_link" 5 [("name", PStr "w")] None;                  (* 6 *)
    OGenNode fac "visual" (Some 5);                                                          (* 7 *)
    OGenNode fac "body" (Some 7);                                                            (* 8 *)
    OSemantic fac "cylindergeometry" "cyl" 8 [("name", PStr "c")] (Some (nums [1%Z; 2%Z]));  (* 9 *)
    OSemantic fac "material" "mat" 7 [("material_name", PStr "rED")] None;                   (* 10 *)
    OSemantic fac "inertiaelement" "iner" 5 [("mass", PNum (q12 3))] None;                   (* 11 *)
    OHyperedge fac 1 "axle";                                                                 (* 12 *)
    joint12 "jin"; OUnary 12 3 WNone INWARDS (Some 13);                                      (* 14, port 15 *)
    joint12 "jout"; OUnary 12 5 WNone OUTWARDS (Some 16);                                    (* 17, port 18 *)
    OGenNode fac "arm" (Some 1);                                                             (* 19 *)
    OSemantic fac "kinematic_graph" "graph" 19 [("name", PStr "g")] None;                    (* 20 *)
    OGenNode fac "l0" (Some 19);                                                             (* 21 *)
    OSemantic fac "kinematiclink" "l0_link" 21 [("name", PStr "b")] None;                    (* 22 *)
    OGenNode fac "l1" (Some 19);                                                             (* 23 *)
    OSemantic fac "kinematiclink" "l1_link" 23 [("name", PStr "w")] None;                    (* 24 *)
    OHyperedge fac 19 "elbow";                                                               (* 25 *)
    joint12 "ein"; OUnary 25 21 WNone INWARDS (Some 26);                                     (* 27, port 28 *)
    joint12 "eout"; OUnary 25 23 WNone OUTWARDS (Some 29);                                   (* 30, port 31 *)
    OHyperedge fac 1 "mount";                                                                (* 32 *)
    joint12 "min"; OUnary 32 3 WNone INWARDS (Some 33);                                      (* 34, port 35 *)
    joint12 "mout"; OUnary 32 19 WNone OUTWARDS (Some 36) ].                                 (* 37, port 38 *)
Definition s12 : st := run ops12 s0.
Lemma s12_reach : reach s12.
Proof. apply run_reach; [apply reach_init|]. vm_compute. reflexivity. Qed.
Definition h12 : list obj := Eval vm_compute in heap s12.
Lemma h12_eq : heap s12 = h12.
Proof. vm_compute. reflexivity. Qed.

Ltac look := vm_compute; reflexivity.

(** C51 *)
Example ex_inertia : parent_of h12 6 = Some 5 /\ inertia_from h12 (subnodes h12 5) [9] /\ parts h12 SInertiaElement 5 = [11] /\
  attribute h12 11 "mass" = PNum (q12 3) /\ cylinder_values h12 9 (q12 1) (q12 2).
Proof.
  split; [look|]. split; [|split; [look|split; [look|split; [look|exists []; look]]]].
  assert (E : subnodes h12 5 = [7]) by look. rewrite E. apply (if_first h12 7 [] 8); [look| |look]. assert (G : geometries h12 8 = [9]) by look. rewrite G. discriminate.
Qed.
Example ex_inertia_wrong : ~ (q12 3 = 0%Qc \/ (q12 1 * q12 1)%Qc = (q12 2 * q12 2)%Qc).
Proof. intros [H|H]; apply (f_equal (fun x => QArith_base.Qnum (this x))) in H; vm_compute in H; discriminate. Qed.

(** C53 *)
Example ex_nearest : exists ls, path h12 22 ls /\ first_graph h12 ls 20 19.
Proof.
  exists [22; 21; 19; 1; 0]. split; [apply (climb_path h12 5); look|]. exists [22; 21], [1; 0]. split; [reflexivity|]. split; [look|].
  intros y Hy. apply elem_of_cons in Hy as [->|Hy]; [look|]. apply elem_of_cons in Hy as [->|Hy]; [look|]. exfalso. exact (not_elem_of_nil _ Hy).
Qed.
Example ex_no_graph : no_graph h12 0.
Proof. exists [0]. split; [apply (climb_path h12 5); look|]. intros y Hy. apply elem_of_list_singleton in Hy as ->. look. Qed.

Ltac inl := repeat (match goal with
  | H : _ ∈ _ :: _ |- _ => apply elem_of_cons in H as [->|H]
  | H : _ ∈ [] |- _ => exfalso; exact (not_elem_of_nil _ H) end).
Lemma near1 : nearest_graph h12 3 1 /\ nearest_graph h12 5 1.
Proof.
  split.
  - exists [3; 1; 0], 2. split; [apply (climb_path h12 5); look|]. exists [3], [0]. split; [reflexivity|]. split; [look|]. intros y Hy. inl. look.
  - exists [5; 1; 0], 2. split; [apply (climb_path h12 5); look|]. exists [5], [0]. split; [reflexivity|]. split; [look|]. intros y Hy. inl. look.
Qed.
Lemma base_outer : outermost_graph h12 3.
Proof. exists 1, 0. split; [apply near1|]. split; [look|exact ex_no_graph]. Qed.

(** C60: the three kinds of frames *)
Example ex_frame_none : framed h12 3 None.
Proof.
  apply framed_none. assert (E : ports_of h12 3 = [15; 35]) by look. rewrite E. intros p Hp. inl.
  - exists 14, 13. split; [split; [look|split; look]|]. right. split; [vm_compute; discriminate|exact base_outer].
  - exists 34, 33. split; [split; [look|split; look]|]. right. split; [vm_compute; discriminate|exact base_outer].
Qed.
Example ex_frame_driven : framed h12 5 (Some "jout").
Proof.
  apply (framed_driven h12 5 [] 18 [] 17 16); [look| | |].
  - intros p Hp. inl.
  - split; [look|split; look].
  - split; [look|]. exists 12. split; [look|]. split; [look|]. assert (E : incoming_of h12 12 = [14]) by look. split.
    + intros x Hx. rewrite E in Hx. inl. exists 3. look.
    + exists 14, 3. rewrite E. split; [left|]. split; [look|]. vm_compute. discriminate.
Qed.
Lemma arm_nested : nested_graph h12 21.
Proof.
  exists 19, 1, 1. split; [|split; [look|]].
  - exists [21; 19; 1; 0], 20. split; [apply (climb_path h12 5); look|]. exists [21], [1; 0]. split; [reflexivity|]. split; [look|]. intros y Hy. inl. look.
  - exists [1; 0], 2. split; [apply (climb_path h12 5); look|]. exists [], [0]. split; [reflexivity|]. split; [look|]. intros y Hy. inl.
Qed.
Example ex_frame_connect : framed h12 21 (Some "connect.l0").
Proof.
  assert (E : ports_of h12 21 = [28]) by look. apply (framed_connect h12 21 28 27 26).
  - rewrite E. intros p Hp. inl. exists 27, 26. split; [split; [look|split; look]|]. right. split; [vm_compute; discriminate|left; exact arm_nested].
  - exact arm_nested.
  - rewrite E. left.
  - split; [look|split; look].
  - vm_compute. discriminate.
Qed.

(** C54, C58, C61: the wheel with its visual *)
Example ex_shape : shape h12 9 (Some (group "cylinder" [leaf "radius" [PV (PNum (q12 1))]; leaf "length" [PV (PNum (q12 2))]])).
Proof. apply (sh_cylinder h12 9 (PNum (q12 1)) (PNum (q12 2)) []); look. Qed.
Definition body_xml := [group "geometry" [group "cylinder" [leaf "radius" [PV (PNum (q12 1))]; leaf "length" [PV (PNum (q12 2))]]]].
Example ex_drawn : drawn h12 8 body_xml.
Proof.
  exists [Some (group "cylinder" [leaf "radius" [PV (PNum (q12 1))]; leaf "length" [PV (PNum (q12 2))]])], [], [].
  assert (E : geometries h12 8 = [9]) by look. assert (E' : ports_of h12 8 = []) by look. rewrite E, E'. split; [constructor; [exact ex_shape|constructor]|].
  split; [constructor|]. split; [constructor|]. reflexivity.
Qed.
Definition wheel_visual := Xml "visual" [("name", "body")] [] (body_xml ++ [material_xml "rED"]).
Example ex_solid : solid h12 "" 5 [wheel_visual].
Proof.
  apply (solid_one h12 "" 5 [] 7 10 "rED" [wheel_visual] []); [look| |look|look| |].
  - intros n Hn. inl.
  - assert (E : subnodes h12 7 = [8]) by look. rewrite E. constructor; [|constructor]. exists body_xml. split; [exact ex_drawn|]. look.
  - assert (E : flat_map (subnodes h12) (collision_nodes h12 5) = []) by look. rewrite E. constructor.
Qed.
Example ex_capital : capitalize "rED" = "Red".
Proof. look. Qed.
Definition wheel_link := Xml "link" [("name", "wheel_link")] [] [Xml "pose" [("relative_to", "jout")] [PT "0.0 0.0 0.0 0.0 0.0 0.0"] []; wheel_visual].
Example ex_link : link_xml 1%Qc h12 "" 6 wheel_link.
Proof.
  exists 5, (Some "jout"), [wheel_visual], [PT "0.0 0.0 0.0 0.0 0.0 0.0"]. split; [look|]. split; [look|]. split; [exact ex_frame_driven|]. split; [exact ex_solid|].
  split; [left; split; [look|reflexivity]|]. look.
Qed.
Lemma plain_solid n prefix : visual_nodes h12 n = [] -> flat_map (subnodes h12) (collision_nodes h12 n) = [] -> solid h12 prefix n [].
Proof. intros H1 H2. apply solid_none; [exact H1|]. rewrite H2. constructor. Qed.
Definition base_link := Xml "link" [("name", "base_link")] [] [Xml "pose" [] [PT "0.0 0.0 0.0 0.0 0.0 0.0"] []].
Example ex_base : link_xml 1%Qc h12 "" 4 base_link.
Proof.
  exists 3, None, [], [PT "0.0 0.0 0.0 0.0 0.0 0.0"]. split; [look|]. split; [look|]. split; [exact ex_frame_none|]. split; [apply plain_solid; look|].
  split; [left; split; [look|reflexivity]|]. look.
Qed.

(** C59, C62: base and wheel with their joint *)
Definition axle_joint (prefix : string) : xml :=
  Xml "joint" [("name", xml_name prefix "jout"); ("type", "revolute")] []
    [leaf "parent" [PT (xml_name prefix "base")]; leaf "child" [PT (xml_name prefix "wheel")]; group "axis" [leaf "xyz" [PV (PNum 0%Qc); PT " "; PV (PNum 0%Qc); PT " "; PV (PNum 1%Qc)]]].
Lemma rev_joint d : attribute h12 d "joint_type" = PStr "rev" -> attribute h12 d "axis" = PNone -> parts h12 SRigidTransformation d = [] -> forall n0 nm child prefix,
  joint_ready 1%Qc h12 d /\ joint_xml 1%Qc h12 d n0 nm child prefix (Xml "joint" [("name", nm); ("type", "revolute")] []
    [leaf "parent" [PT (xml_name prefix (name_of h12 n0))]; leaf "child" [PT (xml_name prefix child)]; group "axis" [leaf "xyz" [PV (PNum 0%Qc); PT " "; PV (PNum 0%Qc); PT " "; PV (PNum 1%Qc)]]]).
Proof.
  intros H1 H2 H3 n0 nm child prefix. assert (A : axis_of h12 d (PNum 0%Qc) (PNum 0%Qc) (PNum 1%Qc)) by (right; split; [exact H2|repeat split]). split.
  - split; [exists (PNum 0%Qc), (PNum 0%Qc), (PNum 1%Qc); exact A|]. exists []. rewrite H3. constructor.
  - exists (PNum 0%Qc), (PNum 0%Qc), (PNum 1%Qc), "revolute", []. split; [exact A|]. split; [left; split; [exact H1|reflexivity]|]. split; [rewrite H3; constructor|reflexivity].
Qed.
Example ex_axle : plain_joint 1%Qc h12 "" (14, 17) (axle_joint "").
Proof.
  exists 3, 5, 16. split; [look|]. split; [look|]. split; [look|]. split; [look|].
  assert (H1 : attribute h12 16 "joint_type" = PStr "rev") by look. assert (H2 : attribute h12 16 "axis" = PNone) by look. assert (H3 : parts h12 SRigidTransformation 16 = []) by look.
  assert (N0 : name_of h12 3 = "base") by look. assert (N1 : name_of h12 5 = "wheel") by look. assert (N2 : name_of h12 16 = "jout") by look.
  destruct (rev_joint 16 H1 H2 H3 3 (xml_name "" (name_of h12 16)) (name_of h12 5) "") as [_ J]. rewrite N0, N1, N2 in *. exact J.
Qed.
Definition els12 : list loc := [6; 4; 13; 16].
Definition wheel_moments := cylinder_moments (q12 3) (q12 2) (q12 1).
Example ex_flat : Forall2 (whole_link 1%Qc h12 "") (of_sem h12 SKinematicLink els12) [Xml "link" [("name", "wheel_link")] [] ([Xml "pose" [("relative_to", "jout")] [PT "0.0 0.0 0.0 0.0 0.0 0.0"] []; wheel_visual] ++ [inertial_xml [(q12 3, wheel_moments)]]); base_link] /\
  rels_complete h12 (joint_rels h12 els12) /\ balanced h12 (joint_rels h12 els12) /\
  Forall2 (plain_joint 1%Qc h12 "") (rel_pairs h12 false (joint_rels h12 els12)) [axle_joint ""].
Proof.
  assert (E1 : of_sem h12 SKinematicLink els12 = [6; 4]) by look. assert (E2 : joint_rels h12 els12 = [14; 17]) by look.
  assert (E3 : rel_pairs h12 false [14; 17] = [(14, 17)]) by look. rewrite E1, E2, E3. split_and!.
  - constructor; [|constructor; [|constructor]].
    + exists [("name", "wheel_link")], [Xml "pose" [("relative_to", "jout")] [PT "0.0 0.0 0.0 0.0 0.0 0.0"] []; wheel_visual], [inertial_xml [(q12 3, wheel_moments)]].
      split; [exact ex_link|]. split; [|reflexivity]. destruct ex_inertia as (A1 & A2 & A3 & A4 & A5). apply (ino_some h12 6 5 [9] [(q12 3, wheel_moments)] A1 A2).
      * rewrite A3. discriminate.
      * rewrite A3. constructor; [|constructor]. split; [exact A4|]. apply (ga_cons h12 (q12 3) 9 [] unit_moments wheel_moments wheel_moments); [exact (gv_cylinder h12 (q12 3) 9 unit_moments (q12 1) (q12 2) A5)|constructor].
    + exists [("name", "base_link")], [Xml "pose" [] [PT "0.0 0.0 0.0 0.0 0.0 0.0"] []], []. split; [exact ex_base|]. split; [apply (ino_none h12 4 3); look|reflexivity].
  - intros r Hr _. inl; (split; [eexists; look|eexists; look]).
  - assert (E4 : selected h12 KRel [14; 17] = [14; 17]) by look. intros r Hr Hi. rewrite E4 in *. inl.
    + exists 17. split; [right; left|]. split; look.
    + exfalso. destruct Hi as [Hi|Hi]; vm_compute in Hi; discriminate.
  - constructor; [exact ex_axle|constructor].
Qed.
Example ex_flat_runs : exists ic, encode_run 100 1%Qc s12 els12 "" new_icon (Ok tt) ic /\ length (ic_cache ic) = 3.
Proof.
  destruct ex_flat as (A1 & A2 & A3 & A4). rewrite <- h12_eq in *. eexists. split; [exact (proj1 (C62_flat_export 100 1%Qc s12 els12 "" new_icon _ _ s12_reach A1 A2 A3 A4))|].
  look.
Qed.

(** C63: the arm *)
Lemma anc_below x : ancestor h12 19 x -> x ∈ [20; 21; 22; 23; 24; 25; 26; 27; 28; 29; 30; 31; 38].
Proof.
  intros A. assert (Hin : x ∈ seq 0 39).
  { assert (exists_in h12 x) as [o Ho]. { destruct A as [a l P|a q0 l P _]; unfold parent_of in P; destruct (h12 !! l) as [o|] eqn:Eo; [exists o; exact Eo|discriminate P|exists o; exact Eo|discriminate P]. }
    apply elem_of_seq. apply lookup_lt_Some in Ho. assert (length h12 = 39) as E by look. rewrite E in Ho. lia. }
  assert (x ∈ filter (fun x => ancb h12 19 x = Some true) (seq 0 39)) as H.
  { apply elem_of_list_filter. split; [|exact Hin].
    unfold ancb. assert (P : exists ls0, path h12 x ls0 /\ climb h12 39 x = Some ls0).
    { assert (F : forallb (fun y => match climb h12 39 y with Some _ => true | None => false end) (seq 0 39) = true) by look. rewrite forallb_forall in F.
      specialize (F x (proj1 (elem_of_list_In _ _) Hin)). destruct (climb h12 39 x) as [l0|] eqn:E; [|discriminate]. exists l0. split; [exact (climb_path _ _ _ _ E)|reflexivity]. }
    destruct P as (l0 & P & E). assert (L : length h12 = 39) by look. rewrite L, E. apply (path_ancestor _ _ _ _ P) in A. destruct l0 as [|y l0]; [inversion P|]. simpl in A. f_equal. by apply bool_decide_eq_true. }
  assert (E : filter (fun x => ancb h12 19 x = Some true) (seq 0 39) = [20; 21; 22; 23; 24; 25; 26; 27; 28; 29; 30; 31; 38]) by look. rewrite E in H. exact H.
Qed.
Lemma through_anc f x : through f h12 19 x -> ancestor h12 19 x.
Proof. intros Hx. induction Hx as [y P _|y q0 _ IH P _]; [exact (anc_parent _ _ _ P)|exact (anc_up _ _ _ _ P IH)]. Qed.
Lemma arm_fits : graph_fits h12 30 19.
Proof.
  intros ls N H. assert (ls ⊆ [19; 20; 21; 22; 23; 24; 25; 26; 27; 28; 29; 30; 31; 38]) as Hs.
  { intros x Hx. apply H in Hx. destruct Hx as [[-> _]|Hx]; [left|right]. exact (anc_below x (through_anc _ x Hx)). }
  pose proof (submseteq_length _ _ (NoDup_submseteq _ _ N Hs)) as Hl. simpl in Hl. lia.
Qed.
Lemma arm_of c x : in_graph h12 19 c x -> x ∈ filter (fun y => kind_of h12 y = Some (KSem c)) [20; 21; 22; 23; 24; 25; 26; 27; 28; 29; 30; 31; 38].
Proof. intros [T K]. apply elem_of_list_filter. split; [exact K|exact (anc_below x (through_anc _ x T))]. Qed.
Lemma arm_joint x : in_graph h12 19 SKinematicJoint x -> x = 26 \/ x = 29.
Proof.
  intros H. apply arm_of in H. assert (E : filter (fun y => kind_of h12 y = Some (KSem SKinematicJoint)) [20; 21; 22; 23; 24; 25; 26; 27; 28; 29; 30; 31; 38] = [26; 29]) by look.
  rewrite E in H. inl; [left|right]; reflexivity.
Qed.
Example ex_leads : leads_to_graph 1%Qc h12 34 37 3 32 19 36.
Proof.
  split.
  - split; look.
  - split; [look|split; look].
  - split; [look|vm_compute; discriminate].
  - split; [look|]. apply (rev_joint 36); look || exact 0 || exact "".
  - intros j Hj. assert (EO : outgoing_of h12 25 = [30]) by look. apply arm_joint in Hj as [->| ->].
    + exists 27, 25. split; [look|]. split; [look|]. split; [look|]. rewrite EO. intros x Hx. inl. eexists. look.
    + exists 30, 25. split; [look|]. split; [look|]. split; [look|]. rewrite EO. intros x Hx. inl. eexists. look.
Qed.
Example ex_canonical : canonical h12 19 22 /\ ~ canonical h12 19 24.
Proof.
  assert (EO : outgoing_of h12 25 = [30]) by look. split.
  - split.
    + split; [|look]. apply (through_step _ _ _ 22 21); [apply through_kid; look|look|look].
    + intros j Hj (r & e & x & n & Hr & He & Hx & Hn & Hl). apply arm_joint in Hj as [->| ->].
      * assert (R27 : parent_of h12 26 = Some 27) by look. rewrite R27 in Hr. injection Hr as <-. assert (R25 : parent_of h12 27 = Some 25) by look. rewrite R25 in He. injection He as <-. rewrite EO in Hx. inl.
        assert (E23 : ep_of h12 30 = Some 23) by look. rewrite E23 in Hn. injection Hn as <-. assert (E24 : parts h12 SKinematicLink 23 = [24]) by look. rewrite E24 in Hl. apply elem_of_list_singleton in Hl. discriminate Hl.
      * assert (R27 : parent_of h12 29 = Some 30) by look. rewrite R27 in Hr. injection Hr as <-. assert (R25 : parent_of h12 30 = Some 25) by look. rewrite R25 in He. injection He as <-. rewrite EO in Hx. inl.
        assert (E23 : ep_of h12 30 = Some 23) by look. rewrite E23 in Hn. injection Hn as <-. assert (E24 : parts h12 SKinematicLink 23 = [24]) by look. rewrite E24 in Hl. apply elem_of_list_singleton in Hl. discriminate Hl.
  - intros [_ H]. apply (H 29).
    + split; [|look]. apply (through_step _ _ _ 29 30); [apply (through_step _ _ _ 30 25); [apply through_kid; look|look|look]|look|look].
    + exists 30, 25, 30, 23. split; [look|]. split; [look|]. rewrite EO. split; [left|]. split; [look|]. assert (E24 : parts h12 SKinematicLink 23 = [24]) by look. rewrite E24. left.
Qed.
(** a complete export of the mount, with the chosen link and the elements of the arm *)
Example ex_sub_graph : exists x els, connecting_joint 1%Qc h12 "" 36 3 32 22 x /\ graph_elements h12 19 els.
Proof.
  assert (H1 : attribute h12 36 "joint_type" = PStr "rev") by look. assert (H2 : attribute h12 36 "axis" = PNone) by look. assert (H3 : parts h12 SRigidTransformation 36 = []) by look.
  destruct (rev_joint 36 H1 H2 H3 3 (xml_name "" (name_of h12 32 +:+ ".connect." +:+ name_of h12 22)) (name_of h12 32 +:+ "." +:+ name_of h12 22) "") as [_ J].
  pose proof ex_leads as L. pose proof arm_fits as F. pose proof (proj1 ex_canonical) as C. rewrite <- h12_eq in *.
  destruct (C63_sub_graph 30 1%Qc s12 34 37 3 32 19 36 [] "" new_icon s12_reach L F) as (_ & _ & K). destruct (K 22 _ C J) as (els & G & _).
  eexists. exists els. split; [exact J|exact G].
Qed.

(** C64: a link of the arm, exported with a prefix *)
Example ex_dangling : exists x y, connecting_joint 1%Qc h12 "p" 36 3 32 22 x /\ link_xml 1%Qc h12 ("p" +:+ name_of h12 32) 22 y /\ xml_attr "name" y = Some "pmount.l0_link".
Proof.
  assert (H1 : attribute h12 36 "joint_type" = PStr "rev") by look. assert (H2 : attribute h12 36 "axis" = PNone) by look. assert (H3 : parts h12 SRigidTransformation 36 = []) by look.
  destruct (rev_joint 36 H1 H2 H3 3 (xml_name "p" (name_of h12 32 +:+ ".connect." +:+ name_of h12 22)) (name_of h12 32 +:+ "." +:+ name_of h12 22) "p") as [_ J].
  eexists. eexists. split; [exact J|]. split; [|shelve].
  exists 21, (Some "connect.l0"), [], [PT "0.0 0.0 0.0 0.0 0.0 0.0"]. split; [look|]. split; [look|]. split; [exact ex_frame_connect|]. split; [apply plain_solid; look|].
  split; [left; split; [look|reflexivity]|]. reflexivity.
  Unshelve. look.
Qed.

(** C54, C58, C60: the failures *)
Definition ops13 : list op :=
  [ OGenNode fac "top" None;                                                                 (* 0 *)
    OSemantic fac "kinematic_graph" "graph" 0 [("name", PStr "g")] None;                     (* 1 *)
    OGenNode fac "n" (Some 0);                                                               (* 2 *)
    OGenNode fac "v1" (Some 2); OSemantic fac "material" "m" 3 [("material_name", PStr "red")] None; OGenNode fac "b1" (Some 3); (* 3 4 5 *)
    OGenNode fac "v2" (Some 2); OSemantic fac "material" "m" 6 [("material_name", PStr "blue")] None;                            (* 6 7 *)
    OGenNode fac "shape" (Some 0); OGenNode fac "part" (Some 8);                             (* 8 9 *)
    OSemantic fac "polyhedrongeometry" "box" 9 [("name", PStr "c")] (Some (nums [1%Z; 2%Z; 3%Z; 4%Z])); (* 10 *)
    OHyperedge fac 0 "ref";                                                                  (* 11 *)
    OUnary 11 5 WNone INWARDS None; OUnary 11 8 WNone OUTWARDS None;                         (* 12, port 13; 14, port 15 *)
    OHyperedge fac 0 "e"; joint12 "j"; OUnary 16 9 WNone INWARDS (Some 17) ].                (* 16, 17, 18, port 19 *)
Definition s13 : st := run ops13 s0.
Lemma s13_reach : reach s13.
Proof. apply run_reach; [apply reach_init|]. vm_compute. reflexivity. Qed.
Definition h13 : list obj := Eval vm_compute in heap s13.
Lemma h13_eq : heap s13 = h13.
Proof. vm_compute. reflexivity. Qed.
Example ex_two_visuals : visual_nodes h13 2 = [3] ++ [6] /\ subnodes h13 3 <> [].
Proof. split; [look|vm_compute; discriminate]. Qed.
Example ex_referenced : geometries h13 5 = [] /\ ports_of h13 5 = [13] /\ refers h13 13 [10] /\ shape h13 10 None.
Proof.
  split; [look|]. split; [look|]. split.
  - assert (E : flat_map (fun n => flat_map (geometries h13) (subnodes h13 n)) [8] = [10]) by look. rewrite <- E. apply (refers_to h13 13 12 11 [8]); [look|look|look|].
    assert (EO : outgoing_of h13 11 = [14]) by look. rewrite EO. constructor; [look|constructor].
  - apply (sh_no_box h13 10 (map (fun z => PNum (q12 z)) [1%Z; 2%Z; 3%Z; 4%Z])); [look|look|right; simpl; lia].
Qed.
Example ex_no_joint : ports_of h13 5 = [] ++ 13 :: [] /\ ep_of h13 13 = Some 12 /\ parts h13 SKinematicJoint 12 = [].
Proof. split; [look|split; look]. Qed.
Example ex_top : ports_of h13 9 = [] ++ 19 :: [] /\ leads h13 19 18 17 /\ dir_of h13 18 <> Some OUTWARDS /\ top_graph h13 9.
Proof.
  split; [look|]. split; [split; [look|split; look]|]. split; [vm_compute; discriminate|]. right. exists 0. split; [|look].
  exists [9; 8; 0], 1. split; [apply (climb_path h13 5); look|]. exists [9; 8], []. split; [reflexivity|]. split; [look|]. intros y Hy. inl; look.
Qed.
