(** * Non-vacuity of C65 - C68: a robot with two links, a joint, a sensor and a parameter *)
From stdpp Require Import relations.
From Verif Require Import Spec Hierarchy Elements Factory History CogniLang SpecCogni PPath PReach ExBase Ex1 Props13.
Local Open Scope nat_scope.

Definition fl13 (t : string) : option Qc :=
  if decide (t = "1") then Some 1%Qc else if decide (t = "2") then Some (1 + 1)%Qc else if decide (t = "0") then Some 0%Qc else None.
Definition rad13 : Qc := Q2Qc (QArith_base.Qmake 7 401).
Definition num13 (t : string) : cvalue := CFloat t.
Definition base13 : clink :=
  mkLink true "base" (Some (mkRigid [num13 "0"; num13 "1"; CRef "len"] (Some (mkRot (Some RotD) [num13 "0"; num13 "0"; num13 "1"]))))
    (Some (mkInertia "2" (Some (FVec [num13 "?"])), [CVisual (Some "vis") (Some "red") (GOwn GCylinder (FVec [CRef "len"; num13 "2"])); CCollision (Some "coll") (GRef "base/vis")])).
Definition wheel13 : clink := mkLink false "wheel" None (Some (mkInertia "1" None, [CVisual (Some "vis") None (GRef "base/vis"); CCollision None (GOwn GEllipsoid (FVec [num13 "1"]))])).
Definition axle13 : cjoint :=
  mkJoint "axle" [mkCrel "fix" "<-" "base" None None; mkCrel "rev" "->" "wheel" (Some (mkRigid [num13 "1"; num13 "0"; num13 "0"] None)) (Some [num13 "0"; num13 "0"; CRef "len"])].
Definition e13 : centity :=
  mkEntity "robot" [EiParams [("len", "2"); ("len", "1")]; EiKin "chassis" [KiLink base13; KiOther; KiLink wheel13; KiJoint axle13]; EiAmbient "outside" [AiSensor "camera"; AiOther]; EiOther].
Definition s13 : st := run [OGenNode fac "top" None; OGenNode fac "below" (Some 0)] s0.
Definition out13 := Eval vm_compute in load fl13 rad13 "icon" 1 e13 s13.
Definition h13 : list obj := Eval vm_compute in heap (snd out13).
Definition d13 : loader := Eval vm_compute in match fst out13 with Ok d => d | Exn _ => mkLoader (mkFactory "" 0) (mkFactory "" 0) [] [] None 0 end.
Lemma s13_reach : reach s13.
Proof. apply run_reach; [apply reach_init|]. vm_compute. reflexivity. Qed.
Lemma s13_named : forall l o, heap s13 !! l = Some o -> full_name (heap s13) l (o_qname o).
Proof.
  assert (E : heap s13 = ltac:(let x := eval vm_compute in (heap s13) in exact x)) by (vm_compute; reflexivity). rewrite E.
  intros [|[|l]] o H; cbn [lookup list_lookup] in H; [injection H as <-; exists [0]|injection H as <-; exists [1; 0]|discriminate H].
  - split; [apply (climb_path _ 5); vm_compute; reflexivity|vm_compute; reflexivity].
  - split; [apply (climb_path _ 5); vm_compute; reflexivity|vm_compute; reflexivity].
Qed.
Lemma load13 : load fl13 rad13 "icon" 1 e13 s13 = (Ok d13, snd out13).
Proof. vm_compute. reflexivity. Qed.

(** C65: the description is accepted; the theorem applies *)
Example ex_load : exists root t, ld_root d13 = Some root /\ meaning fl13 rad13 e13 = Some t /\ view (heap (snd out13)) root t.
Proof.
  destruct (C65_load_builds_meaning fl13 rad13 "icon" 1 e13 s13 d13 (snd out13) s13_reach s13_named load13) as ((root & t & H1 & H2 & _ & _ & H5) & _).
  exists root, t. exact (conj H1 (conj H2 H5)).
Qed.
(** ... and the tree is not trivial: the names of its nodes *)
Fixpoint node_names (t : tree) : list string := match t with T lb ts => match lb with LNode nm => [nm] | LEdge nm => [nm] | _ => [] end ++ flat_map node_names ts end.
Example ex_meaning : node_names <$> meaning fl13 rad13 e13 =
  Some ["robot"; "chassis"; "base"; "vis"; "geom_vis"; "coll"; "geom_coll"; "ref_geom_coll_base/vis"; "wheel"; "vis"; "geom_vis"; "robot/chassis/wheel/coll"; "geom_robot/chassis/wheel/coll"; "axle"; "outside"; "camera"].
Proof. vm_compute. reflexivity. Qed.

(** C66: the parameter after its use, an unreadable mass, a mesh *)
Definition e13_late : centity := mkEntity "robot" (rev (en_items e13)).
Example ex_late : exists ex s', load fl13 rad13 "icon" 1 e13_late s13 = (Exn ex, s').
Proof.
  apply (C66_unreadable_rejected fl13 rad13 "icon" 1 e13_late s13 [EiOther; EiAmbient "outside" [AiSensor "camera"; AiOther]] (EiKin "chassis" [KiLink base13; KiOther; KiLink wheel13; KiJoint axle13]) [EiParams [("len", "2"); ("len", "1")]] s13_reach s13_named); [vm_compute; reflexivity|].
  left. exists (CRef "len"). split; [|vm_compute; reflexivity].
  assert (E : eitem_numbers (EiKin "chassis" [KiLink base13; KiOther; KiLink wheel13; KiJoint axle13]) = num13 "0" :: num13 "1" :: CRef "len" :: drop 3 (eitem_numbers (EiKin "chassis" [KiLink base13; KiOther; KiLink wheel13; KiJoint axle13]))) by (vm_compute; reflexivity).
  rewrite E. apply elem_of_cons. right. apply elem_of_cons. right. apply elem_of_cons. left. reflexivity.
Qed.
Definition link13 (m : string) (g : cgeom) : clink := mkLink false "l" None (Some (mkInertia m None, [CVisual None None g])).
Example ex_mass : exists ex s', load fl13 rad13 "icon" 1 (mkEntity "r" [EiKin "k" [KiLink (link13 "heavy" (GRef "x"))]]) s13 = (Exn ex, s').
Proof.
  apply (C66_unreadable_rejected fl13 rad13 "icon" 1 _ s13 [] (EiKin "k" [KiLink (link13 "heavy" (GRef "x"))]) [] s13_reach s13_named); [vm_compute; reflexivity|].
  right. left. exists (link13 "heavy" (GRef "x")). eexists _, _. split; [apply elem_of_cons; left; reflexivity|]. split; vm_compute; reflexivity.
Qed.
Example ex_mesh : exists ex s', load fl13 rad13 "icon" 1 (mkEntity "r" [EiKin "k" [KiLink (link13 "1" (GOwn GMesh (FVec [])))]]) s13 = (Exn ex, s').
Proof.
  apply (C66_unreadable_rejected fl13 rad13 "icon" 1 _ s13 [] (EiKin "k" [KiLink (link13 "1" (GOwn GMesh (FVec [])))]) [] s13_reach s13_named); [vm_compute; reflexivity|].
  right. right. exists (link13 "1" (GOwn GMesh (FVec []))), (CVisual None None (GOwn GMesh (FVec []))). split; [apply elem_of_cons; left; reflexivity|]. split; [apply elem_of_cons; left; reflexivity|]. intros H. exact H.
Qed.
Example ex_meaningless : meaning fl13 rad13 e13_late = None.
Proof. vm_compute. reflexivity. Qed.

(** C67: something is stripped, and both are accepted *)
Example ex_stripped : stripped e13 <> e13 /\ load fl13 rad13 "icon" 1 (stripped e13) s13 = (Ok d13, snd out13).
Proof. split; [intros H; apply (f_equal (fun e => length (en_items e))) in H; vm_compute in H; discriminate H|]. rewrite C67_not_read. exact load13. Qed.

(** C68: two references to the same visual, one edge *)
Example ex_references : references e13 = ["robot/chassis/base/vis"; "robot/chassis/base/vis"] /\ firsts [] (references e13) = ["robot/chassis/base/vis"].
Proof. split; vm_compute; reflexivity. Qed.
