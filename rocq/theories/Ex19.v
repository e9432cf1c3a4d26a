(** * Non-vacuity of C76: a robot with a nested graph is exportable *)
From stdpp Require Import relations.
From Verif Require Import Spec Hierarchy Elements Factory History CogniLang Convert PReach ExBase Ex1 Ex13 Ex16 Props19 SpecExport SpecCogni.
Local Open Scope nat_scope.

(** the chassis has two links, a graph "arm" with two links and a joint, and a joint that
    leads to the arm *)
Definition bare19 (nm : string) : clink := mkLink true nm None (Some (mkInertia "2" None, [CVisual (Some "vis") (Some "red") (GOwn GCylinder (FVec [num13 "1"; num13 "2"]))])).
Definition elbow19 : cjoint := mkJoint "elbow" [mkCrel "fix" "<-" "upper" None None; mkCrel "rev" "->" "lower" None None].
Definition mount19 : cjoint := mkJoint "mount" [mkCrel "fix" "<-" "base" None None; mkCrel "fix" "->" "arm" (Some (mkRigid [num13 "1"; num13 "0"; num13 "0"] None)) None].
Definition e19 : centity :=
  mkEntity "robot" [EiParams [("len", "1")]; EiKin "chassis" [KiLink base13; KiLink wheel13; KiKin "arm" [KiLink (bare19 "upper"); KiLink (bare19 "lower"); KiJoint elbow19]; KiJoint axle13; KiJoint mount19]].
Ltac nd := repeat first [apply NoDup_nil_2 | apply NoDup_cons; split; [intros X; repeat (apply elem_of_cons in X as [X|X]; [discriminate X|]); apply elem_of_nil in X; exact X|]].
Example ex_resolvable19 : resolvable fl13 rad13 e19.
Proof.
  vm_compute. repeat (split || exact Logic.I).
  - right. exists "vis". split; [reflexivity|]. intros X. discriminate X.
  - left. apply elem_of_list_here.
  - nd.
  - constructor; [|constructor; [|constructor]]; right; vm_compute; repeat split; eexists; reflexivity.
  - nd.
  - constructor; [|constructor; [|constructor]]; right; vm_compute; repeat split; eexists; reflexivity.
  - nd.
  - constructor; [|constructor; [|constructor]]; right; vm_compute; repeat split; eexists; reflexivity.
Qed.
Definition places19 : list place := Eval vm_compute in places e19.
Definition ends19 : list string := Eval vm_compute in reference_ends e19.
Definition led19 : list string := Eval vm_compute in flat_map (led_to outgoing) (places e19).
Ltac notin := intros X; repeat (apply elem_of_cons in X as [X|X]; [vm_compute in X; discriminate X|]); apply elem_of_nil in X; exact X.
Example ex_exportable : exportable fl13 rad13 e19.
Proof.
  split; [exact ex_resolvable19|]. assert (EE : reference_ends e19 = ends19) by (vm_compute; reflexivity). assert (EP : places e19 = places19) by (vm_compute; reflexivity).
  assert (EL : flat_map (led_to outgoing) (places e19) = led19) by (vm_compute; reflexivity).
  assert (LF : forall path l, (lk_pose l = None \/ lk_name l = "base") -> pose_fits (lk_pose l) -> length (visuals l) <= 1 -> Forall (fun p => drawable (part_geometry p)) (link_parts l) -> weighable (link_parts l) -> join "/" (path ++ [lk_name l]) ∉ ends19 -> link_fits e19 path l).
  { intros path l _ H1 H2 H3 H4 H5. unfold link_fits. rewrite EE. exact (conj H1 (conj H2 (conj H3 (conj H4 H5)))). }
  assert (NG : forall path nm its, join "/" (path ++ [nm]) ∉ led19 -> subgraph_fits e19 path nm its). { intros path nm its H. unfold subgraph_fits. rewrite EL. intros X. destruct (H X). }
  assert (JB : forall j r0 r1, jt_rels j = [r0; r1] -> outgoing r0 = false -> outgoing r1 = true -> match jr_axis r1 with Some v => 3 <= length v | None => True end -> pose_fits (jr_rigid r1) -> joint_fits j).
  { intros j r0 r1 E O0 O1 A P. unfold joint_fits. rewrite E. split; [intros _; exists r1; split; [right; left|exact O1]|]. constructor; [rewrite O0; intros X; discriminate X|]. constructor; [intros _; exact (conj A P)|constructor]. }
  rewrite EP. unfold places19. repeat (apply Forall_cons; split); [..|apply Forall_nil_2]; unfold place_fits.
  - apply NG. notin.
  - apply LF; [right; reflexivity|vm_compute; lia|vm_compute; lia| |vm_compute; exact Logic.I|notin]. repeat constructor.
  - apply LF; [left; reflexivity|vm_compute; exact Logic.I|vm_compute; lia| |vm_compute; reflexivity|notin]. repeat constructor.
  - unfold subgraph_fits. intros _. exists ["robot"; "chassis"; "arm"], (bare19 "upper"). split; [vm_compute; left|]. intros X. vm_compute in X. apply elem_of_cons in X as [X|X]; [discriminate X|]. apply elem_of_nil in X. exact X.
  - apply LF; [left; reflexivity|vm_compute; exact Logic.I|vm_compute; lia| |vm_compute; exact Logic.I|notin]. repeat constructor.
  - apply LF; [left; reflexivity|vm_compute; exact Logic.I|vm_compute; lia| |vm_compute; exact Logic.I|notin]. repeat constructor.
  - eapply JB; [reflexivity|reflexivity|reflexivity|exact Logic.I|exact Logic.I].
  - eapply JB; [reflexivity|reflexivity|reflexivity|vm_compute; lia|vm_compute; lia].
  - eapply JB; [reflexivity|reflexivity|reflexivity|exact Logic.I|vm_compute; lia].
Qed.
Definition size19 : nat := Eval vm_compute in length (heap (snd (load fl13 rad13 "cogni_lang_file" 1 e19 s13))).
Example ex_converted : exists files s', convert_run fl13 rad13 (S size19) 1 e19 s13 (Ok files) s'.
Proof.
  refine (proj1 (C76_exportable_converted fl13 rad13 (S size19) 1 e19 s13 s13_reach s13_named s13_sha s13_clk ex_exportable _)). intros d s1 E.
  assert (EL : length (heap (snd (load fl13 rad13 "cogni_lang_file" 1 e19 s13))) = size19) by (vm_compute; reflexivity). rewrite E in EL. cbn [snd] in EL. rewrite EL. apply Nat.lt_succ_diag_r.
Qed.
(** ... and a joint that leads to a graph without a link of its own makes it inexportable *)
Definition e19b : centity := mkEntity "robot" [EiKin "chassis" [KiLink (bare19 "base"); KiKin "arm" []; KiJoint mount19]].
Example ex_inexportable : ~ exportable fl13 rad13 e19b.
Proof.
  intros [_ F]. rewrite Forall_forall in F. specialize (F (["robot"; "chassis"], KiKin "arm" [])). assert (EP : places e19b = ltac:(let x := eval vm_compute in (places e19b) in exact x)) by (vm_compute; reflexivity).
  destruct F as (p & l & X & _).
  - rewrite EP. right. right. left.
  - vm_compute. left.
  - vm_compute in X. apply elem_of_nil in X. exact X.
Qed.
