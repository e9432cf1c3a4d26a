(** * Non-vacuity of C73: the robot of Ex13 is resolvable *)
From stdpp Require Import relations.
From Verif Require Import Spec Hierarchy Elements Factory History CogniLang PReach ExBase Ex1 Props13 Ex13 Ex16 Props17 SpecCogni SpecScope.
Local Open Scope nat_scope.

(** two links, a visual and a collision that are references, a joint *)
Example ex_resolvable : resolvable fl13 rad13 e13.
Proof.
  vm_compute. repeat (split || exact Logic.I).
  - right. exists "vis". split; [reflexivity|]. intros X. discriminate X.
  - left. apply elem_of_list_here.
  - apply NoDup_cons. split; [|apply NoDup_singleton]. intros X. apply elem_of_list_singleton in X. discriminate X.
  - constructor; [|constructor; [|constructor]]; right; vm_compute; repeat split; eexists; reflexivity.
Qed.
Example ex_accepted : exists d s' root t, load fl13 rad13 "icon" 1 e13 s13 = (Ok d, s') /\ ld_root d = Some root /\ meaning fl13 rad13 e13 = Some t /\ view (heap s') root t.
Proof.
  destruct (C73_resolvable_accepted fl13 rad13 "icon" 1 e13 s13 s13_reach s13_named s13_sha s13_clk ex_resolvable) as (d & s' & root & t & H1 & H2 & H3 & _ & _ & H6).
  exists d, s', root, t. exact (conj H1 (conj H2 (conj H3 H6))).
Qed.
(** ... and a joint that comes before its links is not *)
Example ex_unresolvable : ~ resolvable fl13 rad13 (mkEntity "robot" [EiParams [("len", "1")]; EiKin "chassis" [KiJoint axle13; KiLink base13; KiLink wheel13]]).
Proof.
  vm_compute. intros (_ & ((_ & F) & _) & _). apply Forall_cons in F as [[F|(_ & _ & sub & F)] _]; [discriminate F|]. vm_compute in F. discriminate F.
Qed.
