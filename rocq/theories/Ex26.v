(** * Non-vacuity of C88: an accepted robot, and three that are not *)
From stdpp Require Import relations.
From Verif Require Import Spec Hierarchy Elements Factory History CogniLang PReach ExBase Ex1 Props13 Ex13 Ex16 Props26 SpecCogni SpecBound.
Local Open Scope nat_scope.

Example ex_bound : bound fl13 rad13 e13.
Proof. exact (C88_accepted_bound fl13 rad13 "icon" 1 e13 s13 d13 (snd out13) s13_reach s13_named load13). Qed.

Definition robot26 (its : list kitem) : centity := mkEntity "robot" [EiParams [("len", "1")]; EiKin "chassis" its].
(** a joint before its links *)
Example ex_early : exists ex s', load fl13 rad13 "icon" 1 (robot26 [KiJoint axle13; KiLink base13; KiLink wheel13]) s13 = (Exn ex, s').
Proof.
  apply (C88_dangling_rejected fl13 rad13 "icon" 1 _ s13 s13_reach s13_named). vm_compute. intros (_ & ((_ & F) & _) & _).
  apply Forall_cons in F as [[F|[F|(t & F & _)]] _]; vm_compute in F; discriminate F.
Qed.
(** a joint that leads to the same link twice *)
Definition loop26 : cjoint := mkJoint "loop" [mkCrel "fix" "<-" "base" None None; mkCrel "fix" "->" "base" None None].
Example ex_twice : exists ex s', load fl13 rad13 "icon" 1 (robot26 [KiLink base13; KiJoint loop26]) s13 = (Exn ex, s').
Proof.
  apply (C88_dangling_rejected fl13 rad13 "icon" 1 _ s13 s13_reach s13_named). vm_compute. intros (_ & (_ & (N & _) & _) & _).
  apply NoDup_cons in N as [N _]. apply N. apply elem_of_list_here.
Qed.
(** a geometry that refers to a part of a later link *)
Example ex_later : exists ex s', load fl13 rad13 "icon" 1 (robot26 [KiLink wheel13; KiLink base13]) s13 = (Exn ex, s').
Proof.
  apply (C88_dangling_rejected fl13 rad13 "icon" 1 _ s13 s13_reach s13_named). vm_compute. intros (_ & (([F|(nm & F & _)] & _) & _) & _).
  - inversion F.
  - discriminate F.
Qed.
(** the robot is plain: its joint refers to "base" and "wheel" *)
Example ex_plainly : plainly e13.
Proof.
  vm_compute. constructor; [|constructor].
  constructor; [|constructor; [|constructor]]; right; (split; [reflexivity|]); (split; [reflexivity|]); (split; [intros X; apply elem_of_list_singleton in X; discriminate X|]); intros t X; vm_compute in X; discriminate X.
Qed.
Example ex_exactly : (exists d s', load fl13 rad13 "icon" 1 e13 s13 = (Ok d, s')) <-> resolvable fl13 rad13 e13.
Proof. exact (C88_exactly_resolvable fl13 rad13 "icon" 1 e13 s13 s13_reach s13_named s13_sha s13_clk ex_plainly). Qed.
