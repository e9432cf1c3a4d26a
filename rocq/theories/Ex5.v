(** * Non-vacuity of C30, C31 *)
From Verif Require Import Spec SpecTrav Hierarchy Elements Factory History Traverse Homomorphism SpecHom ExBase Ex1 Props5.

Definition run5 (cf : homconf) (start : loc) (s : st) := hom_execute 50 cf start s hom0.
(** direct sub-elements of the root of [s1]: nodes 1, 2 and edge 5 *)
Example c30_direct : let x := (run5 (mkHC true (Some 1)) 0 s1).2 in
  cnt_node x = 2 /\ cnt_edges x = 1 /\ cnt_values x = 0 /\
  hom_dim x 1 = Ok (uuid_of (heap s1) 2) /\ hom_node x (uuid_of (heap s1) 2) = Ok 1 /\
  hom_edge x (uuid_of (heap s1) 5) = Ok 0 /\ hom_node x (uuid_of (heap s1) 3) = Exn KeyError.
Proof. vm_compute. repeat split. Qed.
(** whole graph with the root *)
Example c30_all : let x := (run5 (mkHC false None) 0 s1).2 in
  cnt_node x = 5 /\ map (hom_dim x) [0; 1; 2; 3; 4] = map (fun l => Ok (uuid_of (heap s1) l)) [0; 1; 2; 3; 4].
Proof. vm_compute. repeat split. Qed.
(** two nodes with the uuid "u" in different containers *)
Definition dup : st := run [ONew KNode "r" "r" "r" (Some 0) None; ONew KNode "a" "a" "a" (Some 0) (Some 0);
  ONew KNode "x" "u" "x" (Some 0) (Some 0); ONew KNode "y" "u" "y" (Some 0) (Some 1)] s0.
Lemma dup_reach : reach dup.
Proof. apply run_reach; [apply reach_init|]. vm_compute. reflexivity. Qed.
Example c30_dup : let x := (run5 (mkHC true None) 0 dup).2 in
  map (hom_dim x) [0; 1; 2] = [Ok "a"; Ok "u"; Ok "u"] /\ hom_node x "u" = Ok 2.
Proof. vm_compute. repeat split. Qed.
(** the refutation is about a reachable state *)
Theorem C30_deep_refuted : exists s start r s' x, reach s /\ run5 (mkHC true None) start s = (Ok r, s', x) /\
  ~ bijective (hom_node x) (hom_dim x) (cnt_node x).
Proof.
  exists dup, 0, [tt; tt; tt], dup, (run5 (mkHC true None) 0 dup).2. split; [apply dup_reach|]. split; [vm_compute; reflexivity|].
  intros [H _]. assert (A : hom_dim (run5 (mkHC true None) 0 dup).2 1 = Ok "u") by (vm_compute; reflexivity).
  apply H in A. assert (B : hom_node (run5 (mkHC true None) 0 dup).2 "u" = Ok 2) by (vm_compute; reflexivity).
  rewrite B in A. discriminate A.
Qed.
Print Assumptions C30_deep_refuted.
Example c31_pairs : let y := reset_from_bijection [("a", 1); ("b", 0)] [] [("v", 7)] hom0 in
  hom_node y "a" = Ok 1 /\ hom_dim y 0 = Ok "b" /\ hom_ival y 7 = Ok "v" /\ cnt_node y = 2.
Proof. vm_compute. repeat split. Qed.
