(** * Non-vacuity of C98 *)
From Coq Require Import QArith.
From stdpp Require Import relations.
From Verif Require Import Spec SpecTrav Hierarchy Elements Factory History Traverse Homomorphism HTraverse Tensor SpecTensor SpecEntropy SpecIso SpecPad ExBase Ex1 Ex6 Ex30 Ex31 Ex32 Ex33 Props6 Props35.
Local Open Scope nat_scope.

(** s_dir (n0 -> n1, n0 -> n2) with another node, created before the others *)
Definition s35 : st := run ([OGenNode fac "n" None; OGenNode fac "x" (Some 0); OGenNode fac "n0" (Some 0); OGenNode fac "n1" (Some 0); OGenNode fac "n2" (Some 0);
  OHyperedge fac 0 "e12"; OUnary 5 2 WNone INWARDS None; OUnary 5 3 WNone OUTWARDS None;
  OHyperedge fac 0 "e23"; OUnary 10 2 WNone INWARDS None; OUnary 10 4 WNone OUTWARDS None]) s0.
Lemma s35_reach : reach s35.
Proof. apply run_reach; [apply reach_init|]. vm_compute. reflexivity. Qed.
Lemma s35_hyp : closed_graph (heap s35) 0 /\ unweighted (heap s35) 0 /\ work (heap s35) 0 < 100.
Proof. split; [apply closedb_ok; vm_compute; reflexivity|]. split; [apply unwb_ok; vm_compute; reflexivity|]. apply Nat.ltb_lt. vm_compute. reflexivity. Qed.
Lemma s35_lists : nodes_of (heap s35) 0 = [1; 2; 3; 4] /\ edges_of (heap s35) 0 = [5; 10] /\ nodes_of (heap s_dir) 0 = [1; 2; 3] /\ edges_of (heap s_dir) 0 = [4; 9].
Proof. split; [|split; [|split]]; vm_compute; reflexivity. Qed.
Lemma untouchedb_ok h c a : touchedb h c a = false -> untouched h c a.
Proof.
  intros K e b He. unfold touchedb in K.
  assert (X : forall b, b ∈ endpoints h e -> adjacentb h e a b = false /\ adjacentb h e b a = false).
  { intros b' Hb. apply orb_false_iff. destruct (adjacentb h e a b' || adjacentb h e b' a) eqn:Y; [|reflexivity].
    exfalso. assert (Z : existsb (fun e => existsb (fun b => adjacentb h e a b || adjacentb h e b a) (endpoints h e)) (edges_of h c) = true); [|rewrite Z in K; discriminate K].
    apply existsb_exists. exists e. split; [apply elem_of_list_In; exact He|]. apply existsb_exists. exists b'. split; [apply elem_of_list_In; exact Hb|exact Y]. }
  split; intros Y.
  - pose proof Y as (_ & _ & Hb & _). apply X in Hb as [Hb _]. apply adjacentb_ok in Y. rewrite Y in Hb. discriminate Hb.
  - pose proof Y as (_ & Hb & _). apply X in Hb as [_ Hb]. apply adjacentb_ok in Y. rewrite Y in Hb. discriminate Hb.
Qed.
Lemma un35 : untouched (heap s35) 0 1.
Proof. apply untouchedb_ok. vm_compute. reflexivity. Qed.
Lemma perm35 (a b c d : loc) : Permutation ([b; c; d] ++ [a]) [a; b; c; d].
Proof. exact (Permutation_app_comm [b; c; d] [a]). Qed.
Lemma padded35 : padded (heap s_dir) 0 (heap s35) 0 S (fun e => if e =? 4 then 5 else 10) [1].
Proof.
  destruct s35_lists as (E1 & E2 & E3 & E4). constructor.
  - rewrite E1, E3. exact (perm35 1 2 3 4).
  - rewrite E2, E4. exact (Permutation_refl [5; 10]).
  - apply adjsb_ok. vm_compute. reflexivity.
  - intros a Ha. apply elem_of_list_singleton in Ha. rewrite Ha. exact un35.
Qed.
Example pad35 sq lg : exists x T x' T', computes 100 0 s_dir x T /\ computes 100 0 s35 x' T' /\
  degree_matrix T' 1 = degree_matrix T 0 /\ degree_matrix T' 0 = 0%Qc /\ total_deg T' = total_deg T /\ entropy sq lg T' = entropy sq lg T /\
  (exists q, entropy_projected eigs_z lg T = Value (Some q)) /\ (total_deg T' <> 0%Qc -> entropy_projected eigs_z lg T' = Value None).
Proof.
  destruct s_dir_hyp as (C & U & Hl). destruct s35_hyp as (C' & U' & Hl'). destruct s35_lists as (E1 & E2 & E3 & E4).
  destruct (dir32 lg) as (x & T & HC & Hq & _).
  destruct (computed s35 0 100 s35_reach C' Hl') as (x' & T' & HC'); [rewrite E2; discriminate|].
  exists x, T, x', T'. split; [exact HC|]. split; [exact HC'|].
  destruct (C98_same s_dir 0 100 x T s35 0 100 x' T' S _ [1] s_dir_reach C Hl HC U s35_reach C' Hl' HC' U' padded35) as (H1 & H2 & H3 & H4).
  split; [apply (H1 0 1 1); [rewrite E3; reflexivity|rewrite E1; reflexivity]|].
  split; [apply (H2 0 1); [left|rewrite E1; reflexivity]|]. split; [exact H3|]. split; [exact (H4 sq lg)|]. split; [exact Hq|].
  apply (C98_projected s35 0 100 x' T' eigs_z lg 1 s35_reach C' Hl' HC' U' eigs_z_ok); [rewrite E1; left|exact un35].
Qed.
