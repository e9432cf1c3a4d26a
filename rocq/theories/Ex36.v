(** * Non-vacuity of C99 *)
From Coq Require Import QArith.
From stdpp Require Import relations.
From Verif Require Import Spec SpecTrav Hierarchy Elements Factory History Traverse Homomorphism HTraverse Tensor SpecTensor SpecWeight SpecEntropy SpecIso SpecHand ExBase Ex1 Ex6 Ex30 Ex31 Ex32 Ex34 Props6 Props36.
Local Open Scope nat_scope.

(** Three endpoints with the last amount 7 *)
Lemma numbers36 : this (qsum_list (map (fun e => (qnat (arity (heap s_w) e) * edge_amount (heap s_w) e)%Qc) (connecting (heap s_w) 0))) = 21%Q /\ edges_of (heap s_w) 0 = [7].
Proof. split; vm_compute; reflexivity. Qed.
Lemma this_eq (a b : Qc) q : a = b -> this b = q -> this a = q.
Proof. intros ->. exact id. Qed.
Example weighted36 : exists x T, computes 100 0 s_w x T /\ this (total_deg T) = 21%Q.
Proof.
  destruct s_w_hyp as (C & Hl). destruct numbers36 as (N & E).
  assert (NE : edges_of (heap s_w) 0 <> []) by (intros Y; rewrite Y in E; discriminate E).
  destruct (computed s_w 0 100 s_w_reach C Hl NE) as (x & T & HC). exists x, T. split; [exact HC|].
  exact (this_eq _ _ _ (proj1 (C99_undirected s_w 0 100 x T s_w_reach C Hl HC s_w_und)) N).
Qed.
(** One edge with three endpoints *)
Example plain36 : exists x T, computes 100 0 s30 x T /\ total_deg T = qnat 3.
Proof.
  destruct hyp30 as (C & Hl & _). destruct hyp31 as [[U V] _]. destruct edge31 as [E _].
  destruct (computed s30 0 100 s30_reach C Hl) as (x & T & HC); [rewrite E; discriminate|]. exists x, T. split; [exact HC|].
  assert (N : sum_list_with (arity (heap s30)) (connecting (heap s30) 0) = 3) by (vm_compute; reflexivity).
  exact (eq_trans (proj2 (C99_undirected s30 0 100 x T s30_reach C Hl HC V) U) (f_equal qnat N)).
Qed.
(** n0 -> n1, n0 -> n2 *)
Definition one_wayb (h : list obj) (c : loc) : bool :=
  forallb (fun e => forallb (fun a => negb (existsb (fun b => adjacentb h e a b) (endpoints h e)) || negb (existsb (fun b => adjacentb h e b a) (endpoints h e))) (endpoints h e)) (edges_of h c).
Lemma one_wayb_ok h c : one_wayb h c = true -> one_way h c.
Proof.
  intros K e a b b' He X Y. pose proof X as (_ & Ha & Hb & _). pose proof Y as (_ & Hb' & _).
  unfold one_wayb in K. rewrite forallb_forall in K. specialize (K e (proj1 (elem_of_list_In _ _) He)).
  rewrite forallb_forall in K. specialize (K a (proj1 (elem_of_list_In _ _) Ha)).
  apply orb_true_iff in K. destruct K as [K|K]; apply negb_true_iff in K.
  - assert (Z : existsb (fun b => adjacentb h e a b) (endpoints h e) = true); [|rewrite Z in K; discriminate K].
    apply existsb_exists. exists b. split; [apply elem_of_list_In; exact Hb|apply adjacentb_ok; exact X].
  - assert (Z : existsb (fun b => adjacentb h e b a) (endpoints h e) = true); [|rewrite Z in K; discriminate K].
    apply existsb_exists. exists b'. split; [apply elem_of_list_In; exact Hb'|apply adjacentb_ok; exact Y].
Qed.
Example directed36 : exists x T, computes 100 0 s_dir x T /\ total_deg T = qnat 4 /\ degree_matrix T 0 = qnat 2.
Proof.
  destruct s_dir_hyp as (C & U & Hl). assert (O : one_way (heap s_dir) 0) by (apply one_wayb_ok; vm_compute; reflexivity).
  assert (X : nodes_of (heap s_dir) 0 = [1; 2; 3]) by (vm_compute; reflexivity). assert (E : edges_of (heap s_dir) 0 = [4; 9]) by (vm_compute; reflexivity).
  destruct (computed s_dir 0 100 s_dir_reach C Hl) as (x & T & HC); [rewrite E; discriminate|]. exists x, T. split; [exact HC|].
  destruct (C99_directed s_dir 0 100 x T s_dir_reach C Hl HC U O) as [H1 H2]. split.
  - assert (N : sum_list_with (fun e => length (sources (heap s_dir) 0 e) + length (sinks (heap s_dir) 0 e)) (edges_of (heap s_dir) 0) = 4) by (vm_compute; reflexivity).
    exact (eq_trans H2 (f_equal qnat N)).
  - assert (N : leaving (heap s_dir) 0 1 + entering (heap s_dir) 0 1 = 2) by (vm_compute; reflexivity).
    assert (X0 : nodes_of (heap s_dir) 0 !! 0 = Some 1) by (rewrite X; reflexivity).
    exact (eq_trans (H1 0 1 X0) (f_equal qnat N)).
Qed.
