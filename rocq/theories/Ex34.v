(** * Non-vacuity of C97 *)
From Coq Require Import QArith.
From stdpp Require Import relations.
From Verif Require Import Spec SpecTrav Hierarchy Elements Factory History Traverse Homomorphism HTraverse Tensor SpecTensor SpecWeight ExBase Ex1 Ex6 Ex30 Ex31 Ex32 Props6 Props34.
Local Open Scope nat_scope.

(** n0 - n1 - n2, with the amounts 7 and 5 *)
Definition s34 : st := run (three ++ [OCreateValue fac None "v" (Some [PNum (Q2Qc (inject_Z 2)); PNum (Q2Qc (inject_Z 3))]); OCreateValue fac None "w" (Some [PNum (Q2Qc (inject_Z 7))]);
  OConnectNodes fac 0 "e" [1; 2] BIDIRECTIONAL (Some [WVal 4; WVal 5]); OConnectNodes fac 0 "f" [2; 3] BIDIRECTIONAL (Some [WVal 4; WVal 4])]) s0.
Lemma s34_reach : reach s34.
Proof. apply run_reach; [apply reach_init|]. vm_compute. reflexivity. Qed.
Lemma s34_hyp : closed_graph (heap s34) 0 /\ undirected (heap s34) 0 /\ work (heap s34) 0 < 100.
Proof. split; [apply closedb_ok; vm_compute; reflexivity|]. split; [apply undb_ok; vm_compute; reflexivity|]. apply Nat.ltb_lt. vm_compute. reflexivity. Qed.
Lemma s34_edges : forallb (fun e => (arity (heap s34) e <=? 2) && (if Qclt_le_dec 0 (edge_amount (heap s34) e) then true else false)) (edges_of (heap s34) 0) = true /\
  map (fun e => this (edge_amount (heap s34) e)) (edges_of (heap s34) 0) = [7; 5]%Q /\ nodes_of (heap s34) 0 = [1; 2; 3].
Proof. split; [|split]; vm_compute; reflexivity. Qed.
Lemma edges_ok h c : forallb (fun e => (arity h e <=? 2) && (if Qclt_le_dec 0 (edge_amount h e) then true else false)) (edges_of h c) = true ->
  (forall e, e ∈ edges_of h c -> arity h e <= 2) /\ (forall e, e ∈ edges_of h c -> (0 < edge_amount h e)%Qc).
Proof.
  intros H. rewrite forallb_forall in H. split; intros e He; specialize (H e (proj1 (elem_of_list_In _ _) He)); apply andb_true_iff in H as [H1 H2].
  - apply Nat.leb_le. exact H1.
  - destruct (Qclt_le_dec 0 (edge_amount h e)) as [K|K]; [exact K|discriminate H2].
Qed.
Example weights34 lg : exists x T, computes 100 0 s34 x T /\ (forall i, i < te_n T -> qsum (te_n T) (projected_laplacian T i) = 0%Qc) /\
  semidefinite (te_n T) (projected_laplacian T) /\ qform (te_n T) (projected_laplacian T) (fun _ => 1%Qc) = 0%Qc /\
  forall q, entropy_projected eigs_z lg T <> Value (Some q).
Proof.
  destruct s34_hyp as (C & V & Hl). destruct s34_edges as (E1 & E2 & X). apply edges_ok in E1 as [E1 E3].
  assert (N : edges_of (heap s34) 0 <> []) by (intros Y; rewrite Y in E2; discriminate E2).
  destruct (computed s34 0 100 s34_reach C Hl N) as (x & T & HC).
  destruct (C97_graph s34 0 100 x T s34_reach C Hl HC V E1) as (H1 & H2 & H3 & H4). exists x, T. split; [exact HC|]. split; [exact H1|].
  split; [apply H2; intros e He; apply Qclt_le_weak, E3, He|]. split; [apply (H3 E3); unfold constant_on_edges; intros; exact eq_refl|].
  intros q. apply H4; [rewrite X; discriminate|exact eigs_z_ok].
Qed.
(** Three endpoints with the amounts 5, 7 and 0: all degrees are 7, the entries of n0 add up to 12 *)
Lemma s_w_und : undirected (heap s_w) 0.
Proof. apply undb_ok. vm_compute. reflexivity. Qed.
Definition entry (h : list obj) (e a b : loc) : Q := this (if decide (connects h e a b) then pair_amount h e a b else 0%Qc).
Lemma numbers34 : map (fun a => this (qsum_list (map (edge_amount (heap s_w)) (proper_edges (heap s_w) 0 a)))) (nodes_of (heap s_w) 0) = [7; 7; 7]%Q /\
  edges_of (heap s_w) 0 = [7] /\ nodes_of (heap s_w) 0 = [1; 2; 3] /\
  map (entry (heap s_w) 7 1) (nodes_of (heap s_w) 0) = [0; 7; 5]%Q.
Proof. split; [|split; [|split]]; vm_compute; reflexivity. Qed.
Lemma read3 (n : list loc) a b d (A : nat -> Qc) (f : loc -> Qc) : (forall i x, n !! i = Some x -> A i = f x) -> n = [a; b; d] ->
  map (fun i => this (A i)) [0; 1; 2] = map (fun x => this (f x)) n.
Proof. intros K E. subst n. cbn [map]. rewrite (K 0 a eq_refl), (K 1 b eq_refl), (K 2 d eq_refl). reflexivity. Qed.
Lemma reade (n : list loc) (h : list obj) e c a b d (A : nat -> Qc) :
  (forall j x, n !! j = Some x -> A j = if decide (connects h e c x) then pair_amount h e c x else 0%Qc) -> n = [a; b; d] ->
  map (fun i => this (A i)) [0; 1; 2] = map (entry h e c) n.
Proof. intros K E. subst n. unfold entry. cbn [map]. rewrite (K 0 a eq_refl), (K 1 b eq_refl), (K 2 d eq_refl). reflexivity. Qed.
Lemma first_of {A} (l : list A) a b d : l = [a; b; d] -> l !! 0 = Some a.
Proof. intros ->. reflexivity. Qed.
Lemma only_of {A} (l : list A) a : l = [a] -> l !! 0 = Some a.
Proof. intros ->. reflexivity. Qed.
Example degrees34 : exists x T, computes 100 0 s_w x T /\ map (fun i => this (degree_matrix T i)) [0; 1; 2] = [7; 7; 7]%Q /\ map (fun j => this (te_W T 0 0 j)) [0; 1; 2] = [0; 7; 5]%Q.
Proof.
  destruct s_w_hyp as (C & Hl). destruct numbers34 as (N1 & E & X & N2).
  assert (NE : edges_of (heap s_w) 0 <> []) by (intros Y; rewrite Y in E; discriminate E).
  destruct (computed s_w 0 100 s_w_reach C Hl NE) as (x & T & HC). exists x, T. split; [exact HC|]. split.
  - refine (eq_trans (read3 _ 1 2 3 _ (fun a => qsum_list (map (edge_amount (heap s_w)) (proper_edges (heap s_w) 0 a))) _ X) N1).
    intros i a Hi. exact (C97_degree s_w 0 100 x T i a s_w_reach C Hl HC s_w_und Hi).
  - destruct (C97_entries s_w 0 100 x T s_w_reach C Hl HC s_w_und) as (K & _).
    refine (eq_trans (reade _ (heap s_w) 7 1 1 2 3 _ _ X) N2).
    intros j b Hj. exact (K 0 7 0 1 j b (only_of _ _ E) (first_of _ _ _ _ X) Hj).
Qed.
