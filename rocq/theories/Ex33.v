(** * Non-vacuity of C96 *)
From Coq Require Import QArith.
From stdpp Require Import relations.
From Verif Require Import Spec SpecTrav Hierarchy Elements Factory History Traverse Homomorphism HTraverse Tensor SpecTensor SpecEntropy SpecIso ExBase Ex1 Ex6 Ex30 Ex31 Ex32 Props6 Props33.
Local Open Scope nat_scope.

(** n0 -> n1, n0 -> n2 (s_dir), and n2 -> n1, n2 -> n0, with edges and relations in another order *)
Definition s33 : st := run (three ++ [OHyperedge fac 0 "x"; OUnary 4 2 WNone OUTWARDS None; OUnary 4 3 WNone INWARDS None;
  OHyperedge fac 0 "y"; OUnary 9 1 WNone OUTWARDS None; OUnary 9 3 WNone INWARDS None]) s0.
Lemma s33_reach : reach s33.
Proof. apply run_reach; [apply reach_init|]. vm_compute. reflexivity. Qed.
Lemma s33_hyp : closed_graph (heap s33) 0 /\ unweighted (heap s33) 0 /\ work (heap s33) 0 < 100.
Proof. split; [apply closedb_ok; vm_compute; reflexivity|]. split; [apply unwb_ok; vm_compute; reflexivity|]. apply Nat.ltb_lt. vm_compute. reflexivity. Qed.
Definition f33 (a : loc) : loc := match a with 1 => 3 | 2 => 1 | _ => 2 end.
Definition g33 (e : loc) : loc := match e with 4 => 9 | _ => 4 end.
Definition adjsb (h : list obj) (c : loc) (h' : list obj) (f g : loc -> loc) : bool :=
  forallb (fun e => forallb (fun a => forallb (fun b => eqb (adjacentb h e a b) (adjacentb h' (g e) (f a) (f b))) (nodes_of h c)) (nodes_of h c)) (edges_of h c).
Lemma adjsb_ok h c h' f g : adjsb h c h' f g = true -> forall e a b, e ∈ edges_of h c -> a ∈ nodes_of h c -> b ∈ nodes_of h c -> adjacent h e a b <-> adjacent h' (g e) (f a) (f b).
Proof.
  intros H e a b He Ha Hb. unfold adjsb in H. rewrite forallb_forall in H. specialize (H e (proj1 (elem_of_list_In _ _) He)).
  rewrite forallb_forall in H. specialize (H a (proj1 (elem_of_list_In _ _) Ha)). rewrite forallb_forall in H. specialize (H b (proj1 (elem_of_list_In _ _) Hb)).
  apply eqb_prop in H. rewrite <- (adjacentb_ok h), <- (adjacentb_ok h'), H. reflexivity.
Qed.
Lemma rot (a b c : loc) : Permutation [c; a; b] [a; b; c].
Proof. exact (Permutation_app_comm [c] [a; b]). Qed.
Lemma iso33 : isomorphic (heap s_dir) 0 (heap s33) 0 f33 g33.
Proof.
  constructor.
  - assert (E : map f33 (nodes_of (heap s_dir) 0) = [3; 1; 2] /\ nodes_of (heap s33) 0 = [1; 2; 3]) by (split; vm_compute; reflexivity).
    destruct E as [E1 E2]. rewrite E1, E2. exact (rot 1 2 3).
  - assert (E : map g33 (edges_of (heap s_dir) 0) = [9; 4] /\ edges_of (heap s33) 0 = [4; 9]) by (split; vm_compute; reflexivity).
    destruct E as [E1 E2]. rewrite E1, E2. exact (perm_swap 4 9 []).
  - apply adjsb_ok. vm_compute. reflexivity.
Qed.
Lemma eigs_d_orderless : orderless eigs_d.
Proof.
  intros n M M' p Hp Hi H. unfold eigs_d.
  assert (P : Permutation (map p (seq 0 n)) (seq 0 n)).
  { apply NoDup_Permutation_bis; [|rewrite map_length; apply le_n|].
    - apply NoDup_ListNoDup. apply NoDup_alt. intros i j y E1 E2. rewrite list_lookup_fmap in E1, E2.
      destruct (seq 0 n !! i) as [i'|] eqn:F1; [|discriminate E1]. destruct (seq 0 n !! j) as [j'|] eqn:F2; [|discriminate E2].
      apply lookup_seq in F1 as [F1 L1], F2 as [F2 L2]. cbn in E1, E2. apply Hi; [exact L1|exact L2|]. injection E1 as E1. injection E2 as E2.
      rewrite Nat.add_0_l in F1, F2. rewrite <- F1, <- F2, E1, E2. reflexivity.
    - intros y Hy. apply in_map_iff in Hy as (i & <- & Hy). apply in_seq in Hy. apply in_seq. split; [apply Nat.le_0_l|apply Hp, Hy]. }
  transitivity (map (fun i => M' i i) (map p (seq 0 n))); [apply Permutation_map; symmetry; exact P|]. rewrite map_map.
  assert (E : map (fun i => M' (p i) (p i)) (seq 0 n) = map (fun i => M i i) (seq 0 n)); [|rewrite E; apply Permutation_refl].
  apply map_ext_in. intros i Hn. apply in_seq in Hn. apply H; apply Hn.
Qed.

Example same33 sq lg : exists x T x' T', computes 100 0 s_dir x T /\ computes 100 0 s33 x' T' /\
  total_deg T' = total_deg T /\ entropy sq lg T' = entropy sq lg T /\ entropy_projected eigs_d lg T' = entropy_projected eigs_d lg T /\
  entropy sq lg T = Ok (graph_entropy sq lg (heap s_dir) 0).
Proof.
  destruct s_dir_hyp as (C & U & Hl). destruct s33_hyp as (C' & U' & Hl').
  assert (E : edges_of (heap s_dir) 0 = [4; 9]) by (vm_compute; reflexivity). assert (E' : edges_of (heap s33) 0 = [4; 9]) by (vm_compute; reflexivity).
  destruct (computed s_dir 0 100 s_dir_reach C Hl) as (x & T & HC); [rewrite E; discriminate|].
  destruct (computed s33 0 100 s33_reach C' Hl') as (x' & T' & HC'); [rewrite E'; discriminate|].
  exists x, T, x', T'. split; [exact HC|]. split; [exact HC'|].
  destruct (C96_isomorphic s_dir 0 100 x T s33 0 100 x' T' f33 g33 sq lg s_dir_reach C Hl HC U s33_reach C' Hl' HC' U' iso33) as (H1 & H2 & H3).
  split; [exact H1|]. split; [exact H2|]. split; [exact (H3 eigs_d eigs_d_orderless)|].
  apply (C96_entropy s_dir 0 100 x T sq lg s_dir_reach C Hl HC U). rewrite E. exact (le_n 2).
Qed.
(** n0 has degree 2, the others 1; edge n0 -> n1 enters n1 *)
Lemma numbers33 : map (fun a => this (node_degree (heap s_dir) 0 a)) (nodes_of (heap s_dir) 0) = [2; 1; 1]%Q /\
  map (fun a => this (edge_degree (heap s_dir) 0 4 a)) (nodes_of (heap s_dir) 0) = [0; 1; 0]%Q.
Proof. split; vm_compute; reflexivity. Qed.
Example degrees33 : exists x T L, computes 100 0 s_dir x T /\ map (fun i => this (degree_matrix T i)) [0; 1; 2] = [2; 1; 1]%Q /\ laplacian T = Ok L /\ L 0 0 1 = (- (1))%Qc.
Proof.
  destruct s_dir_hyp as (C & U & Hl).
  assert (E : edges_of (heap s_dir) 0 = [4; 9]) by (vm_compute; reflexivity). assert (X : nodes_of (heap s_dir) 0 = [1; 2; 3]) by (vm_compute; reflexivity).
  destruct (computed s_dir 0 100 s_dir_reach C Hl) as (x & T & HC); [rewrite E; discriminate|].
  destruct (C96_laplacian s_dir 0 100 x T s_dir_reach C Hl HC U) as (L & HL & K); [rewrite E; discriminate|].
  exists x, T, L. split; [exact HC|]. destruct numbers33 as [N _]. rewrite X in N. split; [|split; [exact HL|]].
  - rewrite <- N. cbn [map]. rewrite (C96_degree s_dir 0 100 x T 0 1 s_dir_reach C Hl HC U), (C96_degree s_dir 0 100 x T 1 2 s_dir_reach C Hl HC U), (C96_degree s_dir 0 100 x T 2 3 s_dir_reach C Hl HC U); rewrite ?X; reflexivity.
  - rewrite (K 0 4 0 1 1 2); [|rewrite E; reflexivity|rewrite X; reflexivity|rewrite X; reflexivity].
    assert (A : adjacent (heap s_dir) 4 1 2) by (apply adjacentb_ok; vm_compute; reflexivity).
    destruct (decide (1 = 2)) as [Y|_]; [discriminate Y|]. destruct (decide (adjacent (heap s_dir) 4 1 2)) as [_|Y]; [reflexivity|contradiction].
Qed.
Example undirected33 : node_degree (heap s30) 0 1 = qnat (length (proper_edges (heap s30) 0 1)) /\ edge_degree (heap s30) 0 4 1 = ((qnat (arity (heap s30) 4) - 1) * (1 / (1 + 1)))%Qc.
Proof.
  destruct hyp30 as (C & Hl & _). destruct hyp31 as [[U V] _]. destruct edge31 as [E _].
  destruct (computed s30 0 100 s30_reach C Hl) as (x & T & HC); [rewrite E; discriminate|].
  assert (X : nodes_of (heap s30) 0 = [1; 2; 3]) by (vm_compute; reflexivity).
  destruct (C96_undirected s30 0 100 x T 4 1 s30_reach C Hl HC U V) as [H1 H2]; [rewrite E; left|rewrite X; left|]. split; [exact H1|].
  rewrite H2. destruct (decide _) as [_|Y]; [reflexivity|]. destruct Y. rewrite (proj1 ends30). left.
Qed.
