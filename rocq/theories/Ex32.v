(** * Non-vacuity of C95 *)
From stdpp Require Import relations.
From Verif Require Import Spec SpecTrav Hierarchy Elements Factory History Traverse Homomorphism HTraverse Tensor SpecTensor SpecEntropy QEntropy ExBase Ex1 Ex6 Ex30 Ex31 Props6 Props32.
Local Open Scope nat_scope.

(** Functions with what is asked of the eigenvalues *)
Definition eigs_z (n : nat) (M : nat -> nat -> Qc) : list Qc := if decide (singular n M) then [0%Qc] else [1%Qc].
Lemma eigs_z_ok : finds_zero eigs_z.
Proof.
  intros n M. unfold eigs_z. destruct (decide (singular n M)) as [H|H]; split; intros X.
  - exact H.
  - left.
  - apply elem_of_list_singleton in X. discriminate X.
  - contradiction.
Qed.
Definition eigs_d (n : nat) (M : nat -> nat -> Qc) : list Qc := map (fun i => M i i) (seq 0 n).
Lemma eigs_d_ok : finds_diagonal eigs_d.
Proof. intros n M rank _ _. unfold eigs_d. apply Permutation_refl. Qed.

(** One edge with three endpoints; an edge with two, and an isolated node; n0 -> n1, n0 -> n2 *)
Lemma three30 lg : exists x T q, computes 100 0 s30 x T /\ entropy_projected eigs_z lg T = Value (Some q).
Proof.
  destruct hyp30 as (C & Hl & _). destruct hyp31 as [[U V] _]. destruct edge31 as [E _]. destruct arity31 as [A _].
  destruct (computed s30 0 100 s30_reach C Hl) as (x & T & HC); [rewrite E; discriminate|].
  destruct (C95_hyperedge s30 0 100 x T eigs_z lg 4 s30_reach C Hl HC eigs_z_ok U V E) as [q Hq].
  - assert (X : nodes_of (heap s30) 0 = endpoints (heap s30) 4) by (vm_compute; reflexivity). rewrite X. intros a Ha. exact Ha.
  - rewrite A. exact (le_n 3).
  - exists x, T, q. split; [exact HC|exact Hq].
Qed.
Lemma connects30b : connects (heap s30b) e2 1 2.
Proof.
  destruct ends30 as (_ & _ & E). unfold connects. rewrite E. split; [discriminate|]. split; [left|right; left].
Qed.
Lemma two30b lg : exists x T, computes 100 0 s30b x T /\ entropy_projected eigs_z lg T = Value None.
Proof.
  destruct hyp30b as (C & Hl & _). destruct hyp31 as [_ [U V]]. destruct edge31 as [_ E]. destruct arity31 as [_ A].
  destruct (computed s30b 0 100 s30b_reach C Hl) as (x & T & HC); [rewrite E; discriminate|]. exists x, T. split; [exact HC|].
  apply (C95_graph s30b 0 100 x T eigs_z lg s30b_reach C Hl HC eigs_z_ok U V) with (e := e2) (a := 1) (b := 2).
  - assert (X : nodes_of (heap s30b) 0 = [1; 2; 3]) by (vm_compute; reflexivity). rewrite X. discriminate.
  - intros e He. rewrite E in He. apply elem_of_list_singleton in He as ->. rewrite A. exact (le_n 2).
  - rewrite E. left.
  - exact connects30b.
Qed.
Lemma alone30b : 3 ∈ nodes_of (heap s30b) 0 /\ isolated (heap s30b) 0 3.
Proof.
  assert (X : nodes_of (heap s30b) 0 = [1; 2; 3]) by (vm_compute; reflexivity). destruct ends30 as (_ & E & P). split; [rewrite X; right; right; left|].
  intros e b He (_ & H & _). rewrite E in He. apply elem_of_list_singleton in He as ->. rewrite P in H.
  apply elem_of_cons in H as [H|H]; [discriminate H|]. apply elem_of_list_singleton in H. discriminate H.
Qed.
Lemma alone lg x T q : computes 100 0 s30b x T -> entropy_projected eigs_z lg T <> Value (Some q).
Proof.
  intros HC. destruct hyp30b as (C & Hl & _). destruct alone30b as [H1 H2].
  exact (C95_isolated s30b 0 100 x T eigs_z lg 3 s30b_reach C Hl HC eigs_z_ok H1 H2 q).
Qed.

(** A decision procedure for the edges of a directed graph *)
Definition adjacentb (h : list obj) (e a b : loc) : bool :=
  negb (a =? b) && bool_decide (a ∈ endpoints h e) && bool_decide (b ∈ endpoints h e) &&
  existsb (fun r => (bool_decide (ep_of h r = Some a) && bool_decide (dir_of h r = Some INWARDS \/ dir_of h r = Some BIDIRECTIONAL)) ||
                    (bool_decide (ep_of h r = Some b) && bool_decide (dir_of h r = Some OUTWARDS \/ dir_of h r = Some BIDIRECTIONAL))) (rels_of h e).
Lemma adjacentb_ok h e a b : adjacentb h e a b = true <-> adjacent h e a b.
Proof.
  unfold adjacentb, adjacent, inward, outward. rewrite !andb_true_iff, negb_true_iff, Nat.eqb_neq, !bool_decide_eq_true, existsb_exists.
  split.
  - intros (((H1 & H2) & H3) & r & Hr & H4). split; [exact H1|]. split; [exact H2|]. split; [exact H3|]. exists r. split; [apply elem_of_list_In; exact Hr|].
    apply orb_true_iff in H4. destruct H4 as [H4|H4]; apply andb_true_iff in H4; destruct H4 as [H4 H5]; apply bool_decide_eq_true in H4, H5; [left|right]; split; assumption.
  - intros (H1 & H2 & H3 & r & Hr & H4). split; [split; [split; assumption|exact H3]|]. exists r. split; [apply elem_of_list_In; exact Hr|].
    apply orb_true_iff. destruct H4 as [[H4 H5]|[H4 H5]]; [left|right]; apply andb_true_iff; split; apply bool_decide_eq_true; assumption.
Qed.
Definition acyclicb (h : list obj) (c : loc) (rank : loc -> nat) : bool :=
  forallb (fun e => forallb (fun a => forallb (fun b => negb (adjacentb h e a b) || (rank a <? rank b)) (endpoints h e)) (endpoints h e)) (edges_of h c).
Lemma acyclicb_ok h c rank : acyclicb h c rank = true -> acyclic h c rank.
Proof.
  intros H e a b He X. pose proof X as (_ & Ha & Hb & _). unfold acyclicb in H. rewrite forallb_forall in H. specialize (H e (proj1 (elem_of_list_In _ _) He)).
  rewrite forallb_forall in H. specialize (H a (proj1 (elem_of_list_In _ _) Ha)). rewrite forallb_forall in H. specialize (H b (proj1 (elem_of_list_In _ _) Hb)).
  apply adjacentb_ok in X. rewrite X in H. apply Nat.ltb_lt. exact H.
Qed.
Definition touchedb (h : list obj) (c a : loc) : bool :=
  existsb (fun e => existsb (fun b => adjacentb h e a b || adjacentb h e b a) (endpoints h e)) (edges_of h c).
Lemma touchedb_ok h c a : touchedb h c a = true -> ~ untouched h c a.
Proof.
  intros H Un. unfold touchedb in H. apply existsb_exists in H as (e & He & H). apply existsb_exists in H as (b & _ & H). apply elem_of_list_In in He.
  destruct (Un e b He) as [U1 U2]. apply orb_true_iff in H. destruct H as [H|H]; apply adjacentb_ok in H; contradiction.
Qed.
Lemma all_touched h c : forallb (touchedb h c) (nodes_of h c) = true -> forall a, a ∈ nodes_of h c -> ~ untouched h c a.
Proof. intros H a Ha. rewrite forallb_forall in H. apply touchedb_ok, H, elem_of_list_In. exact Ha. Qed.

Lemma dir32 lg : exists x T, computes 100 0 s_dir x T /\ (exists q, entropy_projected eigs_z lg T = Value (Some q)) /\
  entropy_projected eigs_d lg T = Value (Some (qsum (te_n T) (fun i => let p := (degree_matrix T i / total_deg T)%Qc in (- p * lg p)%Qc))).
Proof.
  destruct s_dir_hyp as (C & U & Hl). assert (AC : acyclic (heap s_dir) 0 (fun a => a)) by (apply acyclicb_ok; vm_compute; reflexivity).
  assert (TC : forall a, a ∈ nodes_of (heap s_dir) 0 -> ~ untouched (heap s_dir) 0 a) by (apply all_touched; vm_compute; reflexivity).
  assert (X : nodes_of (heap s_dir) 0 = [1; 2; 3]) by (vm_compute; reflexivity). assert (N : nodes_of (heap s_dir) 0 <> []) by (rewrite X; discriminate).
  assert (E : edges_of (heap s_dir) 0 = [4; 9]) by (vm_compute; reflexivity).
  destruct (computed s_dir 0 100 s_dir_reach C Hl) as (x & T & HC); [rewrite E; discriminate|]. exists x, T. split; [exact HC|]. split.
  - apply (C95_acyclic s_dir 0 100 x T eigs_z lg (fun a => a) s_dir_reach C Hl HC eigs_z_ok U AC N). exact TC.
  - exact (C95_shannon s_dir 0 100 x T eigs_d lg (fun a => a) s_dir_reach C Hl HC eigs_d_ok U AC N TC).
Qed.
(** Three nodes and an edge without relations *)
Definition s32 : st := run (three ++ [OHyperedge fac 0 "e"]) s0.
Lemma s32_reach : reach s32.
Proof. apply run_reach; [apply reach_init|]. vm_compute. reflexivity. Qed.
Lemma refused32 lg : exists x T, computes 100 0 s32 x T /\ entropy_projected eigs_z lg T = LinAlgError.
Proof.
  assert (C : closed_graph (heap s32) 0) by (apply closedb_ok; vm_compute; reflexivity).
  assert (Hl : work (heap s32) 0 < 100) by (apply Nat.ltb_lt; vm_compute; reflexivity).
  assert (U : unweighted (heap s32) 0) by (apply unwb_ok; vm_compute; reflexivity).
  assert (X : nodes_of (heap s32) 0 = [1; 2; 3]) by (vm_compute; reflexivity).
  assert (E : edges_of (heap s32) 0 = [4]) by (vm_compute; reflexivity). assert (P : endpoints (heap s32) 4 = []) by (vm_compute; reflexivity).
  destruct (computed s32 0 100 s32_reach C Hl) as (x & T & HC); [rewrite E; discriminate|]. exists x, T. split; [exact HC|].
  apply (C95_refused s32 0 100 x T eigs_z lg s32_reach C Hl HC U); [rewrite X; discriminate|].
  intros e a b He (_ & Ha & _). rewrite E in He. apply elem_of_list_singleton in He as ->. rewrite P in Ha. inversion Ha.
Qed.
(** The outcomes that C95_nan tells apart all occur. *)
Example outcomes32 lg : (exists x T q, computes 100 0 s30 x T /\ entropy_projected eigs_z lg T = Value (Some q)) /\
  (exists x T, computes 100 0 s30b x T /\ entropy_projected eigs_z lg T = Value None /\ singular (te_n T) (projected_laplacian T)) /\
  (exists x T, computes 100 0 s32 x T /\ entropy_projected eigs_z lg T = LinAlgError).
Proof.
  split; [exact (three30 lg)|]. split; [|exact (refused32 lg)]. destruct (two30b lg) as (x & T & HC & H). exists x, T. split; [exact HC|]. split; [exact H|].
  destruct hyp30b as (C & Hl & _). apply (C95_nan s30b 0 100 x T eigs_z lg s30b_reach C Hl HC eigs_z_ok). exact H.
Qed.
