(** * Non-vacuity of C94 *)
From stdpp Require Import relations.
From Verif Require Import Spec SpecTrav Hierarchy Elements Factory History Traverse Homomorphism HTraverse Tensor SpecTensor SpecLap ExBase Ex1 Ex6 Ex30 Props6 Props31.
Local Open Scope nat_scope.

Lemma hyp31 : (unweighted (heap s30) 0 /\ undirected (heap s30) 0) /\ (unweighted (heap s30b) 0 /\ undirected (heap s30b) 0).
Proof. split; (split; [apply unwb_ok; vm_compute; reflexivity|apply undb_ok; vm_compute; reflexivity]). Qed.
Lemma edge31 : edges_of (heap s30) 0 = [4] /\ edges_of (heap s30b) 0 = [e2].
Proof. split; vm_compute; reflexivity. Qed.
Lemma arity31 : arity (heap s30) 4 = 3 /\ arity (heap s30b) e2 = 2.
Proof. split; vm_compute; reflexivity. Qed.
Lemma computed s c lim : reach s -> closed_graph (heap s) c -> work (heap s) c < lim -> edges_of (heap s) c <> [] -> exists x T, computes lim c s x T.
Proof.
  intros R C L N. destruct (C32_succeeds s c lim R C L) as (tasks & x & [T|] & E & Hn).
  - exists x, T, tasks, s. exact E.
  - destruct (proj1 Hn eq_refl) as [_ H]. contradiction.
Qed.
(** an edge with three endpoints: not semidefinite; with two: it is *)
Lemma one_edge s c lim e : reach s -> closed_graph (heap s) c -> work (heap s) c < lim -> unweighted (heap s) c -> undirected (heap s) c -> edges_of (heap s) c = [e] ->
  exists x T L, computes lim c s x T /\ laplacian T = Ok L /\ (arity (heap s) e <= 2 -> semidefinite (te_n T) (projected_laplacian T)) /\
    (2 < arity (heap s) e -> ~ semidefinite (te_n T) (projected_laplacian T)) /\ (2 <= arity (heap s) e -> ~ semidefinite (te_n T) (L 0)).
Proof.
  intros R C Hl U V He. assert (N : edges_of (heap s) c <> []) by (rewrite He; discriminate).
  destruct (computed s c lim R C Hl N) as (x & T & HC). destruct (C94_tensor_refuted s c lim x T R C Hl HC U V N) as (L & HL & K). exists x, T, L.
  pose proof (C94_semidefinite_iff s c lim x T R C Hl HC U V) as I. split; [exact HC|]. split; [exact HL|]. split; [|split].
  - intros H. apply I. intros e' He'. rewrite He in He'. apply elem_of_list_singleton in He' as ->. exact H.
  - intros H X. pose proof (proj1 I X e ltac:(rewrite He; left)). lia.
  - intros H. apply (K 0 e); [rewrite He; reflexivity|exact H].
Qed.
Example laplacian30 : exists x T L, computes 100 0 s30 x T /\ laplacian T = Ok L /\ ~ semidefinite (te_n T) (projected_laplacian T) /\ ~ semidefinite (te_n T) (L 0).
Proof.
  destruct hyp30 as (C & Hl & _). destruct hyp31 as [[U V] _].
  destruct (one_edge s30 0 100 4 s30_reach C Hl U V (proj1 edge31)) as (x & T & L & HC & HL & _ & H2 & H3). rewrite (proj1 arity31) in H2, H3.
  exists x, T, L. split; [exact HC|]. split; [exact HL|]. split; [exact (H2 (le_n 3))|exact (H3 (le_S _ _ (le_n 2)))].
Qed.
Example laplacian30b : exists x T L, computes 100 0 s30b x T /\ laplacian T = Ok L /\ semidefinite (te_n T) (projected_laplacian T) /\ ~ semidefinite (te_n T) (L 0) /\
  qform (te_n T) (projected_laplacian T) (fun _ => 1%Qc) = 0%Qc.
Proof.
  destruct hyp30b as (C & Hl & _). destruct hyp31 as [_ [U V]].
  destruct (one_edge s30b 0 100 e2 s30b_reach C Hl U V (proj2 edge31)) as (x & T & L & HC & HL & H1 & _ & H3). rewrite (proj2 arity31) in H1, H3.
  exists x, T, L. split; [exact HC|]. split; [exact HL|]. split; [exact (H1 (le_n 2))|]. split; [exact (H3 (le_n 2))|].
  apply (C94_kernel s30b 0 100 x T (fun _ => 1%Qc) s30b_reach C Hl HC U V); [|unfold constant_on_edges; intros; exact eq_refl].
  intros e He. rewrite (proj2 edge31) in He. apply elem_of_list_singleton in He as ->. rewrite (proj2 arity31). exact (le_n 2).
Qed.
