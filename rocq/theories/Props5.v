(** * Property theorems C30, C31: index homomorphism *)
From Verif Require Import Spec SpecTrav Hierarchy Elements Factory History Traverse Homomorphism SpecHom QHom.

(** C30: the indices follow the breadth-first order; [indexes] allows equal uuids *)
Theorem C30_indices_follow_order s cf start : reach s -> exists_in (heap s) start ->
  exists ns es vs,
    bfs_order (hom_trav k_node cf) (heap s) start ns /\
    bfs_order (hom_trav k_edge cf) (heap s) start es /\
    bfs_order (hom_trav k_value cf) (heap s) start vs /\
    forall lim x0, length ns < lim -> length es < lim -> length vs < lim ->
    exists r x, hom_execute lim cf start s x0 = (Ok r, s, x) /\
      all_indexes x (map (uuid_of (heap s)) ns) (map (uuid_of (heap s)) es) (map (uuid_of (heap s)) vs).
Proof. exact (q_C30 s cf start). Qed.
Print Assumptions C30_indices_follow_order.
(** different uuids: bijections *)
Theorem C30_bijective x ns es vs : all_indexes x ns es vs ->
  (NoDup ns -> bijective (hom_node x) (hom_dim x) (cnt_node x)) /\
  (NoDup es -> bijective (hom_edge x) (hom_depth x) (cnt_edges x)) /\
  (NoDup vs -> bijective (hom_val x) (hom_ival x) (cnt_values x)).
Proof. exact (q_C30_bij x ns es vs). Qed.
Print Assumptions C30_bijective.
(** direct sub-elements only: always bijections *)
Theorem C30_direct_children s start lim x0 : reach s -> exists_in (heap s) start ->
  let sub k := map (uuid_of (heap s)) (fkids (is_kind k) (heap s) start) in
  length (children (heap s) start) < lim ->
  exists r x, hom_execute lim (mkHC true (Some 1)) start s x0 = (Ok r, s, x) /\
    all_indexes x (sub k_node) (sub k_edge) (sub k_value) /\
    NoDup (sub k_node) /\ NoDup (sub k_edge) /\ NoDup (sub k_value) /\
    bijective (hom_node x) (hom_dim x) (cnt_node x) /\
    bijective (hom_edge x) (hom_depth x) (cnt_edges x) /\
    bijective (hom_val x) (hom_ival x) (cnt_values x).
Proof. exact (q_C30_depth1 s start lim x0). Qed.
Print Assumptions C30_direct_children.
(** equal uuids: no bijection, an index that no uuid has *)
Theorem C30_equal_uuids_refuted ix at_ cnt us i j u : indexes us ix at_ cnt -> i < j -> us !! i = Some u -> us !! j = Some u ->
  at_ i = Ok u /\ (forall w, ix w <> Ok i) /\ ~ bijective ix at_ cnt.
Proof. exact (q_C30_refuted ix at_ cnt us i j u). Qed.
Print Assumptions C30_equal_uuids_refuted.

(** C31 *)
Theorem C31_forgets_the_past lim cf start s x y : hom_execute lim cf start s x = hom_execute lim cf start s y.
Proof. exact (q_C31 lim cf start s x y). Qed.
Print Assumptions C31_forgets_the_past.
Theorem C31_run_after_run lim cf start lim0 cf0 start0 s x r s' x' : reach s ->
  hom_execute lim0 cf0 start0 s x = (Ok r, s', x') ->
  s' = s /\ hom_execute lim cf start s' x' = hom_execute lim cf start s hom0.
Proof. exact (q_C31_again lim cf start lim0 cf0 start0 s x r s' x'). Qed.
Print Assumptions C31_run_after_run.
Theorem C31_from_pairs ns es vs x : NoDup (map fst ns) -> NoDup (map snd ns) -> NoDup (map fst es) -> NoDup (map snd es) ->
  NoDup (map fst vs) -> NoDup (map snd vs) ->
  let y := reset_from_bijection ns es vs x in
  pairs_hold ns (hom_node y) (hom_dim y) (cnt_node y) /\
  pairs_hold es (hom_edge y) (hom_depth y) (cnt_edges y) /\
  pairs_hold vs (hom_val y) (hom_ival y) (cnt_values y).
Proof. exact (q_C31_pairs ns es vs x). Qed.
Print Assumptions C31_from_pairs.
