(** * Property theorems C40 - C42: element searches *)
From Verif Require Import Spec SpecTrav Hierarchy Elements Factory History Search SpecSearch QSearch QSearch2.

(** C40 *)
Theorem C40_first_in_level_order s start : reach s -> exists_in (heap s) start -> exists ls,
  subtree_order (heap s) start ls /\ NoDup ls /\ (forall x, x ∈ ls <-> within (heap s) start x) /\
  forall d lim, length ls < lim -> exists s' x', search_execute SubElement lim start s (new_searcher d) = (Ok [], s', x') /\ heap s' = heap s /\
    (forall l1 y l2, first_match (heap s) d ls l1 y l2 -> sr_result x' = [y]) /\
    ((forall z, z ∈ ls -> qname_of (heap s) z <> d) -> sr_result x' = [] /\ s' = s).
Proof. exact (q_C40 s start). Qed.
Print Assumptions C40_first_in_level_order.

(** C41: what a successful search leaves in the shared queue *)
Theorem C41_leftover s start ls d lim l1 y l2 : reach s -> exists_in (heap s) start -> subtree_order (heap s) start ls ->
  first_match (heap s) d ls l1 y l2 -> length l1 < lim ->
  exists s' x', search_execute SubElement lim start s (new_searcher d) = (Ok [], s', x') /\ sr_result x' = [y] /\ heap s' = heap s /\
    (exists t, l2 = fr_query s' ++ t) /\
    forall z, z ∈ fr_query s' <-> z ∈ l2 /\ exists p, p ∈ l1 /\ parent_of (heap s) z = Some p.
Proof. exact (q_C41_leftover s start ls d lim l1 y l2). Qed.
Print Assumptions C41_leftover.
(** The next search, by any object of either class and from any start, begins with it. *)
Theorem C41_isolation_refuted s z q k lim start : fr_query s = z :: q -> exists_in (heap s) z ->
  exists x', search_execute k (S lim) start s (new_searcher (qname_of (heap s) z)) = (Ok [], set_fr_query (q ++ [start]) s, x') /\ sr_result x' = [z].
Proof. exact (q_C41_leak s z q k lim start). Qed.
Print Assumptions C41_isolation_refuted.
(** A repeated query returns the cached element in whatever state [s']. *)
Theorem C41_stale_cache_refuted k lim start s x r s1 x1 y k' lim' start' s' :
  search_execute k lim start s x = (Ok r, s1, x1) -> sr_result x1 = [y] ->
  exists x2, search_execute k' lim' start' s' x1 = (Ok [], s', x2) /\ sr_result x2 = [y].
Proof. exact (q_C41_cache k lim start s x r s1 x1 y k' lim' start' s'). Qed.
Print Assumptions C41_stale_cache_refuted.

(** C42 *)
Theorem C42_whole_tree s start d : reach s -> exists_in (heap s) start ->
  exists N s' x', (forall lim, N <= lim -> search_execute WholeTree lim start s (new_searcher d) = (Ok [], s', x')) /\ heap s' = heap s /\
    (sr_result x' = [] \/ exists y, sr_result x' = [y] /\ qname_of (heap s) y = d /\ same_tree (heap s) start y /\ exists_in (heap s) y) /\
    (distinct_uuids (heap s) start -> (exists z, same_tree (heap s) start z /\ exists_in (heap s) z /\ qname_of (heap s) z = d) -> sr_result x' <> []).
Proof. exact (q_C42 s start d). Qed.
Print Assumptions C42_whole_tree.
