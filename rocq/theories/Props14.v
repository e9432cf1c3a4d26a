(** * Property theorems C69, C70: hypergraph traversals of any depth *)
From Verif Require Import Spec SpecTrav Hierarchy Elements Factory History Traverse Homomorphism SpecHom HTraverse SpecTensor SpecHTrav QHTrav.

(** C69: without a homomorphism; any depth (None: unlimited), norm and visitor *)
Theorem C69_any_depth s start nf mx m X B (v : hvisitor (loc * uid) X B) lim x bs x' : reach s -> kind_of (heap s) start = Some KNode ->
  covers (heap s) start mx m -> (forall r, r ∈ met_rels (heap s) start m -> followable nf (heap s) r) ->
  htrav_work (heap s) start m < lim ->
  feed v (flat_map (rel_calls nf (heap s)) (met_rels (heap s) start m)) x = (Ok bs, x') ->
  h_execute lim ident_uuid nf mx v start s x = (Ok bs, s, x').
Proof. exact (q_C69 s start nf mx m X B v lim x bs x'). Qed.
Print Assumptions C69_any_depth.
(** an exception of the visitor ends the traversal; the graph is as before *)
Theorem C69_visitor_fails s start nf mx m X B (v : hvisitor (loc * uid) X B) lim x ex x' : reach s -> kind_of (heap s) start = Some KNode ->
  covers (heap s) start mx m -> (forall r, r ∈ met_rels (heap s) start m -> followable nf (heap s) r) ->
  htrav_work (heap s) start m < lim ->
  feed v (flat_map (rel_calls nf (heap s)) (met_rels (heap s) start m)) x = (Exn ex, x') ->
  exists s', h_execute lim ident_uuid nf mx v start s x = (Exn ex, s', x') /\ heap s' = heap s.
Proof. exact (q_C69_fails s start nf mx m X B v lim x ex x'). Qed.
Print Assumptions C69_visitor_fails.

(** C70: a cycle, unlimited depth *)
Theorem C70_cycle_fails s start a nf X B (v : hvisitor (loc * uid) X B) lim x : reach s -> kind_of (heap s) start = Some KNode ->
  (leads (heap s) start a \/ start = a) -> leads (heap s) a a ->
  (forall m r, r ∈ met_rels (heap s) start m -> followable nf (heap s) r) -> total v ->
  exists s' x', h_execute lim ident_uuid nf None v start s x = (Exn RecursionError, s', x') /\
    heap s' = heap s /\ fr_hyper s' <> [].
Proof. intros R Hk H1 H2. exact (q_C70 s start nf X B v lim x R Hk (q_cycle _ _ _ H1 H2)). Qed.
Print Assumptions C70_cycle_fails.
