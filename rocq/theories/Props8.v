(** * Property theorems C38, C39, C56: factorisations *)
From stdpp Require Import relations.
From Verif Require Import Spec Hierarchy Elements Factory History SpecTrav SpecTensor Factorization SpecFact QFact4.

(** C38: per selected edge in order, the admissible pairs of its relations in lexicographic order *)
Theorem C38_admissible_pairs b sel s : reach s -> (forall l, l ∈ sel -> exists_in (heap s) l) ->
  fact_subset b sel s = Ok (flat_map (fun e => filter (admissible (heap s) sel b) (all_pairs (rels_of (heap s) e) (rels_of (heap s) e))) (selected (heap s) KEdge sel)).
Proof. exact (r_C38 b sel s). Qed.
Print Assumptions C38_admissible_pairs.

(** C39 *)
Theorem C39_relation_pairs b sel s : reach s -> rels_complete (heap s) sel ->
  (balanced (heap s) sel -> fact_relations b sel s = Ok (rel_pairs (heap s) b (selected (heap s) KRel sel))) /\
  (~ balanced (heap s) sel -> fact_relations b sel s = Exn KeyError) /\
  forall i o, (i, o) ∈ rel_pairs (heap s) b (selected (heap s) KRel sel) <->
    (i ∈ selected (heap s) KRel sel /\ o ∈ selected (heap s) KRel sel /\ inward (heap s) i /\ purely_out (heap s) o /\ puuid (heap s) i = puuid (heap s) o /\ no_loop (heap s) b (i, o)).
Proof. exact (r_C39 b sel s). Qed.
Print Assumptions C39_relation_pairs.
Theorem C39_orphan_relation b sel s r : reach s -> r ∈ sel -> kind_of (heap s) r = Some KRel -> parent_of (heap s) r = None -> fact_relations b sel s = Exn AttributeError.
Proof. exact (r_C39_orphan b sel s r). Qed.
Print Assumptions C39_orphan_relation.

(** C56 *)
Theorem C56_factorisation_walk s start : reach s -> exists_in (heap s) start ->
  ((forall i, rtc (walk_step (heap s)) (Some start) i -> ~ tc (walk_step (heap s)) i i) ->
     exists n, level (walk_next (heap s)) n [Some start] = [] /\
       forall lim, (length (level_order (walk_next (heap s)) n [Some start]) < lim ->
                      fact2 lim start s = Ok (flat_map (contributes (heap s)) (level_order (walk_next (heap s)) n [Some start]))) /\
                   (lim <= length (level_order (walk_next (heap s)) n [Some start]) -> fact2 lim start s = Exn RecursionError)) /\
  forall i, rtc (walk_step (heap s)) (Some start) i -> tc (walk_step (heap s)) i i -> forall lim, fact2 lim start s = Exn RecursionError.
Proof. exact (r_C56 s start). Qed.
Print Assumptions C56_factorisation_walk.
