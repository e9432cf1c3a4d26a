(** * C38, C39, C56 for reachable states *)
From stdpp Require Import relations.
From Verif Require Import Spec Hierarchy Elements Factory History PWF PReach SpecTrav SpecTensor Factorization SpecFact QFact QFact2 QFact3.

Lemma r_C38 b sel s : reach s -> (forall l, l ∈ sel -> exists_in (heap s) l) ->
  fact_subset b sel s = Ok (flat_map (fun e => filter (admissible (heap s) sel b) (all_pairs (rels_of (heap s) e) (rels_of (heap s) e))) (selected (heap s) KEdge sel)).
Proof. intros R. exact (q_C38 s (reach_wf s R) b sel). Qed.
Lemma r_C39 b sel s : reach s -> rels_complete (heap s) sel ->
  (balanced (heap s) sel -> fact_relations b sel s = Ok (rel_pairs (heap s) b (selected (heap s) KRel sel))) /\
  (~ balanced (heap s) sel -> fact_relations b sel s = Exn KeyError) /\
  forall i o, (i, o) ∈ rel_pairs (heap s) b (selected (heap s) KRel sel) <->
    (i ∈ selected (heap s) KRel sel /\ o ∈ selected (heap s) KRel sel /\ inward (heap s) i /\ purely_out (heap s) o /\ puuid (heap s) i = puuid (heap s) o /\ no_loop (heap s) b (i, o)).
Proof. intros R Hc. destruct (q_C39 s (reach_wf s R) b sel Hc). split; [done|]. split; [done|]. intros i o. apply q_C39_pairs. Qed.
Lemma r_C39_orphan b sel s r : reach s -> r ∈ sel -> kind_of (heap s) r = Some KRel -> parent_of (heap s) r = None -> fact_relations b sel s = Exn AttributeError.
Proof. intros R. exact (q_C39_orphan s (reach_wf s R) b sel r). Qed.
Lemma r_C56 s start : reach s -> exists_in (heap s) start ->
  ((forall i, rtc (walk_step (heap s)) (Some start) i -> ~ tc (walk_step (heap s)) i i) ->
     exists n, level (walk_next (heap s)) n [Some start] = [] /\
       forall lim, (length (level_order (walk_next (heap s)) n [Some start]) < lim ->
                      fact2 lim start s = Ok (flat_map (contributes (heap s)) (level_order (walk_next (heap s)) n [Some start]))) /\
                   (lim <= length (level_order (walk_next (heap s)) n [Some start]) -> fact2 lim start s = Exn RecursionError)) /\
  forall i, rtc (walk_step (heap s)) (Some start) i -> tc (walk_step (heap s)) i i -> forall lim, fact2 lim start s = Exn RecursionError.
Proof.
  intros R He. pose proof (reach_wf s R) as W. split.
  - intros Hc. destruct (q_C56_acyclic s W start He Hc) as [n Hn]. exists n. split; [done|]. intros lim. split.
    + by apply q_C56_done.
    + by apply q_C56_limit.
  - intros i Hi Hc lim. by eapply q_C56_cycle.
Qed.
