(** * Property theorems C43, C57: the query engine *)
From Verif Require Import Spec SpecTrav Hierarchy Elements Factory History QueryEngine SpecQuery QQuery2.

(** C43.  In the first case the queries are idle again afterwards, so the theorem applies to
    any number of executions. *)
Theorem C43_any_schedule s lim e qs : reach s -> NoDup (dvals e) ->
  (forall i, i ∈ dvals e -> exists q, qs !! i = Some q /\ exists_in (heap s) (q_start q) /\ fits (heap s) lim q /\ idle q) ->
  ((exists i q x, i ∈ dvals e /\ qs !! i = Some q /\ q_visits (heap s) q x) ->
    (exists r s' qs', engine_run lim e s qs r s' qs') /\
    forall r s' qs', engine_run lim e s qs r s' qs' -> s' = s /\
      (exists parts, r = Ok (mjoin parts) /\ Forall2 (part_of s qs) (dvals e) parts) /\
      (forall i q, qs !! i = Some q -> exists q', qs' !! i = Some q' /\ same_def q q' /\ (idle q -> idle q'))) /\
  ((forall i q, i ∈ dvals e -> qs !! i = Some q -> q_tasks q = [] /\ forall x, ~ q_visits (heap s) q x) ->
    (exists r s' qs', engine_run lim e s qs r s' qs') /\
    forall r s' qs', engine_run lim e s qs r s' qs' -> s' = s /\ r = Exn ValueError).
Proof. intros R. exact (q_C43 s R lim e qs). Qed.
Print Assumptions C43_any_schedule.

(** C57: a query registered under several names *)
Theorem C57_several_names s lim e qs i q : reach s -> qs !! i = Some q -> exists_in (heap s) (q_start q) -> fits (heap s) lim q -> idle q ->
  (forall j, j ∈ dvals e -> j = i) -> (exists x, q_visits (heap s) q x) -> dvals e <> [] ->
  (exists r s' qs', engine_run lim e s qs r s' qs') /\
  forall r s' qs', engine_run lim e s qs r s' qs' -> exists rs, r = Ok rs /\ exists part, part_of s qs i part /\ rs ≡ₚ mjoin (replicate (length e) part).
Proof. intros R. exact (q_C57 s R lim e qs i q). Qed.
Print Assumptions C57_several_names.
