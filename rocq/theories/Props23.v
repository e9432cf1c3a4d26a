(** * Property theorems C83, C84: the query engine after a failure, and the order of its results *)
From Verif Require Import Spec SpecTrav Hierarchy Elements Factory History QueryEngine SpecQuery QQuery3 QQuery4.

(** C83.  The execution fails with RecursionError (0 < [lim] <= number of elements below the start).
    The same query executed again, with a limit that suffices, returns every match twice; afterwards
    the query is idle and the state is the old one, so that C43 applies again. *)
Theorem C83_retry_doubles s lim e qs i q : reach s -> qs !! i = Some q -> exists_in (heap s) (q_start q) -> idle q -> dvals e = [i] ->
  0 < lim -> too_big (heap s) lim q ->
  (exists r s1 qs1, engine_run lim e s qs r s1 qs1) /\
  forall r s1 qs1, engine_run lim e s qs r s1 qs1 -> r = Exn RecursionError /\ heap s1 = heap s /\
    forall lim2 e2, dvals e2 = [i] -> 2 * length (heap s) < lim2 ->
      (exists r2 s2 qs2, engine_run lim2 e2 s1 qs1 r2 s2 qs2) /\
      forall r2 s2 qs2, engine_run lim2 e2 s1 qs1 r2 s2 qs2 -> s2 = s /\ exists rs part, r2 = Ok rs /\ part_of s qs i part /\ rs ≡ₚ part ++ part /\
        exists q2, qs2 !! i = Some q2 /\ same_def q q2 /\ idle q2.
Proof. intros R. exact (q_C83_retry s R lim e qs i q). Qed.
Print Assumptions C83_retry_doubles.
(** Another query, executed after the failure: it also examines what the failed one had not finished,
    even if it lies outside of its start element or its traversal statement rejects it. *)
Theorem C83_isolation_refuted s lim e qs i q : reach s -> qs !! i = Some q -> exists_in (heap s) (q_start q) -> idle q -> dvals e = [i] -> too_big (heap s) lim q ->
  exists seen, NoDup seen /\ length seen = lim /\ (forall x, x ∈ seen -> through (q_sees q) (heap s) (q_start q) x) /\
  forall r s1 qs1, engine_run lim e s qs r s1 qs1 -> r = Exn RecursionError /\ heap s1 = heap s /\
    forall lim2 e2 i2 q2, dvals e2 = [i2] -> i2 <> i -> qs !! i2 = Some q2 -> exists_in (heap s) (q_start q2) -> idle q2 -> (exists x, q_visits (heap s) q2 x) ->
      length (heap s) * S (length (heap s)) < lim2 ->
      (exists r2 s2 qs2, engine_run lim2 e2 s1 qs1 r2 s2 qs2) /\
      forall r2 s2 qs2, engine_run lim2 e2 s1 qs1 r2 s2 qs2 -> s2 = s /\ exists rs, r2 = Ok rs /\
        forall x, x ∈ rs <-> q_matches s q2 x /\ (q_visits (heap s) q2 x \/ exists l, pending (heap s) q seen l /\ (x = l \/ through (q_sees q2) (heap s) l x)).
Proof. intros R. exact (q_C83_other s R lim e qs i q). Qed.
Print Assumptions C83_isolation_refuted.

(** C84: under the hypotheses of C43 every order of the matches within each query is the result of a run. *)
Theorem C84_every_order s lim e qs parts : reach s -> NoDup (dvals e) ->
  (forall i, i ∈ dvals e -> exists q, qs !! i = Some q /\ exists_in (heap s) (q_start q) /\ fits (heap s) lim q /\ idle q) ->
  (exists i q x, i ∈ dvals e /\ qs !! i = Some q /\ q_visits (heap s) q x) ->
  Forall2 (part_of s qs) (dvals e) parts -> exists qs', engine_run lim e s qs (Ok (mjoin parts)) s qs'.
Proof. intros R. exact (q_C84 s R lim e qs parts). Qed.
Print Assumptions C84_every_order.
