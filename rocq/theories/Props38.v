(** * Property theorems C101: the two factorisations of one selection *)
From stdpp Require Import relations.
From Verif Require Import Spec Hierarchy Elements Factory History PReach SpecTensor Factorization SpecFact SpecFact2 QFact5.

(** If every edge has a way out, both succeed, and the relation factorisation returns the pairs of
    the other one whose second relation is not BIDIRECTIONAL. *)
Theorem C101_balanced b sel s : reach s -> whole_selection (heap s) sel -> edges_balanced (heap s) sel ->
  exists ps qs, fact_subset b sel s = Ok ps /\ fact_relations b sel s = Ok qs /\
    (forall i o, (i, o) ∈ qs <-> (i, o) ∈ ps /\ dir_of (heap s) o <> Some BIDIRECTIONAL) /\ (NoDup sel -> NoDup ps /\ NoDup qs).
Proof. intros R H. exact (two_balanced s R sel H b). Qed.
Print Assumptions C101_balanced.

(** Otherwise only the subset factorisation succeeds. *)
Theorem C101_unbalanced b sel s : reach s -> whole_selection (heap s) sel -> ~ edges_balanced (heap s) sel ->
  (exists ps, fact_subset b sel s = Ok ps) /\ fact_relations b sel s = Exn KeyError.
Proof. intros R H. exact (two_unbalanced s R sel H b). Qed.
Print Assumptions C101_unbalanced.

(** They agree, up to the order, if no relation is BIDIRECTIONAL. *)
Theorem C101_agree b sel s : reach s -> whole_selection (heap s) sel -> edges_balanced (heap s) sel -> one_way (heap s) sel -> NoDup sel ->
  exists ps qs, fact_subset b sel s = Ok ps /\ fact_relations b sel s = Ok qs /\ ps ≡ₚ qs.
Proof. intros R H. exact (two_agree s R sel H b). Qed.
Print Assumptions C101_agree.

(** With self loops they differ as soon as one is. *)
Theorem C101_differ sel s r : reach s -> whole_selection (heap s) sel -> edges_balanced (heap s) sel ->
  r ∈ sel -> kind_of (heap s) r = Some KRel -> dir_of (heap s) r = Some BIDIRECTIONAL ->
  exists ps qs, fact_subset true sel s = Ok ps /\ fact_relations true sel s = Ok qs /\ (r, r) ∈ ps /\ (r, r) ∉ qs.
Proof. intros R H. exact (two_differ s R sel H r). Qed.
Print Assumptions C101_differ.
