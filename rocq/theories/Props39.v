(** * Property theorems C102: factor pairs and tensor entries *)
From stdpp Require Import relations.
From Verif Require Import Spec Hierarchy Elements Factory History PReach SpecTrav SpecHom Traverse Homomorphism HTraverse Tensor SpecTensor Factorization SpecFact SpecFact3 QFact6.
Local Open Scope nat_scope.

(** Which pairs there are: from [a] to [b] through [e] exactly if [e] is entered from [a] and left to [b]. *)
Theorem C102_pairs s c sel : reach s -> closed_graph (heap s) c -> all_of (heap s) c sel ->
  exists ps, fact_subset false sel s = Ok ps /\
    (forall p, p ∈ ps -> exists e a b, e ∈ edges_of (heap s) c /\ a ∈ nodes_of (heap s) c /\ b ∈ nodes_of (heap s) c /\ pair_through (heap s) e a b p) /\
    forall e a b, e ∈ edges_of (heap s) c -> ((exists p, p ∈ ps /\ pair_through (heap s) e a b p) <-> a <> b /\ in_and_out (heap s) e a b).
Proof.
  intros R C A. exists (graph_pairs s sel). split; [exact (graph_pairs_eq s R c sel A)|]. split; [exact (every_pair s c C sel A)|exact (pair_exists s R c C sel A)].
Qed.
Print Assumptions C102_pairs.

(** Every pair has its entry in the weight tensor. *)
Theorem C102_pairs_have_entries s c sel lim x T ps p : reach s -> closed_graph (heap s) c -> all_of (heap s) c sel ->
  work (heap s) c < lim -> computes lim c s x T -> unweighted (heap s) c ->
  fact_subset false sel s = Ok ps -> p ∈ ps ->
  exists k e i a j b, edges_of (heap s) c !! k = Some e /\ nodes_of (heap s) c !! i = Some a /\ nodes_of (heap s) c !! j = Some b /\
    pair_through (heap s) e a b p /\ te_W T k i j = 1%Qc.
Proof.
  intros R C A Hl HT U E. rewrite (graph_pairs_eq s R c sel A) in E. injection E as <-. exact (pairs_have_entries s R c C sel A lim Hl x T HT U p).
Qed.
Print Assumptions C102_pairs_have_entries.

(** If all relations are BIDIRECTIONAL, or the edge has one way in and one way out, the entries are exactly the pairs. *)
Theorem C102_agree s c sel lim x T ps k e i a j b : reach s -> closed_graph (heap s) c -> all_of (heap s) c sel ->
  work (heap s) c < lim -> computes lim c s x T -> unweighted (heap s) c -> fact_subset false sel s = Ok ps ->
  edges_of (heap s) c !! k = Some e -> nodes_of (heap s) c !! i = Some a -> nodes_of (heap s) c !! j = Some b ->
  (undirected (heap s) c \/ exists r r', rels_of (heap s) e ≡ₚ [r; r'] /\ dir_of (heap s) r = Some INWARDS /\ dir_of (heap s) r' = Some OUTWARDS) ->
  te_W T k i j <> 0%Qc <-> exists p, p ∈ ps /\ pair_through (heap s) e a b p.
Proof.
  intros R C A Hl HT U E He Ha Hb K. rewrite (graph_pairs_eq s R c sel A) in E. injection E as <-.
  apply (agree s R c C sel A lim Hl x T HT U k e i a j b He Ha Hb). pose proof (elem_of_list_lookup_2 _ _ _ He) as Hin. destruct K as [K|(r & r' & P & D & D')].
  - exact (undirected_io s c e a b K Hin).
  - destruct (cg_ep _ _ C e r Hin ltac:(rewrite P; left)) as (u & Eu & _). destruct (cg_ep _ _ C e r' Hin ltac:(rewrite P; right; left)) as (v & Ev & _).
    exact (two_rel_io s e a b r r' u v P D D' Eu Ev).
Qed.
Print Assumptions C102_agree.

(** In general there are more entries than pairs: an edge with relations inwards only has entries both ways. *)
Theorem C102_entries_refuted s c sel lim x T ps k e i a j b : reach s -> closed_graph (heap s) c -> all_of (heap s) c sel ->
  work (heap s) c < lim -> computes lim c s x T -> unweighted (heap s) c -> fact_subset false sel s = Ok ps ->
  edges_of (heap s) c !! k = Some e -> nodes_of (heap s) c !! i = Some a -> nodes_of (heap s) c !! j = Some b ->
  a <> b -> a ∈ endpoints (heap s) e -> b ∈ endpoints (heap s) e -> (forall r, r ∈ rels_of (heap s) e -> dir_of (heap s) r = Some INWARDS) ->
  te_W T k i j = 1%Qc /\ te_W T k j i = 1%Qc /\ forall p, p ∈ ps -> p.1 ∉ rels_of (heap s) e.
Proof.
  intros R C A Hl HT U E. rewrite (graph_pairs_eq s R c sel A) in E. injection E as <-. exact (entries_without_pair s R c C sel A lim Hl x T HT U k e i a j b).
Qed.
Print Assumptions C102_entries_refuted.
