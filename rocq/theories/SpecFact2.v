(** * Vocabulary: the two factorisations of one selection *)
From Verif Require Export SpecFact.

(** The selected relations are the relations of the selected edges that lead to
    selected nodes; selected edges have different uuids. *)
Definition whole_selection (h : list obj) (sel : list loc) : Prop :=
  (forall l, l ∈ sel -> exists_in h l) /\
  (forall r, r ∈ sel /\ kind_of h r = Some KRel <-> exists e, e ∈ sel /\ kind_of h e = Some KEdge /\ r ∈ rels_of h e /\ ep_selected h sel r) /\
  (forall e e', e ∈ sel -> e' ∈ sel -> kind_of h e = Some KEdge -> kind_of h e' = Some KEdge -> uuid_of h e = uuid_of h e' -> e = e').
(** Every selected edge into which a selected relation leads has a selected relation that only leads out. *)
Definition edges_balanced (h : list obj) (sel : list loc) : Prop :=
  forall e r, e ∈ sel -> kind_of h e = Some KEdge -> r ∈ sel -> r ∈ rels_of h e -> inward h r ->
    exists r', r' ∈ sel /\ r' ∈ rels_of h e /\ dir_of h r' = Some OUTWARDS.
(** No selected relation leads both ways. *)
Definition one_way (h : list obj) (sel : list loc) : Prop := forall r, r ∈ sel -> kind_of h r = Some KRel -> dir_of h r <> Some BIDIRECTIONAL.
