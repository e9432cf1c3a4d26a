(** * Vocabulary: factor pairs and tensor entries *)
From Verif Require Export SpecFact.

(** All direct sub-nodes and sub-edges of [c], in any order. *)
Definition all_of (h : list obj) (c : loc) (sel : list loc) : Prop := forall l, l ∈ sel <-> l ∈ nodes_of h c \/ l ∈ edges_of h c.
(** The pair [p] goes from [a] to [b] through the edge [e]. *)
Definition pair_through (h : list obj) (e a b : loc) (p : loc * loc) : Prop :=
  p.1 ∈ rels_of h e /\ p.2 ∈ rels_of h e /\ ep_of h p.1 = Some a /\ ep_of h p.2 = Some b.
(** A relation of [e] leads into it from [a], another one out of it to [b]. *)
Definition in_and_out (h : list obj) (e a b : loc) : Prop :=
  (exists r, r ∈ rels_of h e /\ ep_of h r = Some a /\ inward h r) /\ exists r, r ∈ rels_of h e /\ ep_of h r = Some b /\ outward h r.
