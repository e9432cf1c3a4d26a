(** * Vocabulary: an icon that was updated for another node *)
From Verif Require Export SpecEnc.

(** The traversal from [a] through elements of kind [k] meets one with uuid [u]. *)
Definition met (k : kind -> bool) (h : list obj) (a : loc) (u : uid) : Prop :=
  exists z, (z = a \/ through (is_kind k) h a z) /\ k <$> kind_of h z = Some true /\ uuid_of h z = u.
(** Everything in a message about [c] is met from [a]. *)
Record known (h : list obj) (a c : loc) : Prop := {
  kn_node : forall y, y ∈ c :: nodes_of h c -> met k_node h a (uuid_of h y);
  kn_edge : forall y, y ∈ edges_of h c -> met k_edge h a (uuid_of h y);
  kn_value : forall y, y ∈ values_of h c -> met k_value h a (uuid_of h y) }.
