(** * Vocabulary for the search properties *)
From Verif Require Export SpecTrav Search.

(** qualified_name *)
Definition qname_of (h : list obj) (l : loc) : string := default "" (o_qname <$> h !! l).
(** Everything at or below [l], level by level, siblings in insertion order. *)
Definition subtree_order (h : list obj) (l : loc) (ls : list loc) : Prop :=
  exists n, level (children h) n [l] = [] /\ ls = level_order (children h) n [l].
(** [y] is the first element of [ls] with qualified name [d]; [l1] is before it. *)
Definition first_match (h : list obj) (d : string) (ls l1 : list loc) (y : loc) (l2 : list loc) : Prop :=
  ls = l1 ++ y :: l2 /\ qname_of h y = d /\ forall z, z ∈ l1 -> qname_of h z <> d.
(** In the same tree. *)
Definition same_tree (h : list obj) (a b : loc) : Prop := exists r, within h r a /\ within h r b.
(** No two elements of the tree of [l] have the same uuid. *)
Definition distinct_uuids (h : list obj) (l : loc) : Prop :=
  forall a b, same_tree h l a -> same_tree h l b -> exists_in h a -> exists_in h b -> uuid_of h a = uuid_of h b -> a = b.
