(** * Vocabulary for the index homomorphism *)
From Verif Require Export SpecTrav Homomorphism.

(** [ls]: what a breadth-first traversal visits, in order. *)
Definition bfs_order (t : trav) (h : list obj) (start : loc) (ls : list loc) : Prop :=
  let kids := fkids (t_filter t) h in
  exists n, match t_max t with Some m => n = m | None => level kids n (kids start) = [] end /\
    ls = root_part t h start ++ level_order kids n (kids start).

(** The two maps describe the list [us]: the index of a position leads to the
    uuid, the uuid leads to its last position. *)
Definition indexes (us : list uid) (index : uid -> res nat) (at_ : nat -> res uid) (cnt : nat) : Prop :=
  cnt = length us /\
  (forall i, at_ i = match us !! i with Some u => Ok u | None => Exn KeyError end) /\
  (forall u i, index u = Ok i <-> us !! i = Some u /\ (forall j, us !! j = Some u -> j <= i)) /\
  (forall u, u ∉ us -> index u = Exn KeyError).
(** Mutually inverse, with the indices 0 .. cnt-1. *)
Definition bijective (index : uid -> res nat) (at_ : nat -> res uid) (cnt : nat) : Prop :=
  (forall u i, index u = Ok i <-> at_ i = Ok u) /\
  (forall i, i < cnt <-> exists u, at_ i = Ok u).

(** The three families of an object. *)
Definition all_indexes (x : hom) (ns es vs : list uid) : Prop :=
  indexes ns (hom_node x) (hom_dim x) (cnt_node x) /\
  indexes es (hom_edge x) (hom_depth x) (cnt_edges x) /\
  indexes vs (hom_val x) (hom_ival x) (cnt_values x).
(** What the pairs [l] say. *)
Definition pairs_hold (l : list (uid * nat)) (index : uid -> res nat) (at_ : nat -> res uid) (cnt : nat) : Prop :=
  cnt = length l /\
  (forall u i, index u = Ok i <-> (u, i) ∈ l) /\ (forall u i, at_ i = Ok u <-> (u, i) ∈ l).
