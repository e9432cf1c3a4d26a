(** * Property theorems C86, C87: the depth of the tensor representation, and tensors after a failure *)
From Verif Require Import Spec SpecTrav Hierarchy Elements Factory History Homomorphism SpecHom HTraverse Tensor SpecTensor SpecHTrav SpecCoo SpecDepth QDepth QPoison.

(** C86.  A graph of direct sub-nodes without relations of their own: the representation depth makes no difference. *)
Theorem C86_flat s c lim mx : reach s -> closed_graph (heap s) c -> flat (heap s) c -> length (children (heap s) c) < lim -> htrav_work (heap s) c 2 < lim ->
  transform lim mx c s = transform lim (Some 1) c s.
Proof. exact (q_C86_flat s c lim mx). Qed.
Print Assumptions C86_flat.
(** Expected: a larger depth includes the edges of the connected nodes.  If one of them has an edge with
    relations, whose uuid differs from those of the edges of [c], every depth from 2 fails; all but the first
    of the relations found there stay in the queue of the class. *)
Theorem C86_deeper_refuted s c lim mx p e : reach s -> closed_graph (heap s) c -> (forall d, mx = Some d -> 2 <= d) ->
  p ∈ neighbours (heap s) c -> e ∈ edges_of (heap s) p -> rels_of (heap s) e <> [] ->
  (forall p' e' y, p' ∈ neighbours (heap s) c -> e' ∈ edges_of (heap s) p' -> y ∈ edges_of (heap s) c -> uuid_of (heap s) y <> uuid_of (heap s) e') ->
  length (children (heap s) c) < lim -> htrav_work (heap s) c 2 < lim ->
  exists x, transform lim mx c s = (Exn KeyError, set_fr_hyper (map (fun r => (r, 1)) (tail (flat_map (out_rels (heap s)) (neighbours (heap s) c)))) s, Some (x, synchronize x)).
Proof. exact (q_C86_nested s c lim mx p e). Qed.
Print Assumptions C86_deeper_refuted.

(** C87.  Expected: a computation depends on its graph only.  If the queue still holds [n] relations of other
    edges, each of the next [n] computations fails; every one takes a relation and leaves its start node. *)
Theorem C87_independence_refuted s c lim mx q n : reach s -> closed_graph (heap s) c -> length (children (heap s) c) < lim -> (forall i, i ∈ q -> foreign (heap s) c i.1) ->
  n < length q -> exists x, transform lim mx c (after_transforms n lim mx c (set_fr_hyper q s)) =
    (Exn KeyError, set_fr_hyper (drop (S n) q ++ repeat (c, 0) (S n)) s, Some (x, synchronize x)).
Proof. exact (q_C87_poisoned s c lim mx q n). Qed.
Print Assumptions C87_independence_refuted.
(** The next one succeeds, with the same arrays as in an undisturbed program, and empties the queue. *)
Theorem C87_recovers s c lim q : reach s -> closed_graph (heap s) c -> (forall i, i ∈ q -> foreign (heap s) c i.1) ->
  S (length q) * work (heap s) c < lim ->
  exists tasks x T T', transform lim (Some 1) c s = (Ok tasks, s, Some (x, T)) /\
    transform lim (Some 1) c (after_transforms (length q) lim (Some 1) c (set_fr_hyper q s)) = (Ok tasks, s, Some (x, T')) /\ same_arrays T T'.
Proof. exact (q_C87_recovers s c lim q). Qed.
Print Assumptions C87_recovers.
(** Both together: a failed computation on [c], then repeated computations on [c2]. *)
Theorem C87_after_failure s c c2 lim mx p e n : reach s -> closed_graph (heap s) c -> closed_graph (heap s) c2 -> (forall d, mx = Some d -> 2 <= d) ->
  p ∈ neighbours (heap s) c -> e ∈ edges_of (heap s) p -> rels_of (heap s) e <> [] ->
  (forall p' e' y, p' ∈ neighbours (heap s) c -> e' ∈ edges_of (heap s) p' -> y ∈ edges_of (heap s) c \/ y ∈ edges_of (heap s) c2 -> uuid_of (heap s) y <> uuid_of (heap s) e') ->
  length (children (heap s) c) < lim -> htrav_work (heap s) c 2 < lim -> length (flat_map (out_rels (heap s)) (neighbours (heap s) c)) * work (heap s) c2 < lim ->
  let s1 := snd (fst (transform lim mx c s)) in
  let s2 := after_transforms n lim (Some 1) c2 s1 in
  let left := length (flat_map (out_rels (heap s)) (neighbours (heap s) c)) - 1 in
  fst (fst (transform lim mx c s)) = Exn KeyError /\
  (n < left -> fst (fst (transform lim (Some 1) c2 s2)) = Exn KeyError) /\
  (n = left -> exists tasks x T T', transform lim (Some 1) c2 s = (Ok tasks, s, Some (x, T)) /\ transform lim (Some 1) c2 s2 = (Ok tasks, s, Some (x, T')) /\ same_arrays T T').
Proof. exact (q_C87_after_nested s c c2 lim mx p e n). Qed.
Print Assumptions C87_after_failure.
