(** * Property theorems C93: representations that are used again *)
From Verif Require Import Spec SpecTrav Hierarchy Elements Factory History Traverse Homomorphism HTraverse Tensor SpecTensor Reuse SpecReuse QReuse.
Local Open Scope nat_scope.

(** A new representation: the transformer. *)
Theorem C93_new lim d c s : let '(r, s', o) := transform lim d c s in
  exists p, rep_run lim d c s rep_new = (r, s', p) /\ match r with Ok _ => exists x, o = Some (x, rp_T p) | Exn _ => True end.
Proof. exact (rep_run_new lim d c s). Qed.
Print Assumptions C93_new.
(** A used one, whatever it was used for: right arrays if the sizes are others than the
    recorded ones, otherwise the old arrays with the non-zero entries of the graph. *)
Theorem C93_reused s c lim p : used p -> reach s -> closed_graph (heap s) c -> work (heap s) c < lim ->
  exists tasks p', rep_run lim (Some 1) c s p = (Ok tasks, s, p') /\ used p' /\ rp_cnt p' = Some (sizes (heap s) c) /\
    (rp_cnt p <> Some (sizes (heap s) c) -> sizes (heap s) c <> (0, 0) -> exists T, rp_T p' = Some T /\ describes (heap s) c T) /\
    (forall T0, rp_cnt p = Some (sizes (heap s) c) -> rp_T p = Some T0 -> exists T, rp_T p' = Some T /\ overlaid (heap s) c T0 T).
Proof. exact (q_C93_runs s c lim p). Qed.
Print Assumptions C93_reused.
(** So the arrays are right exactly if the old arrays have no entry that the graph does not have ... *)
Theorem C93_right_iff h c T0 T : overlaid h c T0 T -> describes h c T <-> no_more h c T0.
Proof. exact (q_C93_right h c T0 T). Qed.
Print Assumptions C93_right_iff.
(** ... e.g. for an unchanged graph. *)
Theorem C93_again h c T0 T : describes h c T0 -> overlaid h c T0 T -> describes h c T.
Proof. exact (q_C93_again h c T0 T). Qed.
Print Assumptions C93_again.
(** After any number of graphs of the same sizes, an entry is the last non-zero one. *)
Theorem C93_last_nonzero lim p l p' n E : used p -> uses lim p l p' -> rp_cnt p <> Some (n, E) -> (n, E) <> (0, 0) ->
  (forall g, g ∈ l -> sizes (heap (fst g)) (snd g) = (n, E)) -> l <> [] ->
  rp_cnt p' = Some (n, E) /\ exists T, rp_T p' = Some T /\ te_E T = E /\ te_n T = n /\
    forall k i j, k < E -> i < n -> j < n -> te_W T k i j = last_nonzero (map (fun g => at_W g k i j) l).
Proof. exact (uses_facts lim p l p' n E). Qed.
Print Assumptions C93_last_nonzero.
