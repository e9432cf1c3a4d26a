(** * Property theorems C90, C91: sending a graph on; the context of an icon *)
From Verif Require Import Spec SpecTrav Hierarchy Elements Factory History Traverse Homomorphism HTraverse Encode SpecEnc QRelay QCtx SpecRelay SpecCtx.

(** C90: after one program that decodes and sends, the message is the standard one, and
    stays so however many more programs send it on; ... *)
Theorem C90_any_number s c lim m n m' : reach s -> sendable (heap s) c -> sends lim s c m -> relayed_n (S n) m m' -> m' = standard (heap s) c.
Proof. exact (q_C90_any_number s c lim m n m'). Qed.
Print Assumptions C90_any_number.
(** ... any number of them can; ... *)
Theorem C90_possible s c lim m : reach s -> sendable (heap s) c -> sends lim s c m -> forall n, exists m', relayed_n n m m'.
Proof. exact (q_C90_possible s c lim m). Qed.
Print Assumptions C90_possible.
(** ... and the message of a regular graph is the standard one already. *)
Theorem C90_unchanged s c lim m : reach s -> sendable (heap s) c -> regular (heap s) c -> sends lim s c m -> m = standard (heap s) c.
Proof. exact (q_C90_unchanged s c lim m). Qed.
Print Assumptions C90_unchanged.

(** C91: an icon for [c], updated with any [a] *)
Theorem C91_context_fixed s a c lim g r s1 g1 : reach s -> sendable (heap s) c -> exists_in (heap s) a -> co_context (ic_coo g) = c -> update_context lim a s g = (Ok r, s1, g1) ->
  s1 = s /\ (is_ok (fst (full_msg s1 g1)) <-> known (heap s) a c) /\
  (forall m g2, full_msg s1 g1 = (Ok m, g2) -> co_rels (ic_coo g) = [] -> tells (heap s) c m) /\
  (forall e g2, full_msg s1 g1 = (Exn e, g2) -> e = KeyError).
Proof. exact (q_C91 s a c lim g r s1 g1). Qed.
Print Assumptions C91_context_fixed.
Theorem C91_elsewhere s a c lim g r s1 g1 : reach s -> sendable (heap s) c -> exists_in (heap s) a -> co_context (ic_coo g) = c -> update_context lim a s g = (Ok r, s1, g1) ->
  (forall z, within (heap s) a z -> kind_of (heap s) z = Some KNode -> uuid_of (heap s) z <> uuid_of (heap s) c) ->
  exists g2, full_msg s1 g1 = (Exn KeyError, g2).
Proof. exact (q_C91_elsewhere s a c lim g r s1 g1). Qed.
Print Assumptions C91_elsewhere.
