(** * Property theorems C89: decoding any message *)
From Verif Require Import Spec Hierarchy Elements Factory History Traverse Homomorphism HTraverse Encode SpecEnc QDec2 SpecDecode.

(** C89: exactly the acceptable messages are decoded, by every decoder in every state ... *)
Theorem C89_accepted m s g : reach s -> is_ok (fst (fst (create_graph m s g))) <-> acceptable (items m).
Proof. exact (q_C89_accepted m s g). Qed.
Print Assumptions C89_accepted.
(** ... into what they describe and nothing else ... *)
Theorem C89_built m s g root x s' g' : reach s -> create_graph m s g = (Ok (root, x), s', g') ->
  reach s' /\ built m (heap s) (heap s') /\ last_root m (length (heap s)) root /\ ic_context g' = root /\ ic_hom g' = Some x.
Proof. exact (q_C89_built m s g root x s' g'). Qed.
Print Assumptions C89_built.
(** ... with the index tables of the message; ... *)
Theorem C89_tables m s g root x s' g' : create_graph m s g = (Ok (root, x), s', g') -> tables m x.
Proof. exact (q_C89_tables m s g root x s' g'). Qed.
Print Assumptions C89_tables.
(** ... all others raise, and leave the decoder as it was. *)
Theorem C89_errors m s g e s' g' : reach s -> create_graph m s g = (Exn e, s', g') ->
  (e = KeyError \/ e = ErrorDuplicateElement \/ e = ErrorRecursiveHierarchy) /\ g' = g.
Proof. exact (q_C89_errors m s g e s' g'). Qed.
Print Assumptions C89_errors.
